(** A mathematical library with correct rounding, and a float64 space (C03, C04, C05). *)
From Coq Require Import String List ZArith Bool Lia Reals Lra Psatz.
From Flocq Require Import Core.Core IEEE754.BinarySingleNaN.
From Flocq Require Import Relative.
From Verif Require Import Base BaseLemmas Num Values Transformers Dimension Space NumLaws F64Arith F64Dim SpaceSpec
  SpaceProps LibmSpec FloatRound FloatLog FloatSpace Samples.
Import ListNotations.
Open Scope list_scope.
Set Implicit Arguments.
Local Open Scope R_scope.
Local Arguments Z.pow : simpl never.

Definition nearest (x : R) : float :=
  let y := rnd x in
  @binary_normalize 53 1024 prec64 emax64 mode_NE
    (Ztrunc (scaled_mantissa radix2 (SpecFloat.fexp 53 1024) y)) (cexp radix2 (SpecFloat.fexp 53 1024) y) false.
Lemma nearest_ok x : Rabs x <= big -> is_finite (nearest x) = true /\ B2R (nearest x) = rnd x.
Proof.
  intros H. unfold nearest. set (y := rnd x).
  assert (G : generic_format radix2 (SpecFloat.fexp 53 1024) y) by (apply generic_format_round; [apply fexp64_valid|apply valid_rnd_N]).
  pose proof (binary_normalize_correct 53 1024 prec64 emax64 mode_NE
    (Ztrunc (scaled_mantissa radix2 (SpecFloat.fexp 53 1024) y)) (cexp radix2 (SpecFloat.fexp 53 1024) y) false) as Q.
  cbv zeta in Q. rewrite <- G in Q. change (round_mode mode_NE) with ZnearestE in Q.
  assert (E : round radix2 (SpecFloat.fexp 53 1024) ZnearestE y = y) by (apply round_generic; [apply valid_rnd_N|exact G]).
  rewrite E in Q. rewrite Rlt_bool_true in Q; [now split|]. pose proof (rnd_le_big x H). pose proof big_lt. unfold y. lra.
Qed.

Lemma rel_err x : bpow radix2 (-1022) <= Rabs x -> Rabs (rnd x - x) <= / IZR (2 ^ 51) * Rabs x.
Proof.
  intros H. pose proof (@relative_error_N_FLT radix2 (-1074) 53 eq_refl (fun z => negb (Z.even z)) x H) as R.
  change (round _ _ _ x) with (rnd x) in R. eapply Rle_trans; [exact R|]. apply Rmult_le_compat_r; [apply Rabs_pos|].
  change (bpow radix2 (- (53) + 1)) with (/ IZR (2 ^ 52)). replace (IZR (2 ^ 52)) with (2 * IZR (2 ^ 51)) by (rewrite <- mult_IZR; f_equal).
  assert (0 < IZR (2 ^ 51)) by (apply IZR_lt; easy). rewrite Rinv_mult. assert (0 < / IZR (2 ^ 51)) by now apply Rinv_0_lt_compat. lra.
Qed.

(** Every result the float nearest to the true one. *)
Definition LC : libm := {|
  l_log10 := fun x => nearest (ln (B2R x) / ln 10);
  l_pow := fun b y => nearest (Rpower (B2R b) (B2R y));
  l_exp := fun x => nearest (exp (B2R x));
  l_log := fun x => nearest (ln (B2R x));
  l_str := l_str L0; l_parse := l_parse L0 |}.

Lemma below_one (b : float) : B2R b < 1 -> B2R b <= 1 - / IZR (2 ^ 53).
Proof.
  intros H.
  assert (G : generic_format radix2 (SpecFloat.fexp 53 1024) (bpow radix2 0)) by (apply (@generic_Z 1); now vm_compute).
  pose proof (@pred_ge_gt radix2 (SpecFloat.fexp 53 1024) _ _ _ (generic_format_B2R 53 1024 b) G H) as S.
  rewrite pred_bpow in S. exact S.
Qed.
Lemma ln_bound (x : float) : 0 < B2R x -> Rabs (ln (B2R x)) <= 1100.
Proof.
  intros Hx.
  assert (Q : bpow radix2 (-1074) <= B2R x) by (apply (@generic_format_ge_bpow radix2 (SpecFloat.fexp 53 1024)); [intros e; unfold SpecFloat.fexp, SpecFloat.emin; lia|exact Hx|apply generic_format_B2R]).
  pose proof (abs_B2R_lt_emax _ _ x) as A. apply Rabs_def2 in A. apply Rabs_le. pose proof ln2_lt_1. pose proof ln_lt_2. split.
  - apply Rle_trans with (ln (bpow radix2 (-1074))); [rewrite ln_bpow; lra|]. apply ln_le_M. split; [apply bpow_gt_0|exact Q].
  - apply Rle_trans with (ln (bpow radix2 1024)); [apply ln_le_M; lra|rewrite ln_bpow; lra].
Qed.
Lemma ln10_ge_1 : 1 <= ln 10 <= 10.
Proof.
  split.
  - rewrite <- (ln_exp 1). apply ln_le_M. split; [apply exp_pos|]. pose proof exp_le_3. lra.
  - rewrite <- (ln_exp 10) at 2. apply ln_le_M. split; [lra|]. pose proof (exp_ineq1_le 10). lra.
Qed.
Lemma log_in_range (x : float) : 0 < B2R x -> Rabs (ln (B2R x) / ln 10) <= big.
Proof.
  intros H. pose proof (ln_bound _ H) as A. pose proof ln10_ge_1 as T.
  unfold Rdiv. rewrite Rabs_mult, Rabs_inv, (Rabs_pos_eq (ln 10)) by lra.
  apply Rle_trans with (Rabs (ln (B2R x)) * 1).
  - apply Rmult_le_compat_l; [apply Rabs_pos|]. rewrite <- Rinv_1. apply Rinv_le; lra.
  - apply Rle_trans with (Rabs (IZR 1100)); [rewrite (Rabs_pos_eq (IZR 1100)); lra|]. apply big_Z. now vm_compute.
Qed.

Lemma LC_good : good_libm LC.
Proof.
  split; [|split].
  - intros x Fx Hx. cbn [l_log10 LC]. destruct (nearest_ok _ (log_in_range _ Hx)) as [F E]. split; [exact F|]. rewrite E.
    destruct (Req_dec (B2R x) 1) as [H1|H1].
    + rewrite H1, ln_1. unfold Rdiv. rewrite Rmult_0_l, rnd_0, Rminus_0_r, Rabs_R0. lra.
    + apply rel_err. pose proof ln10_ge_1 as T.
      assert (LB : / IZR (2 ^ 53) <= Rabs (ln (B2R x))).
      { destruct (Rle_dec 1 (B2R x)) as [D|D].
        - destruct (@ln_base x Fx) as [A _]; [lra|]. rewrite Rabs_pos_eq; [exact A|]. assert (0 < / IZR (2 ^ 53)) by (apply Rinv_0_lt_compat, IZR_lt; easy). lra.
        - pose proof (@below_one x ltac:(lra)) as A. pose proof (exp_ineq1_le (ln (B2R x))) as B. rewrite exp_ln in B by exact Hx.
          rewrite Rabs_left1; lra. }
      unfold Rdiv. rewrite Rabs_mult, Rabs_inv, (Rabs_pos_eq (ln 10)) by lra.
      apply Rle_trans with (/ IZR (2 ^ 53) * / 10).
      * rewrite <- Rinv_mult. rewrite <- mult_IZR. change (bpow radix2 (-1022)) with (/ IZR (2 ^ 1022)). apply Rinv_le; [apply IZR_lt; easy|apply IZR_le; now vm_compute].
      * apply Rmult_le_compat; [left; apply Rinv_0_lt_compat, IZR_lt; easy|lra|exact LB|apply Rinv_le; lra].
  - intros b y Fb Fy Hb HR. cbn [l_pow LC]. set (v := Rpower (B2R b) (B2R y)) in *.
    assert (P : Rabs v = v) by (apply Rabs_pos_eq; pose proof (bpow_gt_0 radix2 (-1022)); lra).
    destruct (@nearest_ok v) as [F E]; [rewrite P; apply HR|]. split; [exact F|]. rewrite E. pose proof (@rel_err v) as Q. rewrite P in Q. apply Q, HR.
  - intros x y Fx Fy H. cbn [l_log10 LC]. destruct (nearest_ok _ (log_in_range x (proj1 H))) as [_ ->].
    destruct (@nearest_ok (ln (B2R y) / ln 10)) as [_ ->]; [apply log_in_range; lra|]. apply rnd_mono.
    apply Rmult_le_compat_r; [left; apply Rinv_0_lt_compat, ln10_pos|]. now apply ln_le_M.
Qed.

(** A learning rate, a number of units, an offset and a kind. *)
Definition rate (k : tkind) : real_dim float := mkReal (fofZ 1) (fofZ 1000) PLogUniform (fofZ 10) k (Some "rate"%string) DT64.
Definition units (k : tkind) : int_dim float := mkInt 1 1024 PLogUniform (fofZ 2) k (Some "units"%string) int64.
Definition offset_dim (k : tkind) : real_dim float := mkReal (fofZ (-5)) (fofZ 10) PUniform (fofZ 10) k (Some "x"%string) DT64.

Lemma ln_small v : 1 <= v <= 1024 -> Rabs (ln v) <= 10.
Proof.
  intros H. rewrite Rabs_pos_eq.
  - apply Rle_trans with (ln (bpow radix2 10)); [apply ln_le_M; split; [lra|]; cbn; lra|]. rewrite ln_bpow. pose proof ln2_lt_1. lra.
  - rewrite <- ln_1. apply ln_le_M. lra.
Qed.
Lemma small_half z : (Z.abs z <= 2 ^ 53)%Z -> Rabs (B2R (fofZ z)) <= bpow radix2 1022.
Proof.
  intros H. destruct (fofZ_exact z H) as [_ ->]. rewrite <- abs_IZR. apply Rle_trans with (IZR (2 ^ 53)); [now apply IZR_le|].
  change (bpow radix2 1022) with (IZR (2 ^ 1022)). apply IZR_le. now vm_compute.
Qed.
Ltac ofZ z := let F := fresh "F" in let E := fresh "E" in destruct (@fofZ_exact z ltac:(now vm_compute)) as [F E].

Lemma rate_ok k : k = KIdentity \/ k = KNormalize -> float_real LC (rate k).
Proof.
  intros K. ofZ 1%Z. ofZ 1000%Z. ofZ 10%Z.
  assert (W : wf_real (F64 LC) (rate k)). { split; [|split; [reflexivity|exact K]]. cbn [r_low r_high rate nltb F64]. apply fltb_finite; try easy. rewrite E, E0. lra. }
  split; [exact W|]. split; [exact F|]. split; [exact F0|]. split; [apply small_half; now vm_compute|]. split; [apply small_half; now vm_compute|].
  intros _. split; [exact LC_good|]. split; [exact F1|]. cbn [r_base r_low r_high rate]. rewrite E, E0, E1.
  split; [lra|]. split; [lra|]. pose proof (@ln_small 1 ltac:(lra)). pose proof (@ln_small 1000 ltac:(lra)). split; lra.
Qed.
Lemma offset_ok k : k = KIdentity \/ k = KNormalize -> float_real LC (offset_dim k).
Proof.
  intros K. ofZ (-5)%Z. ofZ 10%Z.
  assert (W : wf_real (F64 LC) (offset_dim k)). { split; [|split; [reflexivity|exact K]]. cbn [r_low r_high offset_dim nltb F64]. apply fltb_finite; try easy. rewrite E, E0. lra. }
  split; [exact W|]. split; [exact F|]. split; [exact F0|]. split; [apply small_half; now vm_compute|]. split; [apply small_half; now vm_compute|]. discriminate.
Qed.
Lemma units_ok k : k = KIdentity \/ k = KNormalize -> float_log_int LC (units k).
Proof.
  intros K. ofZ 2%Z. split.
  - split; [now vm_compute|]. split; [now vm_compute|]. split; [now vm_compute|]. split; [|exact K]. intros z Hz. apply int64_id. cbn in Hz. assert (1024 <= 2 ^ 53)%Z by now vm_compute. lia.
  - split; [reflexivity|]. split; [exact LC_good|]. split; [exact F|]. cbn [i_base i_low i_high units]. rewrite E. split; [lra|]. split; [lia|now vm_compute].
Qed.

Definition tuned : list (dim float) := [DReal (rate KNormalize); DInt (units KNormalize); DReal (offset_dim KNormalize); cat3 KOnehot].
Definition tuned_point : list (pyval float) := [VFloat (fofZ 500); VInt 77; VFloat fhalf; VStr "c"%string].
Lemma cat3_ok : wf_dim (F64 LC) (cat3 KOnehot).
Proof.
  repeat split; simpl; try easy.
  - exists TyStr. repeat constructor.
  - repeat constructor.
  - repeat constructor.
Qed.
Lemma tuned_point_in : in_space (F64 LC) tuned tuned_point.
Proof.
  constructor; [constructor; cbn [r_low r_high rate nleb F64]; now vm_compute|].
  constructor; [constructor; cbn; lia|].
  constructor; [constructor; cbn [r_low r_high offset_dim nleb F64]; now vm_compute|].
  constructor; [constructor; right; right; now left|constructor].
Qed.
Lemma tuned_ok : Forall (float_dim LC) tuned /\ Forall (in_space (F64 LC) tuned) [tuned_point].
Proof.
  split.
  - constructor; [apply rate_ok; now right|]. constructor; [right; apply units_ok; now right|]. constructor; [apply offset_ok; now right|].
    constructor; [|constructor]. split; [exact cat3_ok|]. split; [now left|]. now vm_compute.
  - constructor; [exact tuned_point_in|constructor].
Qed.
