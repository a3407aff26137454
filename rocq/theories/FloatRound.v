(** Scaling a float64 to [0, 1] and back: the error made (C03, C04, C05). *)
From Coq Require Import ZArith Bool Lia Reals Lra Psatz.
From Flocq Require Import Core.Core IEEE754.BinarySingleNaN.
From Flocq Require Import Relative Plus_error.
From Verif Require Import Base Num NumLaws F64Arith F64Dim.
Set Implicit Arguments.
Local Open Scope R_scope.
Local Arguments Z.pow : simpl never.

Definition u53 := / IZR (2 ^ 53).
Lemma u53_pos : 0 < u53 <= / 1024.
Proof.
  assert (1024 <= IZR (2 ^ 53)) by (apply IZR_le; now vm_compute). unfold u53.
  split; [apply Rinv_0_lt_compat; lra|apply Rinv_le; lra].
Qed.
Lemma p50 : / IZR (2 ^ 50) = 8 * u53.
Proof. unfold u53. replace (IZR (2 ^ 53)) with (8 * IZR (2 ^ 50)) by (rewrite <- mult_IZR; f_equal). assert (0 < IZR (2 ^ 50)) by (apply IZR_lt; easy). field. lra. Qed.
Lemma p100 : / IZR (2 ^ 100) <= / 1024 * u53.
Proof.
  unfold u53. rewrite <- Rinv_mult. rewrite <- mult_IZR. apply Rinv_le; [apply IZR_lt; easy|]. apply IZR_le. now vm_compute.
Qed.

(** Rounding goes to a nearest float. *)
Lemma rnd_nearest z (x : float) : Rabs (rnd z - B2R x) <= 2 * Rabs (z - B2R x).
Proof.
  destruct (@round_N_pt radix2 (SpecFloat.fexp 53 1024) fexp64_valid (fun z => negb (Z.even z)) z) as [_ N].
  specialize (N (B2R x) (generic_format_B2R 53 1024 x)). change (round _ _ _ z) with (rnd z) in N.
  replace (rnd z - B2R x) with ((rnd z - z) + (z - B2R x)) by ring.
  eapply Rle_trans; [apply Rabs_triang|]. rewrite (Rabs_minus_sym (B2R x) z) in N. lra.
Qed.

(** Sums of floats: no underflow error. *)
Lemma rnd_sub_err (x y : float) : Rabs (rnd (B2R x - B2R y) - (B2R x - B2R y)) <= u53 * Rabs (B2R x - B2R y).
Proof.
  destruct (@FLT_plus_error_N_ex radix2 (-1074) 53 eq_refl (fun z => negb (Z.even z)) (B2R x) (- B2R y)) as (e & He & E).
  - apply generic_format_B2R.
  - apply generic_format_opp, generic_format_B2R.
  - change (round _ _ _ (B2R x + - B2R y)) with (rnd (B2R x - B2R y)) in E. rewrite E.
    replace ((B2R x + - B2R y) * (1 + e) - (B2R x - B2R y)) with (e * (B2R x - B2R y)) by ring.
    rewrite Rabs_mult. apply Rmult_le_compat_r; [apply Rabs_pos|]. eapply Rle_trans; [apply He|].
    assert (U : u_ro radix2 53 = u53).
    { unfold u_ro, u53. change (bpow radix2 (- (53) + 1)) with (/ IZR (2 ^ 52)).
      replace (IZR (2 ^ 53)) with (2 * IZR (2 ^ 52)) by (rewrite <- mult_IZR; f_equal).
      assert (0 < IZR (2 ^ 52)) by (apply IZR_lt; easy). field. lra. }
    rewrite U. pose proof u53_pos. apply Rmult_le_reg_r with (1 + u53); [lra|]. unfold Rdiv. rewrite Rmult_assoc, Rinv_l by lra. nra.
Qed.

Definition half_big := bpow radix2 1022.
Lemma half_big_2 : 2 * half_big = big.
Proof. unfold half_big, big. change 1023%Z with (1 + 1022)%Z. rewrite bpow_plus. reflexivity. Qed.
Lemma half_big_pos : 1 <= half_big.
Proof. unfold half_big. change 1 with (bpow radix2 0). apply bpow_le. easy. Qed.

Definition feqb (x y : float) : bool := fleb x y && fleb y x.

Section Scale.
  Variables l h x : float.
  Hypothesis Fl : is_finite l = true.
  Hypothesis Fh : is_finite h = true.
  Hypothesis Fx : is_finite x = true.
  Hypothesis Bx : B2R l <= B2R x <= B2R h.
  Hypothesis Sl : Rabs (B2R l) <= half_big.
  Hypothesis Sh : Rabs (B2R h) <= half_big.

  Let W := B2R h - B2R l.
  Let W0 : 0 <= W. Proof. unfold W. lra. Qed.
  Let Wb : W <= big.
  Proof. unfold W. rewrite <- half_big_2. apply Rabs_le_inv in Sl. apply Rabs_le_inv in Sh. lra. Qed.

  Lemma width : is_finite (fsub h l) = true /\ B2R (fsub h l) = rnd W /\ 0 <= rnd W <= (1 + u53) * W.
  Proof.
    destruct (@fsub_ok h l) as [F E]; try easy; [fold W; rewrite Rabs_pos_eq; lra|]. split; [exact F|]. split; [exact E|].
    split; [rewrite <- rnd_0; apply rnd_mono; exact W0|].
    pose proof (rnd_sub_err h l) as H. fold W in H. rewrite (Rabs_pos_eq W) in H by exact W0. apply Rabs_le_inv in H. lra.
  Qed.

  Lemma offset : is_finite (fsub x l) = true /\ B2R (fsub x l) = rnd (B2R x - B2R l) /\
    0 <= rnd (B2R x - B2R l) <= rnd W /\ Rabs (rnd (B2R x - B2R l) - (B2R x - B2R l)) <= u53 * W.
  Proof.
    destruct (@fsub_ok x l) as [F E]; try easy; [rewrite Rabs_pos_eq by lra; unfold W in *; lra|]. split; [exact F|]. split; [exact E|].
    split; [split; [rewrite <- rnd_0; apply rnd_mono; lra|apply rnd_mono; unfold W; lra]|].
    eapply Rle_trans; [apply rnd_sub_err|]. apply Rmult_le_compat_l; [pose proof u53_pos; lra|]. rewrite Rabs_pos_eq; unfold W; lra.
  Qed.

  (** Undoing the scaling, for any quotient in [0, 1]. *)
  Lemma scale_back : B2R l < B2R h ->
    let q := fdiv (fsub x l) (fsub h l) in
    is_finite q = true /\ 0 <= B2R q <= 1 /\
    is_finite (fadd (fmul q (fsub h l)) l) = true /\
    Rabs (B2R (fadd (fmul q (fsub h l)) l) - B2R x) <= / IZR (2 ^ 50) * W.
  Proof.
    intros Hlt q. destruct width as (FD & ED & BD). destruct offset as (Fs & Es & Bs & Err).
    assert (Dpos : 0 < B2R (fsub h l)) by (apply fsub_pos; auto).
    assert (Wpos : 0 < W) by (unfold W; lra).
    destruct (@norm01 l h x) as [Fq Bq]; try easy.
    { apply fltb_finite; easy. }
    { apply fleb_finite; easy. }
    { apply fleb_finite; easy. }
    fold q in Fq, Bq. split; [exact Fq|]. split; [exact Bq|].
    set (D := B2R (fsub h l)) in *. set (s := B2R (fsub x l)) in *.
    rewrite <- Es in Bs, Err. rewrite <- ED in Bs, BD.
    assert (Eq : B2R q = rnd (s / D)).
    { apply fdiv_ok; [exact Fs|fold D; lra|]. fold s D. assert (0 <= s / D <= 1).
      { split; [apply Rmult_le_pos; [lra|left; now apply Rinv_0_lt_compat]|]. apply Rmult_le_reg_r with D; [lra|]. unfold Rdiv. rewrite Rmult_assoc, Rinv_l; lra. }
      rewrite Rabs_pos_eq by lra. apply Rle_trans with (Rabs (IZR 1)); [rewrite Rabs_pos_eq; lra|]. apply big_Z. now vm_compute. }
    assert (Db : D <= big).
    { rewrite ED in BD |- *. pose proof (@rnd_le_big W) as Hr. rewrite !Rabs_pos_eq in Hr by lra. apply Hr. exact Wb. }
    assert (qD : 0 <= B2R q * D <= D) by (split; nra).
    destruct (@fmul_ok q (fsub h l)) as [Fp Ep]; try easy.
    { fold D. rewrite Rabs_pos_eq; lra. }
    fold D in Ep. set (p := fmul q (fsub h l)) in *.
    assert (Bp : 0 <= B2R p <= D).
    { rewrite Ep. split; [rewrite <- rnd_0; apply rnd_mono; lra|].
      assert (RD : rnd D = D) by (apply round_generic; [apply valid_rnd_N|apply generic_format_B2R]).
      apply Rle_trans with (rnd D); [apply rnd_mono; lra|lra]. }
    pose proof u53_pos as U. pose proof p100 as P1.
    (* the quotient *)
    pose proof (rnd_err (s / D)) as E1. rewrite <- Eq in E1. fold u53 in E1.
    assert (B1 : 0 <= s / D) by (apply Rmult_le_pos; [lra|left; now apply Rinv_0_lt_compat]).
    rewrite (Rabs_pos_eq _ B1) in E1.
    assert (A1 : Rabs (B2R q * D - s) <= u53 * s + / 1024 * u53 * D).
    { replace (B2R q * D - s) with ((B2R q - s / D) * D) by (field; lra). rewrite Rabs_mult, (Rabs_pos_eq D) by lra.
      apply Rle_trans with ((u53 * (s / D) + / 1024 * u53) * D); [apply Rmult_le_compat_r; lra|]. right. field. lra. }
    (* the product *)
    pose proof (@rnd_nearest (B2R q * D) (fsub x l)) as A2. rewrite <- Ep in A2. fold s in A2.
    (* the sum *)
    assert (Sb : Rabs (B2R p + B2R l) <= big).
    { assert (D <= 2 * W) by nra. apply Rabs_le_inv in Sl. apply Rabs_le_inv in Sh. rewrite <- half_big_2.
      pose proof half_big_pos.
      assert (X : Rabs (B2R p - (B2R x - B2R l)) <= W).
      { replace (B2R p - (B2R x - B2R l)) with ((B2R p - s) + (s - (B2R x - B2R l))) by ring. eapply Rle_trans; [apply Rabs_triang|].
        assert (s <= 2 * W) by lra. nra. }
      apply Rabs_le_inv in X. apply Rabs_le. split; [|].
      - lra.
      - assert (Y : Rabs (B2R p - (B2R x - B2R l)) <= / 2 * half_big).
        { replace (B2R p - (B2R x - B2R l)) with ((B2R p - s) + (s - (B2R x - B2R l))) by ring. eapply Rle_trans; [apply Rabs_triang|].
          assert (s <= 2 * W) by lra. assert (W <= 2 * half_big) by (unfold W; lra). nra. }
        apply Rabs_le_inv in Y. lra. }
    destruct (@fadd_ok p l) as [Fo Eo]; try easy. split; [exact Fo|].
    rewrite Eo. eapply Rle_trans; [apply rnd_nearest|].
    replace (B2R p + B2R l - B2R x) with ((B2R p - s) + (s - (B2R x - B2R l))) by ring.
    rewrite p50.
    eapply Rle_trans; [apply Rmult_le_compat_l; [lra|apply Rabs_triang]|].
    assert (s <= (1 + u53) * W) by lra. assert (D <= (1 + u53) * W) by lra.
    assert (u53 * s <= u53 * ((1 + u53) * W)) by nra. assert (u53 * D <= u53 * ((1 + u53) * W)) by nra.
    assert (0 <= u53 * W) by (apply Rmult_le_pos; lra).
    assert (u53 * W * u53 <= u53 * W * / 1024) by (apply Rmult_le_compat_l; lra). lra.
  Qed.

  (** The range checks of the scaling pass. *)
  Lemma scale_checks : fltb (fadd h feps) x = false /\ fltb x (fsub l feps) = false.
  Proof.
    assert (E : is_finite feps = true /\ 0 <= B2R feps <= 1).
    { unfold feps. destruct (@fofZ_exact 1) as [F1 E1]; [now vm_compute|]. destruct (@fofZ_exact 100000000) as [F2 E2]; [now vm_compute|].
      destruct (@fdiv_ok (fofZ 1) (fofZ 100000000)) as [F E]; [exact F1|rewrite E2; lra| |].
      - rewrite E1, E2. rewrite Rabs_pos_eq by lra. apply Rle_trans with (Rabs (IZR 1)); [rewrite Rabs_pos_eq; lra|]. apply big_Z. now vm_compute.
      - split; [exact F|]. rewrite E, E1, E2. split; [rewrite <- rnd_0; apply rnd_mono; lra|]. apply (@rnd_le_Z _ 1); [now vm_compute|lra]. }
    destruct E as (Fe & Be). pose proof half_big_pos as Hb. pose proof half_big_2 as Hb2.
    assert (G : forall y : float, rnd (B2R y) = B2R y) by (intros y; apply round_generic; [apply valid_rnd_N|apply generic_format_B2R]).
    split.
    - destruct (@fadd_ok h feps) as [F E]; try easy.
      { apply Rabs_le_inv in Sh. apply Rabs_le. lra. }
      apply not_true_is_false. intros C. apply fltb_finite in C; try easy. rewrite E in C.
      assert (rnd (B2R h) <= rnd (B2R h + B2R feps)) by (apply rnd_mono; lra). rewrite G in H. lra.
    - destruct (@fsub_ok l feps) as [F E]; try easy.
      { apply Rabs_le_inv in Sl. apply Rabs_le. lra. }
      apply not_true_is_false. intros C. apply fltb_finite in C; try easy. rewrite E in C.
      assert (rnd (B2R l - B2R feps) <= rnd (B2R l)) by (apply rnd_mono; lra). rewrite G in H. lra.
  Qed.

  (** The scaled value, also for an interval of width zero. *)
  Definition scaled : float := if feqb (fsub h l) (fofZ 0) then fmul x (fofZ 0) else fdiv (fsub x l) (fsub h l).
  Lemma scaled_back :
    is_finite scaled = true /\ 0 <= B2R scaled <= 1 /\
    is_finite (fadd (fmul scaled (fsub h l)) l) = true /\
    Rabs (B2R (fadd (fmul scaled (fsub h l)) l) - B2R x) <= / IZR (2 ^ 50) * W.
  Proof.
    destruct width as (FD & ED & BD). destruct (@fofZ_exact 0) as [F0 E0]; [now vm_compute|]. unfold scaled.
    destruct (feqb (fsub h l) (fofZ 0)) eqn:Z.
    - unfold feqb in Z. apply andb_true_iff in Z. destruct Z as [Z1 Z2]. apply fleb_finite in Z1, Z2; try easy. rewrite E0 in *.
      assert (Eh : B2R h = B2R l).
      { destruct (Rle_lt_or_eq_dec (B2R l) (B2R h)) as [C|C]; [lra| |easy]. pose proof (fsub_pos l h Fl Fh FD C). lra. }
      assert (Ex : B2R x = B2R l) by lra.
      destruct (@fmul_ok x (fofZ 0)) as [Fq Eq]; try easy. { rewrite E0, Rmult_0_r, Rabs_R0. left. apply big_pos. }
      rewrite E0, Rmult_0_r, rnd_0 in Eq. split; [exact Fq|]. split; [lra|].
      destruct (@fmul_ok (fmul x (fofZ 0)) (fsub h l)) as [Fp Ep]; try easy. { rewrite Eq, Rmult_0_l, Rabs_R0. left. apply big_pos. }
      rewrite Eq, Rmult_0_l, rnd_0 in Ep.
      destruct (@fadd_ok (fmul (fmul x (fofZ 0)) (fsub h l)) l) as [Fo Eo]; try easy.
      { rewrite Ep, Rplus_0_l. rewrite <- half_big_2. pose proof half_big_pos. lra. }
      split; [exact Fo|]. rewrite Eo, Ep, Rplus_0_l. rewrite (@round_generic radix2 (SpecFloat.fexp 53 1024) ZnearestE _ (B2R l)) by apply generic_format_B2R.
      rewrite Ex, Rminus_diag_eq, Rabs_R0 by reflexivity. apply Rmult_le_pos; [|exact W0]. left. apply Rinv_0_lt_compat, IZR_lt. easy.
    - apply scale_back. destruct (Rle_lt_or_eq_dec (B2R l) (B2R h)) as [C|C]; [lra|exact C|exfalso].
      unfold feqb in Z. assert (Ez : B2R (fsub h l) = 0). { rewrite ED. unfold W. rewrite C, Rminus_diag_eq by reflexivity. apply rnd_0. }
      assert (fleb (fsub h l) (fofZ 0) = true) by (apply fleb_finite; try easy; rewrite Ez, E0; lra).
      assert (fleb (fofZ 0) (fsub h l) = true) by (apply fleb_finite; try easy; rewrite Ez, E0; lra).
      rewrite H, H0 in Z. discriminate.
  Qed.
End Scale.
