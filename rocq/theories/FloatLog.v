(** Logarithms and powers of float64 numbers with an accurate library (C03, C04, C05). *)
From Coq Require Import ZArith Bool Lia Reals Lra Psatz.
From Flocq Require Import Core.Core IEEE754.BinarySingleNaN.
From Flocq Require Import Relative.
From Verif Require Import Base Num NumLaws F64Arith F64Dim FloatRound LibmSpec.
Set Implicit Arguments.
Local Open Scope R_scope.
Local Arguments Z.pow : simpl never.

Lemma p51 : / IZR (2 ^ 51) = 4 * u53.
Proof. unfold u53. replace (IZR (2 ^ 53)) with (4 * IZR (2 ^ 51)) by (rewrite <- mult_IZR; f_equal). assert (0 < IZR (2 ^ 51)) by (apply IZR_lt; easy). field. lra. Qed.
Lemma u53_small : u53 <= / IZR (2 ^ 40).
Proof. apply Rinv_le; [apply IZR_lt; easy|apply IZR_le; now vm_compute]. Qed.
Lemma u53_1e9 : u53 <= / 1000000000000.
Proof. apply Rinv_le; [lra|apply IZR_le; now vm_compute]. Qed.

Lemma ln2_lt_1 : ln 2 < 1.
Proof. rewrite <- (ln_exp 1). apply ln_increasing; [lra|]. pose proof (exp_ineq1 1). lra. Qed.
Lemma ln_bpow e : ln (bpow radix2 e) = IZR e * ln 2.
Proof. rewrite bpow_powerRZ. cbn [radix_val radix2]. rewrite powerRZ_Rpower by lra. unfold Rpower. now rewrite ln_exp. Qed.
Lemma ln10_pos : 0 < ln 10.
Proof. rewrite <- ln_1. apply ln_increasing; lra. Qed.

(** A float above 1 is above it by a unit in the last place. *)
Lemma above_one (b : float) : 1 < B2R b -> 1 + / IZR (2 ^ 52) <= B2R b.
Proof.
  intros H.
  assert (G : generic_format radix2 (SpecFloat.fexp 53 1024) (IZR 1)) by (apply generic_Z; now vm_compute).
  pose proof (@succ_le_lt radix2 (SpecFloat.fexp 53 1024) _ _ _ G (generic_format_B2R 53 1024 b) H) as S.
  rewrite succ_eq_pos in S by lra.
  assert (U : ulp radix2 (SpecFloat.fexp 53 1024) (IZR 1) = / IZR (2 ^ 52)).
  { change (IZR 1) with (bpow radix2 0). rewrite ulp_bpow. reflexivity. }
  rewrite U in S. exact S.
Qed.
Lemma ln_base (b : float) : is_finite b = true -> 1 < B2R b -> / IZR (2 ^ 53) <= ln (B2R b) <= 1024.
Proof.
  intros F H. split.
  - pose proof (above_one _ H) as A. set (t := / IZR (2 ^ 52)) in *.
    assert (T : / IZR (2 ^ 53) = t / 2).
    { unfold t. replace (IZR (2 ^ 53)) with (2 * IZR (2 ^ 52)) by (rewrite <- mult_IZR; f_equal). assert (0 < IZR (2 ^ 52)) by (apply IZR_lt; easy). field. lra. }
    assert (T0 : 0 < t <= 1). { unfold t. assert (1 <= IZR (2 ^ 52)) by (apply IZR_le; now vm_compute). split; [apply Rinv_0_lt_compat; lra|]. rewrite <- Rinv_1. apply Rinv_le; lra. }
    rewrite T. apply Rle_trans with (ln (1 + t)).
    + assert (E : exp (- ln (1 + t)) = / (1 + t)) by (rewrite exp_Ropp, exp_ln; lra).
      pose proof (exp_ineq1_le (- ln (1 + t))) as I. rewrite E in I.
      assert (/ (1 + t) <= 1 - t / 2); [|lra].
      apply Rmult_le_reg_r with (1 + t); [lra|]. rewrite Rinv_l by lra. nra.
    + destruct (Rle_lt_or_eq_dec _ _ A) as [C|C]; [left; apply ln_increasing; lra|rewrite C; lra].
  - pose proof (abs_B2R_lt_emax _ _ b) as A. apply Rabs_def2 in A. apply Rle_trans with (ln (bpow radix2 1024)).
    + left. apply ln_increasing; lra.
    + rewrite ln_bpow. pose proof ln2_lt_1. lra.
Qed.

Section Log.
  Variable L : libm.
  Hypothesis AL : accurate_log10 L.
  Variable b : float.
  Hypothesis Fb : is_finite b = true.
  Hypothesis Hb : 1 < B2R b.
  Definition flogb (x : float) : float := fdiv (l_log10 L x) (l_log10 L b).
  Let Lb := ln (B2R b).
  Let LbB : / IZR (2 ^ 53) <= Lb <= 1024. Proof. now apply ln_base. Qed.
  Let Lb0 : 0 < Lb. Proof. assert (0 < / IZR (2 ^ 53)) by (apply Rinv_0_lt_compat, IZR_lt; easy). lra. Qed.

  Lemma log_base : is_finite (l_log10 L b) = true /\ Lb / ln 10 * (1 - 4 * u53) <= B2R (l_log10 L b) <= Lb / ln 10 * (1 + 4 * u53).
  Proof.
    destruct (@AL b Fb) as [F E]; [lra|]. split; [exact F|]. rewrite p51 in E. fold Lb in E.
    assert (0 <= Lb / ln 10) by (apply Rmult_le_pos; [lra|left; apply Rinv_0_lt_compat, ln10_pos]).
    rewrite (Rabs_pos_eq _ H) in E. apply Rabs_le_inv in E. lra.
  Qed.
  Lemma log_base_pos : 0 < B2R (l_log10 L b).
  Proof.
    destruct log_base as (_ & A & _). pose proof u53_pos. assert (0 < Lb / ln 10) by (apply Rmult_lt_0_compat; [exact Lb0|apply Rinv_0_lt_compat, ln10_pos]).
    assert (0 < Lb / ln 10 * (1 - 4 * u53)) by (apply Rmult_lt_0_compat; lra). lra.
  Qed.

  (** The base-b logarithm, times ln b. *)
  Lemma log_err x : is_finite x = true -> 0 < B2R x ->
    is_finite (flogb x) = true /\
    Rabs (B2R (flogb x) * Lb - ln (B2R x)) <= 10 * u53 * Rabs (ln (B2R x)) + / IZR (2 ^ 90).
  Proof.
    intros Fx Hx. set (Lx := ln (B2R x)). destruct (AL _ Fx Hx) as [Fa Ea]. fold Lx in Ea. rewrite p51 in Ea.
    destruct log_base as (Fc & Bc). pose proof log_base_pos as Cp. pose proof u53_pos as U. pose proof u53_1e9 as U9. pose proof ln10_pos as T.
    set (a := B2R (l_log10 L x)) in *. set (c := B2R (l_log10 L b)) in *.
    (* the exact quotient of the two computed logarithms *)
    assert (C1 : (1 - 4 * u53) * Lb <= c * ln 10 <= (1 + 4 * u53) * Lb).
    { split.
      - apply Rle_trans with (Lb / ln 10 * (1 - 4 * u53) * ln 10); [right; field; lra|]. apply Rmult_le_compat_r; lra.
      - apply Rle_trans with (Lb / ln 10 * (1 + 4 * u53) * ln 10); [|right; field; lra]. apply Rmult_le_compat_r; lra. }
    assert (A1 : Rabs (a * ln 10 - Lx) <= 4 * u53 * Rabs Lx).
    { replace (a * ln 10 - Lx) with ((a - Lx / ln 10) * ln 10) by (field; lra). rewrite Rabs_mult, (Rabs_pos_eq (ln 10)) by lra.
      apply Rle_trans with (4 * u53 * Rabs (Lx / ln 10) * ln 10); [apply Rmult_le_compat_r; lra|].
      unfold Rdiv. rewrite Rabs_mult, Rabs_inv, (Rabs_pos_eq (ln 10)) by lra. right. field. lra. }
    set (v := a / c).
    assert (V : Rabs (v * Lb - Lx) <= 17 / 2 * u53 * Rabs Lx).
    { set (C := c * ln 10) in *. set (A := a * ln 10) in *.
      assert (Cp' : 0 < C) by (apply Rmult_lt_0_compat; lra).
      assert (Ev : v * Lb - Lx = ((A - Lx) * Lb - Lx * (C - Lb)) / C). { unfold v, A, C. field. split; lra. }
      rewrite Ev. unfold Rdiv. rewrite Rabs_mult, Rabs_inv, (Rabs_pos_eq C) by lra.
      apply Rmult_le_reg_r with C; [exact Cp'|]. rewrite Rmult_assoc, Rinv_l, Rmult_1_r by lra.
      eapply Rle_trans; [apply Rabs_triang|]. rewrite Rabs_Ropp, !Rabs_mult, (Rabs_pos_eq Lb) by lra.
      assert (B1 : Rabs (C - Lb) <= 4 * u53 * Lb) by (apply Rabs_le; lra).
      pose proof (Rabs_pos Lx) as Q.
      assert (Rabs (A - Lx) * Lb <= 4 * u53 * Rabs Lx * Lb) by (apply Rmult_le_compat_r; lra).
      assert (Rabs Lx * Rabs (C - Lb) <= Rabs Lx * (4 * u53 * Lb)) by (apply Rmult_le_compat_l; lra).
      assert (QL : 0 <= u53 * Rabs Lx) by (apply Rmult_le_pos; lra).
      assert (G : 17 / 2 * (u53 * Rabs Lx) * ((1 - 4 * u53) * Lb) <= 17 / 2 * (u53 * Rabs Lx) * C) by (apply Rmult_le_compat_l; lra).
      assert (K : 8 * (u53 * Rabs Lx) * Lb <= 17 / 2 * (u53 * Rabs Lx) * ((1 - 4 * u53) * Lb)); [|lra].
      assert (KL : 0 <= u53 * Rabs Lx * Lb) by (apply Rmult_le_pos; lra).
      assert (KU : u53 * Rabs Lx * Lb * u53 <= u53 * Rabs Lx * Lb * / 1024) by (apply Rmult_le_compat_l; lra). lra. }
    assert (LxB : Rabs Lx <= 1100).
    { assert (Q : bpow radix2 (-1074) <= B2R x) by (apply (@generic_format_ge_bpow radix2 (SpecFloat.fexp 53 1024)); [intros e; unfold SpecFloat.fexp, SpecFloat.emin; lia|exact Hx|apply generic_format_B2R]).
      pose proof (abs_B2R_lt_emax _ _ x) as A. apply Rabs_def2 in A. apply Rabs_le. unfold Lx. pose proof ln2_lt_1. pose proof ln_lt_2. split.
      - apply Rle_trans with (ln (bpow radix2 (-1074))); [rewrite ln_bpow; lra|]. destruct (Rle_lt_or_eq_dec _ _ Q) as [D|D]; [left; apply ln_increasing; [apply bpow_gt_0|exact D]|rewrite D; lra].
      - apply Rle_trans with (ln (bpow radix2 1024)); [left; apply ln_increasing; lra|rewrite ln_bpow; lra]. }
    assert (VB : Rabs v * Lb <= 1101).
    { replace (Rabs v * Lb) with (Rabs (v * Lb)) by (rewrite Rabs_mult, (Rabs_pos_eq Lb); lra).
      replace (v * Lb) with ((v * Lb - Lx) + Lx) by ring. eapply Rle_trans; [apply Rabs_triang|].
      pose proof (Rabs_pos Lx). assert (17 / 2 * u53 * Rabs Lx <= 17 / 2 * u53 * 1100) by (apply Rmult_le_compat_l; lra). lra. }
    destruct (@fdiv_ok (l_log10 L x) (l_log10 L b)) as [Fd Ed]; [exact Fa|fold c; lra| |].
    { fold a c v. apply Rle_trans with (1101 * IZR (2 ^ 53)).
      - apply Rmult_le_reg_r with (/ IZR (2 ^ 53)); [apply Rinv_0_lt_compat, IZR_lt; easy|]. rewrite Rmult_assoc, Rinv_r, Rmult_1_r by (apply not_0_IZR; easy).
        pose proof (Rabs_pos v). assert (Rabs v * / IZR (2 ^ 53) <= Rabs v * Lb) by (apply Rmult_le_compat_l; lra). lra.
      - rewrite <- mult_IZR. unfold big. change (bpow radix2 1023) with (IZR (2 ^ 1023)). apply IZR_le. now vm_compute. }
    split; [exact Fd|]. unfold flogb. fold a c v in Ed. rewrite Ed.
    pose proof (rnd_err v) as R. fold u53 in R.
    assert (R1 : Rabs ((rnd v - v) * Lb) <= u53 * (Rabs v * Lb) + / IZR (2 ^ 100) * 1024).
    { rewrite Rabs_mult, (Rabs_pos_eq Lb) by lra. apply Rle_trans with ((u53 * Rabs v + / IZR (2 ^ 100)) * Lb); [apply Rmult_le_compat_r; lra|].
      assert (0 < / IZR (2 ^ 100)) by (apply Rinv_0_lt_compat, IZR_lt; easy).
      assert (/ IZR (2 ^ 100) * Lb <= / IZR (2 ^ 100) * 1024) by (apply Rmult_le_compat_l; lra). lra. }
    replace (rnd v * Lb - Lx) with ((rnd v - v) * Lb + (v * Lb - Lx)) by ring. eapply Rle_trans; [apply Rabs_triang|].
    assert (V2 : Rabs v * Lb <= (1 + 17 / 2 * u53) * Rabs Lx).
    { replace (Rabs v * Lb) with (Rabs (v * Lb)) by (rewrite Rabs_mult, (Rabs_pos_eq Lb); lra).
      replace (v * Lb) with ((v * Lb - Lx) + Lx) by ring. eapply Rle_trans; [apply Rabs_triang|]. lra. }
    assert (V3 : u53 * (Rabs v * Lb) <= u53 * ((1 + 17 / 2 * u53) * Rabs Lx)) by (apply Rmult_le_compat_l; lra).
    assert (V4 : u53 * Rabs Lx * u53 <= u53 * Rabs Lx * / 1024).
    { apply Rmult_le_compat_l; [apply Rmult_le_pos; [lra|apply Rabs_pos]|lra]. }
    assert (V5 : 0 <= u53 * Rabs Lx) by (apply Rmult_le_pos; [lra|apply Rabs_pos]).
    assert (V6 : / IZR (2 ^ 100) * 1024 = / IZR (2 ^ 90)).
    { replace (IZR (2 ^ 100)) with (1024 * IZR (2 ^ 90)) by (rewrite <- mult_IZR; f_equal). assert (0 < IZR (2 ^ 90)) by (apply IZR_lt; easy). field. lra. }
    lra.
  Qed.

  Hypothesis IL : increasing_log10 L.
  Lemma flogb_mono x y : is_finite x = true -> is_finite y = true -> 0 < B2R x <= B2R y -> B2R (flogb x) <= B2R (flogb y).
  Proof.
    intros Fx Fy H. pose proof (IL _ _ Fx Fy H) as I. pose proof log_base_pos as Cp.
    assert (E : forall z, is_finite z = true -> 0 < B2R z -> B2R (flogb z) = rnd (B2R (l_log10 L z) / B2R (l_log10 L b))).
    { intros z Fz Hz. destruct (log_err _ Fz Hz) as [F _]. destruct (AL _ Fz Hz) as [Fa _]. unfold flogb in *.
      pose proof (Bdiv_correct 53 1024 prec64 emax64 mode_NE (l_log10 L z) (l_log10 L b)) as Q.
      destruct (Rlt_bool _ _); [apply Q; lra|]. specialize (Q ltac:(lra)). apply inf_not_finite in Q. unfold fdiv in F. congruence. }
    rewrite !E; try easy; try lra. apply rnd_mono. apply Rmult_le_compat_r; [left; now apply Rinv_0_lt_compat|exact I].
  Qed.

  Hypothesis AP : accurate_pow L.
  Lemma exp_near v : Rabs v <= / 2 -> Rabs (exp v - 1) <= 2 * Rabs v.
  Proof.
    intros H. pose proof (exp_ineq1_le v) as A. pose proof (exp_ineq1_le (- v)) as B. rewrite exp_Ropp in B.
    pose proof (exp_pos v) as P. apply Rabs_le_inv in H.
    assert (C : exp v * (1 - v) <= 1). { apply Rmult_le_reg_r with (/ exp v); [now apply Rinv_0_lt_compat|]. rewrite Rmult_assoc, (Rmult_comm (1 - v)), <- Rmult_assoc, Rinv_r by lra. lra. }
    destruct (Rle_dec 0 v) as [D|D].
    - rewrite (Rabs_pos_eq v) by lra. rewrite Rabs_pos_eq by lra. nra.
    - rewrite (Rabs_left v) by lra. rewrite Rabs_left1 by nra. lra.
  Qed.

  Lemma pow_err (x w : float) t : 0 < B2R x -> Rabs (ln (B2R x)) <= 500 -> is_finite w = true ->
    Rabs (B2R w * Lb - ln (B2R x)) <= t -> t <= / 4 ->
    is_finite (l_pow L b w) = true /\ Rabs (B2R (l_pow L b w) - B2R x) <= (8 * u53 + 2 * t) * B2R x.
  Proof.
    intros Hx HM Fw Ht Ht4. set (X := B2R x) in *. set (v := B2R w * Lb - ln X) in *.
    assert (P : Rpower (B2R b) (B2R w) = X * exp v).
    { unfold Rpower, v. fold Lb. rewrite <- (exp_ln X) at 1 by exact Hx. rewrite <- exp_plus. f_equal. ring. }
    assert (N : Rabs (exp v - 1) <= 2 * t) by (eapply Rle_trans; [apply exp_near|]; lra).
    apply Rabs_le_inv in N. pose proof (Rabs_pos v) as T0.
    assert (Xb : bpow radix2 (-1000) <= X <= bpow radix2 1000).
    { apply Rabs_le_inv in HM. pose proof ln_lt_2. rewrite <- (exp_ln X) by exact Hx.
      rewrite <- (exp_ln (bpow radix2 (-1000))) by apply bpow_gt_0. rewrite <- (exp_ln (bpow radix2 1000)) by apply bpow_gt_0. rewrite !ln_bpow.
      assert (forall p q, p <= q -> exp p <= exp q) as M. { intros p q [Q | ->]; [left; now apply exp_increasing|lra]. }
      split; apply M; lra. }
    assert (B1 : 2 * bpow radix2 (-1022) <= bpow radix2 (-1000)).
    { change 2 with (bpow radix2 1). rewrite <- bpow_plus. apply bpow_le. easy. }
    assert (B2 : 2 * bpow radix2 1000 <= bpow radix2 1023).
    { change 2 with (bpow radix2 1). rewrite <- bpow_plus. apply bpow_le. easy. }
    pose proof (bpow_gt_0 radix2 1000).
    destruct (@AP b w Fb Fw) as [F E]; [lra| |].
    { rewrite P. split.
      - apply Rle_trans with (X * / 2); [lra|]. apply Rmult_le_compat_l; lra.
      - apply Rle_trans with (X * 2); [|lra]. apply Rmult_le_compat_l; lra. }
    split; [exact F|]. rewrite P, p51 in E.
    replace (B2R (l_pow L b w) - X) with ((B2R (l_pow L b w) - X * exp v) + X * (exp v - 1)) by ring.
    eapply Rle_trans; [apply Rabs_triang|]. rewrite Rabs_mult, (Rabs_pos_eq X) by lra. pose proof u53_pos as U.
    assert (X * Rabs (exp v - 1) <= X * (2 * t)) by (apply Rmult_le_compat_l; [lra|apply Rabs_le; lra]).
    assert (4 * u53 * (X * exp v) <= 4 * u53 * (X * 2)). { apply Rmult_le_compat_l; [lra|]. apply Rmult_le_compat_l; lra. }
    lra.
  Qed.

  (** ** There and back *)
  Section Trip.
    Variables (lo hi x : float) (M : R).
    Hypothesis Flo : is_finite lo = true.
    Hypothesis Fhi : is_finite hi = true.
    Hypothesis Fx : is_finite x = true.
    Hypothesis Hlo : 0 < B2R lo.
    Hypothesis Bx : B2R lo <= B2R x <= B2R hi.
    Hypothesis Mlo : Rabs (ln (B2R lo)) <= M.
    Hypothesis Mhi : Rabs (ln (B2R hi)) <= M.
    Hypothesis HM : M <= 500.

    Lemma ln_le_M p q : 0 < p <= q -> ln p <= ln q.
    Proof. intros [H [K | ->]]; [left; now apply ln_increasing|lra]. Qed.
    Lemma ln_x : Rabs (ln (B2R x)) <= M.
    Proof.
      apply Rabs_le_inv in Mlo. apply Rabs_le_inv in Mhi. apply Rabs_le.
      pose proof (@ln_le_M (B2R lo) (B2R x)). pose proof (@ln_le_M (B2R x) (B2R hi)). lra.
    Qed.
    Let p90 : / IZR (2 ^ 90) <= u53 * / 1024.
    Proof. unfold u53. rewrite <- Rinv_mult. rewrite <- mult_IZR. apply Rinv_le; [apply IZR_lt; easy|]. apply IZR_le. now vm_compute. Qed.
    Let M0 : 0 <= M. Proof. pose proof (Rabs_pos (ln (B2R lo))). lra. Qed.

    (** Without scaling. *)
    Lemma log_trip : is_finite (flogb x) = true /\ is_finite (l_pow L b (flogb x)) = true /\
      Rabs (B2R (l_pow L b (flogb x)) - B2R x) <= / IZR (2 ^ 46) * (1 + M) * B2R x.
    Proof.
      pose proof ln_x as Mx. destruct (@log_err x Fx) as [F E]; [lra|]. split; [exact F|].
      pose proof u53_pos as U. pose proof u53_1e9 as U9. assert (U0 : 0 <= u53) by lra.
      assert (UM : u53 * M <= u53 * 500) by (apply Rmult_le_compat_l; lra).
      assert (T : Rabs (B2R (flogb x) * Lb - ln (B2R x)) <= 10 * (u53 * M) + u53 * / 1024).
      { eapply Rle_trans; [exact E|]. assert (u53 * Rabs (ln (B2R x)) <= u53 * M) by (apply Rmult_le_compat_l; lra). lra. }
      destruct (@pow_err x (flogb x) _ ltac:(lra) ltac:(lra) F T ltac:(lra)) as [FP EP]. split; [exact FP|].
      eapply Rle_trans; [exact EP|]. apply Rmult_le_compat_r; [lra|].
      assert (P46 : / IZR (2 ^ 46) = 128 * u53). { unfold u53. replace (IZR (2 ^ 53)) with (128 * IZR (2 ^ 46)) by (rewrite <- mult_IZR; f_equal). assert (0 < IZR (2 ^ 46)) by (apply IZR_lt; easy). field. lra. }
      rewrite P46. assert (0 <= u53 * M) by (apply Rmult_le_pos; lra). lra.
    Qed.

    Lemma flogb_small z : is_finite z = true -> 0 < B2R z -> Rabs (ln (B2R z)) <= M ->
      Rabs (B2R (flogb z) * Lb) <= (1 + / 1024) * M + / 1024 /\ Rabs (B2R (flogb z)) <= half_big.
    Proof.
      intros Fz Hz Mz. destruct (@log_err z Fz Hz) as [F E]. pose proof u53_pos as U. pose proof u53_1e9 as U9.
      assert (A : Rabs (B2R (flogb z) * Lb) <= (1 + / 1024) * M + / 1024).
      { replace (B2R (flogb z) * Lb) with ((B2R (flogb z) * Lb - ln (B2R z)) + ln (B2R z)) by ring. eapply Rle_trans; [apply Rabs_triang|].
        assert (u53 * Rabs (ln (B2R z)) <= / 1000000000000 * M) by (apply Rmult_le_compat; try lra; apply Rabs_pos). lra. }
      split; [exact A|]. rewrite Rabs_mult, (Rabs_pos_eq Lb) in A by lra.
      apply Rle_trans with (1000 * IZR (2 ^ 53)).
      - apply Rmult_le_reg_r with (/ IZR (2 ^ 53)); [apply Rinv_0_lt_compat, IZR_lt; easy|]. rewrite Rmult_assoc, Rinv_r, Rmult_1_r by (apply not_0_IZR; easy).
        pose proof (Rabs_pos (B2R (flogb z))) as Q. assert (Rabs (B2R (flogb z)) * / IZR (2 ^ 53) <= Rabs (B2R (flogb z)) * Lb) by (apply Rmult_le_compat_l; lra). lra.
      - rewrite <- mult_IZR. unfold half_big. change (bpow radix2 1022) with (IZR (2 ^ 1022)). apply IZR_le. now vm_compute.
    Qed.

    Lemma scale_hyps : is_finite (flogb lo) = true /\ is_finite (flogb hi) = true /\ is_finite (flogb x) = true /\
      B2R (flogb lo) <= B2R (flogb x) <= B2R (flogb hi) /\ Rabs (B2R (flogb lo)) <= half_big /\ Rabs (B2R (flogb hi)) <= half_big.
    Proof.
      destruct (@log_err lo Flo Hlo) as [F1 _]. destruct (@log_err hi Fhi) as [F2 _]; [lra|]. destruct (@log_err x Fx) as [F3 _]; [lra|].
      repeat split; try easy.
      - apply flogb_mono; auto; lra.
      - apply flogb_mono; auto; lra.
      - now apply flogb_small.
      - apply flogb_small; auto; lra.
    Qed.

    (** With scaling. *)
    Lemma log_scaled_trip :
      let q := scaled (flogb lo) (flogb hi) (flogb x) in
      let o := fadd (fmul q (fsub (flogb hi) (flogb lo))) (flogb lo) in
      is_finite q = true /\ 0 <= B2R q <= 1 /\ is_finite (l_pow L b o) = true /\
      Rabs (B2R (l_pow L b o) - B2R x) <= / IZR (2 ^ 46) * (1 + M) * B2R x.
    Proof.
      intros q o. destruct scale_hyps as (F1 & F2 & F3 & B & S1 & S2).
      destruct (@scaled_back _ _ _ F1 F2 F3 B S1 S2) as (Fq & Bq & Fo & Eo). fold q in Fq, Bq, Fo, Eo. fold o in Fo, Eo.
      split; [exact Fq|]. split; [exact Bq|]. rewrite p50 in Eo.
      pose proof ln_x as Mx. destruct (@log_err x Fx) as [F E]; [lra|].
      pose proof u53_pos as U. pose proof u53_1e9 as U9. assert (U0 : 0 <= u53) by lra.
      assert (UM : u53 * M <= u53 * 500) by (apply Rmult_le_compat_l; lra).
      destruct (@flogb_small lo Flo Hlo Mlo) as [A1 _]. destruct (@flogb_small hi Fhi ltac:(lra) Mhi) as [A2 _].
      apply Rabs_le_inv in A1. apply Rabs_le_inv in A2.
      set (D := B2R (flogb hi) - B2R (flogb lo)) in *.
      assert (DL : 0 <= D * Lb <= 2 * ((1 + / 1024) * M + / 1024)). { unfold D. split; [apply Rmult_le_pos; lra|lra]. }
      assert (O : Rabs ((B2R o - B2R (flogb x)) * Lb) <= 8 * u53 * (2 * ((1 + / 1024) * M + / 1024))).
      { rewrite Rabs_mult, (Rabs_pos_eq Lb) by lra. apply Rle_trans with (8 * u53 * D * Lb); [apply Rmult_le_compat_r; lra|].
        rewrite Rmult_assoc. apply Rmult_le_compat_l; lra. }
      assert (T : Rabs (B2R o * Lb - ln (B2R x)) <= 27 * (u53 * M) + u53).
      { replace (B2R o * Lb - ln (B2R x)) with ((B2R o - B2R (flogb x)) * Lb + (B2R (flogb x) * Lb - ln (B2R x))) by ring. eapply Rle_trans; [apply Rabs_triang|].
        assert (u53 * Rabs (ln (B2R x)) <= u53 * M) by (apply Rmult_le_compat_l; lra).
        assert (0 <= u53 * M) by (apply Rmult_le_pos; lra). lra. }
      destruct (@pow_err x o _ ltac:(lra) ltac:(lra) Fo T ltac:(lra)) as [FP EP]. split; [exact FP|].
      eapply Rle_trans; [exact EP|]. apply Rmult_le_compat_r; [lra|].
      assert (P46 : / IZR (2 ^ 46) = 128 * u53). { unfold u53. replace (IZR (2 ^ 53)) with (128 * IZR (2 ^ 46)) by (rewrite <- mult_IZR; f_equal). assert (0 < IZR (2 ^ 46)) by (apply IZR_lt; easy). field. lra. }
      rewrite P46. assert (0 <= u53 * M) by (apply Rmult_le_pos; lra). lra.
    Qed.
  End Trip.
End Log.
