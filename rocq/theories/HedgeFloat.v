(** C23 in float64: the probabilities of gp_hedge. *)
From Coq Require Import String List ZArith Bool Lia Reals Lra Psatz.
From Flocq Require Import Core.Core Plus_error Relative IEEE754.BinarySingleNaN.
From Verif Require Import Base BaseLemmas Num Values Transformers Dimension Space SpaceSpec NumLaws F64Arith F64Dim MetricSpec MetricLemmas FloatMetric Optimizer OptSpec ArgLemmas HedgeSpec.
Import ListNotations.
Open Scope R_scope.
Open Scope list_scope.

(** The value of a result that may overflow. *)
Definition clamp (r : R) : R := Rmax (- bpow radix2 1024) (Rmin (bpow radix2 1024) r).
Lemma clamp_mono a b : a <= b -> clamp a <= clamp b.
Proof. intro H. unfold clamp. apply Rle_max_compat_l. now apply Rle_min_compat_l. Qed.
Lemma clamp_in r : Rabs r < bpow radix2 1024 -> clamp r = r.
Proof. intro H. apply Rabs_def2 in H. unfold clamp. rewrite Rmin_right, Rmax_right by lra. reflexivity. Qed.
Lemma clamp_over r : bpow radix2 1024 <= r -> clamp r = bpow radix2 1024.
Proof. intro H. unfold clamp. rewrite Rmin_left by lra. apply Rmax_right. pose proof (bpow_gt_0 radix2 1024). lra. Qed.
Lemma clamp_under r : r <= - bpow radix2 1024 -> clamp r = - bpow radix2 1024.
Proof. intro H. unfold clamp. pose proof (bpow_gt_0 radix2 1024). rewrite Rmin_right by lra. apply Rmax_left. lra. Qed.
Lemma clamp_0 : clamp 0 = 0.
Proof. apply clamp_in. rewrite Rabs_R0. apply bpow_gt_0. Qed.
Lemma sign_val (x : float) : is_finite x = true -> if Bsign x then B2R x <= 0 else 0 <= B2R x.
Proof.
  destruct x as [s| | |s m e H]; try discriminate; intros _; cbn; [destruct s; lra|]. unfold F2R. cbn [Fnum Fexp]. pose proof (bpow_gt_0 radix2 e) as B. destruct s; cbn [cond_Zopp].
  - assert (IZR (- Z.pos m) <= 0) by (apply IZR_le; lia). change (Z.opp (Z.pos m)) with (- Z.pos m)%Z. nra.
  - assert (0 <= IZR (Z.pos m)) by (apply IZR_le; lia). nra.
Qed.
Lemma fsub_E x y : is_finite x = true -> is_finite y = true -> is_nan (fsub x y) = false /\ fE (fsub x y) = clamp (rnd (B2R x - B2R y)).
Proof.
  intros Hx Hy. pose proof (Bminus_correct 53 1024 prec64 emax64 mode_NE x y Hx Hy) as H. change (round_mode mode_NE) with ZnearestE in H. fold (fsub x y) in H.
  destruct (Rlt_bool_spec (Rabs (rnd (B2R x - B2R y))) (bpow radix2 1024)) as [B|B].
  - destruct H as (H1 & H2 & _). split; [now apply finite_not_nan|]. rewrite fE_finite by exact H2. rewrite H1. symmetry. now apply clamp_in.
  - destruct H as [H S]. apply overflow_inf in H. rewrite H. split; [reflexivity|]. pose proof (sign_val _ Hx) as Sx. pose proof (sign_val _ Hy) as Sy. rewrite S in Sx. cbn [fE].
    assert (R0 : rnd 0 = 0) by apply rnd_0. rewrite S. destruct (Bsign y); cbn [negb] in *.
    + assert (P : 0 <= rnd (B2R x - B2R y)) by (rewrite <- R0; apply rnd_mono; lra). rewrite Rabs_pos_eq in B by exact P. now rewrite clamp_over.
    + assert (P : rnd (B2R x - B2R y) <= 0) by (rewrite <- R0; apply rnd_mono; lra). rewrite Rabs_left1 in B by exact P. rewrite clamp_under; lra.
Qed.
Lemma fmul_E x y : is_finite x = true -> is_finite y = true -> is_nan (fmul x y) = false /\ fE (fmul x y) = clamp (rnd (B2R x * B2R y)).
Proof.
  intros Hx Hy. pose proof (Bmult_correct 53 1024 prec64 emax64 mode_NE x y) as H. change (round_mode mode_NE) with ZnearestE in H. fold (fmul x y) in H.
  destruct (Rlt_bool_spec (Rabs (rnd (B2R x * B2R y))) (bpow radix2 1024)) as [B|B].
  - destruct H as (H1 & H2 & _). rewrite Hx, Hy in H2. cbn in H2. split; [now apply finite_not_nan|]. rewrite fE_finite by exact H2. rewrite H1. symmetry. now apply clamp_in.
  - apply overflow_inf in H. rewrite H. split; [reflexivity|]. pose proof (sign_val _ Hx) as Sx. pose proof (sign_val _ Hy) as Sy. cbn [fE].
    assert (R0 : rnd 0 = 0) by apply rnd_0. destruct (Bsign x), (Bsign y); cbn [xorb].
    + assert (P : 0 <= rnd (B2R x * B2R y)) by (rewrite <- R0; apply rnd_mono; nra). rewrite Rabs_pos_eq in B by exact P. now rewrite clamp_over.
    + assert (P : rnd (B2R x * B2R y) <= 0) by (rewrite <- R0; apply rnd_mono; nra). rewrite Rabs_left1 in B by exact P. rewrite clamp_under; lra.
    + assert (P : rnd (B2R x * B2R y) <= 0) by (rewrite <- R0; apply rnd_mono; nra). rewrite Rabs_left1 in B by exact P. rewrite clamp_under; lra.
    + assert (P : 0 <= rnd (B2R x * B2R y)) by (rewrite <- R0; apply rnd_mono; nra). rewrite Rabs_pos_eq in B by exact P. now rewrite clamp_over.
Qed.
(** eta * z for z <= 0, -inf included *)
Lemma fmul_low eta z : is_finite eta = true -> 0 < B2R eta -> is_nan z = false -> fE z <= 0 ->
  is_nan (fmul eta z) = false /\ fE (fmul eta z) = if is_finite z then clamp (rnd (B2R eta * B2R z)) else - bpow radix2 1024.
Proof.
  intros He Hp Hz Hn. destruct (is_finite z) eqn:F; [now apply fmul_E|]. pose proof (bpow_gt_0 radix2 1024) as B. destruct z as [|[]| |]; try discriminate; [|cbn [fE] in Hn; lra].
  destruct eta as [s| | |s m e H]; try discriminate; [cbn in Hp; lra|]. assert (s = false) as ->; [|split; reflexivity].
  destruct s; [|reflexivity]. exfalso. pose proof (sign_val (B754_finite true m e H) eq_refl) as Q. cbn [Bsign] in Q. lra.
Qed.
Definition logit (eta g m : float) : float := fmul eta (fsub g m).
Section Logits.
  Variables (eta m : float) (Fe : is_finite eta = true) (Pe : 0 < B2R eta) (Fm : is_finite m = true).
  Lemma gap_low g : is_finite g = true -> B2R g <= B2R m -> is_nan (fsub g m) = false /\ fE (fsub g m) <= 0.
  Proof.
    intros Fg H. destruct (fsub_E _ _ Fg Fm) as [N E]. split; [exact N|]. rewrite E, <- clamp_0. apply clamp_mono. rewrite <- rnd_0. apply rnd_mono. lra.
  Qed.
  Lemma logit_low g : is_finite g = true -> B2R g <= B2R m -> fleb (logit eta g m) (fofZ 0) = true.
  Proof.
    intros Fg H. destruct (gap_low _ Fg H) as [N Z]. destruct (fmul_low _ _ Fe Pe N Z) as [N' E]. apply zero_leb; [exact N'|]. unfold logit. rewrite E. pose proof (bpow_gt_0 radix2 1024).
    destruct (is_finite (fsub g m)) eqn:F; [|lra]. rewrite fE_finite in Z by exact F. rewrite <- clamp_0. apply clamp_mono. rewrite <- rnd_0. apply rnd_mono. nra.
  Qed.
  Lemma logit_mono g h : is_finite g = true -> is_finite h = true -> B2R g <= B2R h -> B2R h <= B2R m -> fleb (logit eta g m) (logit eta h m) = true.
  Proof.
    intros Fg Fh H Hm. assert (Hg : B2R g <= B2R m) by lra. destruct (gap_low _ Fg Hg) as [N Z]. destruct (gap_low _ Fh Hm) as [N' Z'].
    destruct (fmul_low _ _ Fe Pe N Z) as [M E]. destruct (fmul_low _ _ Fe Pe N' Z') as [M' E']. apply fleb_spec. split; [exact M|]. split; [exact M'|]. unfold logit. rewrite E, E'.
    assert (Le : fE (fsub g m) <= fE (fsub h m)). { rewrite (proj2 (fsub_E _ _ Fg Fm)), (proj2 (fsub_E _ _ Fh Fm)). apply clamp_mono, rnd_mono. lra. }
    destruct (is_finite (fsub g m)) eqn:F.
    - assert (is_finite (fsub h m) = true) as F'.
      { destruct (is_finite (fsub h m)) eqn:F'; [reflexivity|exfalso]. pose proof (fE_abs_finite _ F) as A. apply Rabs_def2 in A. pose proof (bpow_gt_0 radix2 1024). destruct (fsub h m) as [|[]| |]; try discriminate; cbn [fE] in *; lra. }
      rewrite F'. rewrite !fE_finite in Le by assumption. apply clamp_mono, rnd_mono. nra.
    - destruct (is_finite (fsub h m)); [unfold clamp; apply Rmax_l|lra].
  Qed.
  Lemma logit_best : is_finite (logit eta m m) = true /\ B2R (logit eta m m) = 0.
  Proof.
    assert (S : is_finite (fsub m m) = true /\ B2R (fsub m m) = 0).
    { destruct (fsub_ok m m Fm Fm) as [A B]; [rewrite Rminus_diag_eq, Rabs_R0 by reflexivity; apply Rlt_le, big_pos|]. split; [exact A|]. now rewrite B, Rminus_diag_eq, rnd_0. }
    destruct S as [S1 S2]. destruct (fmul_ok eta (fsub m m) Fe S1) as [A B]; [rewrite S2, Rmult_0_r, Rabs_R0; apply Rlt_le, big_pos|]. split; [exact A|]. unfold logit. now rewrite B, S2, Rmult_0_r, rnd_0.
  Qed.
End Logits.

(** Three numbers between 0 and 1, one of them 1, divided by their sum *)
Definition unit_float (e : float) : Prop := is_finite e = true /\ 0 <= B2R e <= 1.
Lemma rnd_B2R (x : float) : rnd (B2R x) = B2R x.
Proof. apply round_generic; [apply valid_rnd_N|apply generic_format_B2R]. Qed.
Lemma small_big x z : (Z.abs z <= 2 ^ 53)%Z -> 0 <= x <= IZR z -> Rabs x <= big.
Proof. intros Hz H. pose proof (big_Z z Hz) as B. rewrite Rabs_pos_eq by lra. pose proof (Rle_abs (IZR z)). lra. Qed.
Lemma sum3 e1 e2 e3 : unit_float e1 -> unit_float e2 -> unit_float e3 -> B2R e1 = 1 \/ B2R e2 = 1 \/ B2R e3 = 1 ->
  let s := fadd (fadd (fadd (fofZ 0) e1) e2) e3 in
  is_finite s = true /\ 1 <= B2R s <= 3 /\ Rabs (B2R s - (B2R e1 + B2R e2 + B2R e3)) <= 5 * u.
Proof.
  intros [F1 I1] [F2 I2] [F3 I3] Hone s. unfold s. clear s.
  assert (Z0 : is_finite (fofZ 0) = true /\ B2R (fofZ 0) = 0) by (destruct (fofZ_exact 0) as [A B]; [now vm_compute|]; now split). destruct Z0 as [Z1 Z2].
  destruct (fadd_ok (fofZ 0) e1 Z1 F1) as [A1 B1]; [rewrite Z2, Rplus_0_l; apply (small_big _ 1); [now vm_compute|]; lra|]. rewrite Z2, Rplus_0_l, rnd_B2R in B1.
  set (s1 := fadd (fofZ 0) e1) in *. destruct (fadd_ok s1 e2 A1 F2) as [A2 B2]; [rewrite B1; apply (small_big _ 2); [now vm_compute|]; lra|]. rewrite B1 in B2.
  set (s2 := fadd s1 e2) in *.
  assert (L2 : B2R s2 <= 2) by (rewrite B2; apply (@rnd_le_Z _ 2); [now vm_compute|lra]).
  assert (G2 : B2R e1 <= B2R s2 /\ B2R e2 <= B2R s2) by (rewrite B2; split; [rewrite <- (rnd_B2R e1) at 1|rewrite <- (rnd_B2R e2) at 1]; apply rnd_mono; lra).
  destruct (fadd_ok s2 e3 A2 F3) as [A3 B3]; [apply (small_big _ 3); [now vm_compute|]; lra|].
  set (s := fadd s2 e3) in *. split; [exact A3|]. split; [split|].
  - rewrite B3. apply (@rnd_ge_Z _ 1); [now vm_compute|]. destruct Hone as [H|[H|H]]; lra.
  - rewrite B3. apply (@rnd_le_Z _ 3); [now vm_compute|lra].
  - destruct (plus_rel (B2R e1) (B2R e2) (generic_format_B2R _ _ _) (generic_format_B2R _ _ _)) as (d1 & D1 & E1).
    destruct (plus_rel (B2R s2) (B2R e3) (generic_format_B2R _ _ _) (generic_format_B2R _ _ _)) as (d2 & D2 & E2).
    apply Rabs_le_inv in D1. apply Rabs_le_inv in D2. pose proof u_pos. rewrite E1 in B2. rewrite E2 in B3. apply Rabs_le. rewrite B3. 
    assert (K1 : - (2 * u) <= B2R s2 - (B2R e1 + B2R e2) <= 2 * u) by (rewrite B2; split; nra). assert (K2 : - (3 * u) <= (B2R s2 + B2R e3) * d2 <= 3 * u) by (split; nra). lra.
Qed.
Lemma weights3 e1 e2 e3 : unit_float e1 -> unit_float e2 -> unit_float e3 -> B2R e1 = 1 \/ B2R e2 = 1 \/ B2R e3 = 1 ->
  let s := fadd (fadd (fadd (fofZ 0) e1) e2) e3 in
  let w e := fdiv e s in
  (forall e, unit_float e -> B2R e <= B2R e1 \/ B2R e <= B2R e2 \/ B2R e <= B2R e3 -> unit_float (w e)) /\
  (forall e e', unit_float e -> unit_float e' -> B2R e <= B2R e' -> B2R (w e) <= B2R (w e')) /\
  (forall e, unit_float e -> B2R e = 1 -> / 4 <= B2R (w e)) /\
  Rabs (B2R (w e1) + B2R (w e2) + B2R (w e3) - 1) <= 8 * u.
Proof.
  intros U1 U2 U3 Hone s w. destruct (sum3 _ _ _ U1 U2 U3 Hone) as (Fs & Is & Es). fold s in Fs, Is, Es.
  assert (D : forall e, unit_float e -> 0 <= B2R e / B2R s <= 1 /\ is_finite (w e) = true /\ B2R (w e) = rnd (B2R e / B2R s)).
  { intros e [Fe Ie]. assert (Q : 0 <= B2R e / B2R s <= 1). { split; [apply Rmult_le_pos; [lra|]; apply Rlt_le, Rinv_0_lt_compat; lra|]. apply Rmult_le_reg_r with (B2R s); [lra|]. unfold Rdiv. rewrite Rmult_assoc, Rinv_l by lra. lra. }
    split; [exact Q|]. apply fdiv_ok; [exact Fe|lra|]. apply (small_big _ 1); [now vm_compute|]. lra. }
  split; [|split; [|split]].
  - intros e Ue _. destruct (D e Ue) as (Q & F & E). split; [exact F|]. rewrite E. split; [apply (@rnd_ge_Z _ 0); [now vm_compute|]|apply (@rnd_le_Z _ 1); [now vm_compute|]]; lra.
  - intros e e' Ue Ue' H. destruct (D e Ue) as (_ & _ & ->). destruct (D e' Ue') as (_ & _ & ->). apply rnd_mono. unfold Rdiv. apply Rmult_le_compat_r; [apply Rlt_le, Rinv_0_lt_compat; lra|exact H].
  - intros e Ue He. destruct (D e Ue) as (_ & _ & ->). rewrite He. assert (G : rnd (/ 4) = / 4). { apply round_generic; [apply valid_rnd_N|]. replace (/ 4) with (bpow radix2 (-2)) by (change (bpow radix2 (-2)) with (/ IZR 4); reflexivity). apply generic_format_bpow'; [apply fexp64_valid|now vm_compute]. }
    rewrite <- G. apply rnd_mono. unfold Rdiv. rewrite Rmult_1_l. apply Rinv_le; lra.
  - destruct (D e1 U1) as (Q1 & _ & ->). destruct (D e2 U2) as (Q2 & _ & ->). destruct (D e3 U3) as (Q3 & _ & ->).
    pose proof (rnd_err (B2R e1 / B2R s)) as R1. pose proof (rnd_err (B2R e2 / B2R s)) as R2. pose proof (rnd_err (B2R e3 / B2R s)) as R3.
    change (/ IZR (2 ^ 53)) with u in R1, R2, R3.
    rewrite (Rabs_pos_eq (B2R e1 / B2R s)) in R1 by lra. rewrite (Rabs_pos_eq (B2R e2 / B2R s)) in R2 by lra. rewrite (Rabs_pos_eq (B2R e3 / B2R s)) in R3 by lra.
    set (S := B2R e1 + B2R e2 + B2R e3) in *. assert (T : B2R e1 / B2R s + B2R e2 / B2R s + B2R e3 / B2R s = 1 + (S - B2R s) / B2R s) by (unfold S; field; lra).
    assert (V : Rabs ((S - B2R s) / B2R s) <= 5 * u). { unfold Rdiv. rewrite Rabs_mult, Rabs_inv, (Rabs_pos_eq (B2R s)), Rabs_minus_sym by lra. assert (/ B2R s <= 1) by (rewrite <- Rinv_1; apply Rinv_le; lra). assert (0 < / B2R s) by (apply Rinv_0_lt_compat; lra). pose proof (Rabs_pos (B2R s - S)). nra. }
    assert (H100 : 0 < / IZR (2 ^ 100) <= / 8 * u).
    { split; [apply Rinv_0_lt_compat, IZR_lt; reflexivity|]. unfold ulp2. rewrite <- Rinv_mult_distr; [|lra|apply IZR_neq; discriminate]. change 8 with (IZR 8). rewrite <- mult_IZR. apply Rinv_le; [apply IZR_lt; reflexivity|apply IZR_le; discriminate]. }
    assert (Hu : u <= / 100) by (unfold ulp2; apply Rinv_le; [lra|apply IZR_le; discriminate]).
    apply Rabs_le_inv in V. apply Rabs_le_inv in R1. apply Rabs_le_inv in R2. apply Rabs_le_inv in R3. apply Rabs_le. pose proof u_pos.
    set (q1 := B2R e1 / B2R s) in *. set (q2 := B2R e2 / B2R s) in *. set (q3 := B2R e3 / B2R s) in *. set (v := (S - B2R s) / B2R s) in *.
    assert (P : u * q1 + u * q2 + u * q3 <= u * (1 + 5 * u)) by (rewrite <- !Rmult_plus_distr_l, T; apply Rmult_le_compat_l; lra).
    assert (P' : u * (5 * u) <= u * / 20) by (apply Rmult_le_compat_l; lra). split; lra.
Qed.
Lemma unit_of e : fleb (fofZ 0) e = true -> (exists o, is_finite o = true /\ B2R o = 1 /\ fleb e o = true) -> unit_float e.
Proof.
  intros H (o & Fo & Eo & Ho). apply pos_leb in H. destruct H as [N P]. apply fleb_spec in Ho. destruct Ho as (_ & _ & Ho). rewrite (fE_finite o Fo), Eo in Ho.
  assert (F : is_finite e = true) by (apply fE_IZR_finite; [rewrite Rabs_pos_eq by exact P; apply Rle_trans with (1 := Ho); apply IZR_le; discriminate|exact N]).
  split; [exact F|]. rewrite fE_finite in * by exact F. lra.
Qed.
Lemma finite_num L (x : float) : is_finite x = true -> nisnan (F64 L) x = false.
Proof. intro F. unfold nisnan. cbn [nleb F64]. assert (fleb x x = true) as ->; [|reflexivity]. apply fleb_spec. pose proof (finite_not_nan _ F). repeat split; auto. lra. Qed.
Lemma c23_float L eta g1 g2 g3 : fair_exp L -> is_finite eta = true -> 0 < B2R eta -> Forall (fun g => is_finite g = true) [g1; g2; g3] ->
  exists w1 w2 w3, hedge_weights (F64 L) eta [g1; g2; g3] = Ok [w1; w2; w3] /\
    Forall (fun w => is_finite w = true /\ 0 <= B2R w <= 1) [w1; w2; w3] /\
    Rabs (B2R w1 + B2R w2 + B2R w3 - 1) <= / IZR (2 ^ 50) /\ B2R (fadd w1 w2) <= 1 + / IZR (10 ^ 12) /\
    forall i j gi gj wi wj, nth_error [g1; g2; g3] i = Some gi -> nth_error [g1; g2; g3] j = Some gj -> nth_error [w1; w2; w3] i = Some wi -> nth_error [w1; w2; w3] j = Some wj ->
      (B2R gi <= B2R gj -> B2R wi <= B2R wj) /\ ((forall g, In g [g1; g2; g3] -> B2R g <= B2R gi) -> / 4 <= B2R wi).
Proof.
  intros (X1 & X2 & X3) Fe Pe Fg. set (gs := [g1; g2; g3]) in *.
  assert (Nn : no_nan (F64 L) gs) by (eapply Forall_impl; [|exact Fg]; intros g; apply finite_num).
  destruct (np_max_spec (F64_order L) (l := gs) ltac:(discriminate) Nn) as (m & Em & Im & Hm & _).
  assert (Fm : is_finite m = true) by (rewrite Forall_forall in Fg; auto).
  assert (Hle : forall g, In g gs -> is_finite g = true /\ B2R g <= B2R m).
  { intros g Ig. assert (F : is_finite g = true) by (rewrite Forall_forall in Fg; auto). split; [exact F|]. pose proof (Hm g Ig) as Q. cbn [nleb F64] in Q. apply fleb_spec in Q. destruct Q as (_ & _ & Q). now rewrite !fE_finite in Q. }
  destruct (logit_best eta m Fe Fm) as [Bf B0]. destruct (X1 _ Bf B0) as [Of O1].
  set (ex g := l_exp L (logit eta g m)).
  assert (Ux : forall g, In g gs -> unit_float (ex g)).
  { intros g Ig. destruct (Hle g Ig) as [F Q]. apply unit_of; [apply X3; now apply logit_low|]. exists (ex m). split; [exact Of|]. split; [exact O1|].
    apply X2; [apply logit_mono; auto; lra|]. apply logit_low; auto. lra. }
  assert (Mx : forall g h, In g gs -> In h gs -> B2R g <= B2R h -> B2R (ex g) <= B2R (ex h)).
  { intros g h Ig Ih Q. destruct (Hle g Ig) as [F _]. destruct (Hle h Ih) as [F' Q']. pose proof (X2 _ _ (logit_mono eta m Fe Pe Fm g h F F' Q Q') (logit_low eta m Fe Pe Fm h F' Q')) as K.
    apply fleb_spec in K. destruct K as (_ & _ & K). rewrite !fE_finite in K; [exact K|apply (Ux h Ih)|apply (Ux g Ig)]. }
  assert (Tx : forall g, In g gs -> (forall h, In h gs -> B2R h <= B2R g) -> B2R (ex g) = 1).
  { intros g Ig Q. apply Rle_antisym; [apply (Ux g Ig)|]. rewrite <- O1. apply Mx; auto. }
  assert (I1 : In g1 gs) by (cbn; auto). assert (I2 : In g2 gs) by (cbn; auto). assert (I3 : In g3 gs) by (cbn; auto).
  assert (One : B2R (ex g1) = 1 \/ B2R (ex g2) = 1 \/ B2R (ex g3) = 1).
  { destruct Im as [E|[E|[E|[]]]]; [left|right; left|right; right]; rewrite E; exact O1. }
  destruct (weights3 _ _ _ (Ux g1 I1) (Ux g2 I2) (Ux g3 I3) One) as (W1 & W2 & W3 & W4).
  set (s := fadd (fadd (fadd (fofZ 0) (ex g1)) (ex g2)) (ex g3)) in *. set (w g := fdiv (ex g) s).
  assert (U1 : unit_float (w g1)) by (apply W1; [apply Ux; exact I1|left; lra]).
  assert (U2 : unit_float (w g2)) by (apply W1; [apply Ux; exact I2|right; left; lra]).
  assert (U3 : unit_float (w g3)) by (apply W1; [apply Ux; exact I3|right; right; lra]).
  exists (w g1), (w g2), (w g3). split; [unfold hedge_weights; rewrite Em; reflexivity|]. split; [repeat (constructor; [assumption|]); constructor|].
  assert (P50 : 8 * u = / IZR (2 ^ 50)). { unfold ulp2. change (2 ^ 53)%Z with (8 * 2 ^ 50)%Z. rewrite mult_IZR. field. apply IZR_neq. discriminate. }
  rewrite P50 in W4. change (Rabs (B2R (w g1) + B2R (w g2) + B2R (w g3) - 1) <= / IZR (2 ^ 50)) in W4. split; [exact W4|]. split.
  - assert (Q : is_finite (fadd (w g1) (w g2)) = true /\ B2R (fadd (w g1) (w g2)) = rnd (B2R (w g1) + B2R (w g2))).
    { apply fadd_ok; [apply U1|apply U2|]. apply (small_big _ 2); [now vm_compute|]. destruct U1 as [_ U1], U2 as [_ U2]. lra. }
    destruct Q as [_ ->]. destruct (plus_rel (B2R (w g1)) (B2R (w g2)) (generic_format_B2R _ _ _) (generic_format_B2R _ _ _)) as (d & D & ->).
    apply Rabs_le_inv in D. apply Rabs_le_inv in W4. destruct U1 as [_ U1], U2 as [_ U2], U3 as [_ U3]. pose proof u_pos.
    assert (Hd : d <= / IZR (2 ^ 50)) by lra. assert (H50 : 0 < / IZR (2 ^ 50) <= / 4 * / IZR (10 ^ 12)).
    { split; [apply Rinv_0_lt_compat, IZR_lt; reflexivity|]. rewrite <- Rinv_mult_distr; [|lra|apply IZR_neq; discriminate]. change 4 with (IZR 4). rewrite <- mult_IZR. apply Rinv_le; [apply IZR_lt; reflexivity|apply IZR_le; discriminate]. }
    set (a := B2R (w g1) + B2R (w g2)) in *. set (z := / IZR (2 ^ 50)) in *. assert (a <= 1 + z) by lra. assert (0 <= a) by (unfold a; lra). assert (a <= 2) by (unfold a; lra).
    apply Rle_trans with (a + a * z); [assert (a * d <= a * z) by (apply Rmult_le_compat_l; lra); lra|]. assert (a * z <= 2 * z) by (apply Rmult_le_compat_r; lra). lra.
  - intros i j gi gj wi wj Hi Hj Ki Kj.
    assert (T : forall k g v, nth_error [g1; g2; g3] k = Some g -> nth_error [w g1; w g2; w g3] k = Some v -> In g gs /\ v = w g).
    { intros k g v A B. split; [eapply nth_error_In; exact A|]. pose proof (map_nth_error w k [g1; g2; g3] A) as C. cbn [map] in C. congruence. }
    destruct (T _ _ _ Hi Ki) as [Ii ->]. destruct (T _ _ _ Hj Kj) as [Ij ->]. split.
    + intro Q. apply W2; auto.
    + intro Q. apply W3; auto.
Qed.
