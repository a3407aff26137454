(** Soundness of the branch and bound of HartLemmas.v (C80). *)
From Coq Require Import List ZArith Bool Reals Lra Lia Psatz.
From Verif Require Import Base Benchmarks BenchSpec BenchProps HartLemmas.
Import ListNotations.
Open Scope R_scope.

Lemma exp_le a b : a <= b -> exp a <= exp b.
Proof. intros [H| ->]; [left; now apply exp_increasing|right; reflexivity]. Qed.

(** *** Rounding *)
Lemma SC_pow : SC = (2 ^ 44)%Z. Proof. reflexivity. Qed.
Lemma SC_pos : 0 < IZR SC. Proof. apply IZR_lt. reflexivity. Qed.
Lemma div_up a b : (0 < b)%Z -> IZR a / IZR b <= IZR (a / b + 1).
Proof.
  intros Hb. assert (P : 0 < IZR b) by now apply IZR_lt. apply (Rmult_le_reg_r (IZR b)); [exact P|]. unfold Rdiv. rewrite Rmult_assoc, Rinv_l, Rmult_1_r by lra.
  rewrite <- mult_IZR. apply IZR_le. pose proof (Z.div_mod a b ltac:(lia)). pose proof (Z.mod_pos_bound a b Hb). nia.
Qed.
Lemma square_up z e : 0 <= e -> IZR SC * e <= IZR z -> IZR SC * (e * e) <= IZR (Z.shiftr (z * z) 44 + 1).
Proof.
  intros He H. rewrite Z.shiftr_div_pow2 by lia. rewrite <- SC_pow. eapply Rle_trans; [|apply div_up; reflexivity]. pose proof SC_pos as P.
  apply (Rmult_le_reg_r (IZR SC)); [exact P|]. unfold Rdiv. rewrite (Rmult_assoc (IZR (z * z))), Rinv_l, Rmult_1_r by lra. rewrite mult_IZR.
  replace (IZR SC * (e * e) * IZR SC) with ((IZR SC * e) * (IZR SC * e)) by ring. apply Rmult_le_compat; try apply Rmult_le_pos; lra.
Qed.
Lemma squares_up : forall n z u, 0 <= u -> IZR SC * exp (- u) <= IZR z -> IZR SC * exp (- (u * 2 ^ n)) <= IZR (squares n z).
Proof.
  induction n as [|n IH]; intros z u Hu H; cbn [squares].
  - replace (u * 2 ^ 0) with u by (simpl; ring). exact H.
  - replace (u * 2 ^ S n) with ((u + u) * 2 ^ n) by (simpl; ring). apply IH; [lra|]. replace (- (u + u)) with (- u + - u) by ring. rewrite exp_plus.
    apply square_up; [left; apply exp_pos|exact H].
Qed.
Lemma expup_up q : (0 <= q)%Z -> IZR SC * exp (- (IZR q / IZR UN)) <= IZR (expup q).
Proof.
  intros Hq. assert (P : 0 <= IZR q) by now apply IZR_le. unfold expup.
  replace (IZR q / IZR UN) with (IZR q / IZR BIG * 2 ^ 19). 2:{ unfold UN, BIG. field. }
  assert (B : 0 < IZR BIG) by (apply IZR_lt; reflexivity).
  assert (U : 0 <= IZR q / IZR BIG) by (apply Rmult_le_pos; [exact P|left; now apply Rinv_0_lt_compat]). apply squares_up; [exact U|].
  eapply Rle_trans; [|apply div_up; unfold BIG; lia]. rewrite mult_IZR, plus_IZR, exp_Ropp.
  pose proof (exp_ineq1_le (IZR q / IZR BIG)) as H. unfold Rdiv at 2. rewrite Rmult_assoc. apply Rmult_le_compat_l; [apply Rlt_le, SC_pos|].
  replace (IZR BIG * / (IZR BIG + IZR q)) with (/ (1 + IZR q / IZR BIG)) by (field; lra). apply Rinv_le_contravar; lra.
Qed.

(** *** Chords *)
Definition within_i (q : R) (i : Z * option Z) : Prop := IZR (fst i) <= q * IZR UN /\ match snd i with Some h => q * IZR UN <= IZR h | None => True end.
Lemma exp_chord a b z A B : a <= z <= b -> exp (- a) <= A -> exp (- b) <= B -> exp (- z) * (b - a) <= A * (b - z) + B * (z - a).
Proof.
  intros Hz Ha Hb. assert (T : forall c, exp (- z) * (1 + (z - c)) <= exp (- c)).
  { intro c. replace (- c) with (- z + (z - c)) by ring. rewrite exp_plus. apply Rmult_le_compat_l; [left; apply exp_pos|]. apply exp_ineq1_le. }
  pose proof (T a). pose proof (T b). pose proof (exp_pos (- z)). nra.
Qed.
Lemma chord_up a i s c g q : (0 < a)%Z -> chord a i = (s, c, g) -> (0 <= fst i)%Z -> match snd i with Some h => (0 <= h)%Z | None => True end -> within_i q i ->
  0 <= IZR s /\ IZR a * (IZR SC * exp (- q)) <= IZR c - IZR s * (q * IZR UN).
Proof.
  destruct i as [l [h|]]; unfold chord, within_i; cbn [fst snd]; intros Ha E Hl Hh (W1 & W2).
  - set (el := (a * expup l)%Z) in *. set (eh := (a * expup h)%Z) in *. set (s0 := Z.max 0 ((el - eh) / (h - l))) in *. injection E as <- <- <-.
    assert (S0 : 0 <= IZR s0) by (apply IZR_le; unfold s0; lia). split; [exact S0|].
    assert (A' : 0 < IZR a) by now apply IZR_lt.
    assert (Pl : IZR a * (IZR SC * exp (- (IZR l / IZR UN))) <= IZR el) by (unfold el; rewrite mult_IZR; apply Rmult_le_compat_l; [lra|now apply expup_up]).
    assert (Ph : IZR a * (IZR SC * exp (- (IZR h / IZR UN))) <= IZR eh) by (unfold eh; rewrite mult_IZR; apply Rmult_le_compat_l; [lra|now apply expup_up]).
    set (c := Z.max (el + s0 * l) (eh + s0 * h)).
    assert (C1 : IZR el + IZR s0 * IZR l <= IZR c) by (rewrite <- mult_IZR, <- plus_IZR; apply IZR_le; unfold c; lia).
    assert (C2 : IZR eh + IZR s0 * IZR h <= IZR c) by (rewrite <- mult_IZR, <- plus_IZR; apply IZR_le; unfold c; lia).
    assert (U0 : 0 < IZR UN) by (apply IZR_lt; reflexivity). pose proof SC_pos as P0.
    assert (K : 0 < IZR a * IZR SC) by now apply Rmult_lt_0_compat.
    set (k := IZR a * IZR SC) in *. replace (IZR a * (IZR SC * exp (- (IZR l / IZR UN)))) with (k * exp (- (IZR l / IZR UN))) in Pl by (unfold k; ring).
    replace (IZR a * (IZR SC * exp (- (IZR h / IZR UN)))) with (k * exp (- (IZR h / IZR UN))) in Ph by (unfold k; ring).
    replace (IZR a * (IZR SC * exp (- q))) with (k * exp (- q)) by (unfold k; ring).
    set (L := IZR l / IZR UN) in *. set (H := IZR h / IZR UN) in *.
    assert (EL : IZR l = L * IZR UN) by (unfold L; field; lra). assert (EH : IZR h = H * IZR UN) by (unfold H; field; lra).
    rewrite EL in *. rewrite EH in *. assert (Lq : L <= q) by (apply (Rmult_le_reg_r (IZR UN)); lra). assert (qH : q <= H) by (apply (Rmult_le_reg_r (IZR UN)); lra).
    destruct (Req_dec L H) as [E|n].
    + assert (q = L) by lra. subst q. nra.
    + pose proof (@exp_chord L H q (exp (- L)) (exp (- H)) ltac:(lra) ltac:(lra) ltac:(lra)) as Q. assert (D : 0 < H - L) by lra.
      apply (Rmult_le_reg_r (H - L)); [exact D|].
      assert (Q' : k * exp (- q) * (H - L) <= k * exp (- L) * (H - q) + k * exp (- H) * (q - L)).
      { replace (k * exp (- q) * (H - L)) with (k * (exp (- q) * (H - L))) by ring.
        replace (k * exp (- L) * (H - q) + k * exp (- H) * (q - L)) with (k * (exp (- L) * (H - q) + exp (- H) * (q - L))) by ring. apply Rmult_le_compat_l; lra. }
      eapply Rle_trans; [exact Q'|].
      assert (X1 : k * exp (- L) * (H - q) <= (IZR c - IZR s0 * (L * IZR UN)) * (H - q)) by (apply Rmult_le_compat_r; lra).
      assert (X2 : k * exp (- H) * (q - L) <= (IZR c - IZR s0 * (H * IZR UN)) * (q - L)) by (apply Rmult_le_compat_r; lra).
      eapply Rle_trans; [apply Rplus_le_compat; [exact X1|exact X2]|]. right. ring.
  - injection E as <- <- <-. split; [lra|]. rewrite mult_IZR. rewrite Rmult_0_l, Rminus_0_r. apply Rmult_le_compat_l; [apply IZR_le; lia|].
    eapply Rle_trans; [|now apply expup_up]. apply Rmult_le_compat_l; [apply Rlt_le, SC_pos|]. apply exp_le. apply Ropp_le_contravar.
    assert (U0 : 0 < IZR UN) by (apply IZR_lt; reflexivity). apply (Rmult_le_reg_r (IZR UN)); [exact U0|]. unfold Rdiv. rewrite Rmult_assoc, Rinv_l by lra. lra.
Qed.

(** *** Columns *)
Fixpoint colval (lam : list Z) (col : list (Z * Z)) (y : R) : R :=
  match lam, col with l :: lam', (a, p) :: col' => IZR l * IZR a * (y - IZR p) ^ 2 + colval lam' col' y | _, _ => 0 end.
Lemma colval_poly : forall lam col y, colval lam col y = IZR (second lam col) - 2 * IZR (first lam col) * y + IZR (weight lam col) * y ^ 2.
Proof.
  unfold second, first, weight. induction lam as [|l lam IH]; intros [|[a p] col] y; cbn [colval wsum]; try lra.
  rewrite IH, !plus_IZR, !mult_IZR. ring.
Qed.
Lemma colval_pos : forall lam col y, Forall (fun l => 0 <= l)%Z lam -> Forall (fun ap => 0 <= fst ap)%Z col -> 0 <= colval lam col y.
Proof.
  induction lam as [|l lam IH]; intros [|[a p] col] y F G; cbn [colval]; try lra. inversion F as [|? ? Hl F']; inversion G as [|? ? Ha G']; subst. cbn in Ha.
  pose proof (IH col y F' G'). apply IZR_le in Hl. apply IZR_le in Ha. pose proof (pow2_ge_0 (y - IZR p)). assert (0 <= IZR l * IZR a) by now apply Rmult_le_pos. nra.
Qed.
Lemma colmin_low lam col y : Forall (fun l => 0 <= l)%Z lam -> Forall (fun ap => 0 <= fst ap)%Z col ->
  IZR (colmin lam col) <= colval lam col y /\
  ((0 < weight lam col)%Z -> IZR (colmin lam col) + (IZR (weight lam col) * y - IZR (first lam col)) ^ 2 / IZR (weight lam col) <= colval lam col y).
Proof.
  intros F G. assert (K : (0 < weight lam col)%Z -> IZR (colmin lam col) + (IZR (weight lam col) * y - IZR (first lam col)) ^ 2 / IZR (weight lam col) <= colval lam col y).
  { intros P. unfold colmin. rewrite (proj2 (Z.eqb_neq _ _)) by lia. rewrite colval_poly. assert (P' := P). apply IZR_lt in P'.
    pose proof (@div_up (first lam col * first lam col) (weight lam col) P) as D. rewrite minus_IZR. rewrite mult_IZR in D.
    set (w := IZR (weight lam col)) in *. set (f := IZR (first lam col)) in *.
    assert (X : IZR (second lam col) - f * f / w + (w * y - f) ^ 2 / w = IZR (second lam col) - 2 * f * y + w * y ^ 2) by (field; lra). lra. }
  split; [|exact K]. destruct (Z.eq_dec (weight lam col) 0) as [E|E].
  - unfold colmin. rewrite E, Z.eqb_refl. now apply colval_pos.
  - assert (W : (0 < weight lam col)%Z).
    { enough (0 <= weight lam col)%Z by lia. unfold weight. clear -F G. revert col G. induction F as [|l lam Hl F IH]; intros [|[a p] col] G; cbn [wsum]; try lia.
      inversion G; subst. cbn in *. specialize (IH col ltac:(assumption)). nia. }
    specialize (K W). assert (0 <= (IZR (weight lam col) * y - IZR (first lam col)) ^ 2 / IZR (weight lam col)).
    { apply Rmult_le_pos; [apply pow2_ge_0|]. left. apply Rinv_0_lt_compat. now apply IZR_lt. } lra.
Qed.

(** *** All columns *)
Definition rsum (l : list R) : R := fold_right Rplus 0 l.
Fixpoint vals (lam : list Z) (cs : list (list (Z * Z))) (ys : list R) : R :=
  match cs, ys with c :: cs', y :: ys' => colval lam c y + vals lam cs' ys' | _, _ => 0 end.
Definition good (cs : list (list (Z * Z))) : Prop := Forall (fun c => Forall (fun ap => 0 <= fst ap)%Z c) cs.
Lemma vals_low lam : Forall (fun l => 0 <= l)%Z lam -> forall cs ys, good cs -> length ys = length cs -> IZR (zsum (map (colmin lam) cs)) <= vals lam cs ys.
Proof.
  intros F. induction cs as [|c cs IH]; intros [|y ys] G L; try discriminate; cbn [map zsum fold_right vals]; [lra|]. inversion G; subst. injection L as L.
  rewrite plus_IZR. specialize (IH ys ltac:(assumption) L). unfold zsum in IH. destruct (@colmin_low lam c y F ltac:(assumption)) as (H & _). lra.
Qed.
Definition close (r : Z) (y : R) (y0 : Z) : Prop := Rabs (y - IZR y0) <= IZR r.
(** If the columns use up little more than their least values, they are near. *)
Lemma near_sound lam slack r : Forall (fun l => 0 <= l)%Z lam -> (0 <= r)%Z -> forall cs ys ys0, good cs -> length ys = length cs -> length ys0 = length cs ->
  near_all lam slack r cs ys0 = true -> IZR UN * vals lam cs ys <= IZR UN * IZR (zsum (map (colmin lam) cs)) + IZR slack -> Forall2 (close r) ys ys0.
Proof.
  intros F Hr. assert (U0 : 0 < IZR UN) by (apply IZR_lt; reflexivity).
  induction cs as [|c cs IH]; intros [|y ys] [|y0 ys0] G L L0 N V; try discriminate; [constructor|]. inversion G as [|? ? Gc Gs]; subst. injection L as L. injection L0 as L0.
  cbn [near_all] in N. apply andb_prop in N as (N & Ns). apply andb_prop in N as (N & N3). apply andb_prop in N as (N1 & N2).
  apply Z.ltb_lt in N1. apply Z.leb_le in N2. apply Z.leb_le in N3. cbn [map zsum fold_right vals] in V. rewrite plus_IZR in V. change (fold_right Z.add 0%Z (map (colmin lam) cs)) with (zsum (map (colmin lam) cs)) in V.
  destruct (@colmin_low lam c y F Gc) as (Cl & Ck). specialize (Ck N1). pose proof (@vals_low lam F cs ys Gs L) as Vl.
  constructor.
  - assert (W0 : 0 < IZR (weight lam c)) by now apply IZR_lt.
    assert (Q : IZR UN * ((IZR (weight lam c) * y - IZR (first lam c)) ^ 2 / IZR (weight lam c)) <= IZR slack) by nra.
    apply IZR_le in N2. apply IZR_le in N3. rewrite !mult_IZR, minus_IZR, mult_IZR in N3. rewrite mult_IZR in N2. rewrite abs_IZR, minus_IZR, mult_IZR in N2, N3.
    set (w := IZR (weight lam c)) in *. set (f := IZR (first lam c)) in *. set (t := IZR y0) in *. set (R := IZR r) in *. set (d := Rabs (f - t * w)) in *.
    assert (Q2 : IZR UN * (w * y - f) ^ 2 <= IZR UN * ((R * w - d) * (R * w - d))).
    { eapply Rle_trans; [|exact N3]. replace (IZR UN * (w * y - f) ^ 2) with (IZR UN * ((w * y - f) ^ 2 / w) * w) by (field; lra). apply Rmult_le_compat_r; lra. }
    apply Rmult_le_reg_l in Q2; [|exact U0].
    assert (Q3 : Rabs (w * y - f) <= R * w - d).
    { rewrite <- (Rabs_pos_eq (R * w - d)) by lra. apply Rsqr_le_abs_0. unfold Rsqr. replace ((w * y - f) * (w * y - f)) with ((w * y - f) ^ 2) by ring. exact Q2. }
    unfold close. fold t R. apply (Rmult_le_reg_r w); [exact W0|]. rewrite <- (Rabs_pos_eq w) at 1 by lra. rewrite <- Rabs_mult.
    replace ((y - t) * w) with ((w * y - f) + (f - t * w)) by ring. pose proof (Rabs_triang (w * y - f) (f - t * w)) as Tr. fold d in Tr. lra.
  - apply IH; [exact Gs|exact L|exact L0|exact Ns|]. nra.
Qed.

(** *** The exponents *)
Definition exponents (x : list R) : list R := map (fun ap => hart_row (fst ap) (snd ap) x) (combine hart_A hart_P).
Fixpoint mix (lam : list Z) (qs : list R) : R := match lam, qs with l :: lam', q :: qs' => IZR l * q + mix lam' qs' | _, _ => 0 end.
Lemma mix_columns a b c d x0 x1 x2 x3 x4 x5 :
  mix [a; b; c; d] (exponents [x0; x1; x2; x3; x4; x5]) * 10 ^ 14 = vals [a; b; c; d] cols (map (fun v => v * 10 ^ 6) [x0; x1; x2; x3; x4; x5]).
Proof.
  unfold exponents, hart_A, hart_P, cols. cbn [combine map fst snd hart_row mix vals colval]. field.
Qed.
Lemma good_cols : good cols.
Proof. unfold good, cols. repeat constructor; cbn; lia. Qed.
Lemma terms_sum x : sum (hart_terms hart_alpha hart_A hart_P x) * 10 = rsum (map (fun aq => IZR (fst aq) * exp (- snd aq)) (combine alz (exponents x))).
Proof.
  unfold exponents, hart_alpha, hart_A, hart_P, alz, rsum. cbn [combine map fst snd hart_terms sum fold_right]. lra.
Qed.

Definition slopes (cs : list (Z * Z * Z)) : list Z := map (fun c => fst (fst c)) cs.
Definition tops (cs : list (Z * Z * Z)) : list Z := map (fun c => snd (fst c)) cs.
Lemma chords_up : forall al b qs, Forall (fun a => 0 < a)%Z al -> Forall2 within_i qs b -> proper b = true -> length al = length b ->
  Forall (fun l => 0 <= l)%Z (slopes (chords al b)) /\
  IZR SC * rsum (map (fun aq => IZR (fst aq) * exp (- snd aq)) (combine al qs)) <= IZR (zsum (tops (chords al b))) - IZR UN * mix (slopes (chords al b)) qs.
Proof.
  induction al as [|a al IH]; intros [|i b] qs Ha F P L; try discriminate; inversion F as [|q ? qs' ? Hq F']; subst.
  - split; [constructor|]. cbn. lra.
  - inversion Ha as [|? ? Ha0 Ha']; subst. injection L as L. cbn [proper forallb] in P. apply andb_prop in P as (P0 & P). apply andb_prop in P0 as (P1 & P2). apply Z.leb_le in P1.
    destruct (IH b qs' Ha' F' P L) as (Fs & Q). cbn [chords]. destruct (chord a i) as [[s c] g] eqn:E.
    destruct (@chord_up a i s c g q Ha0 E P1) as (S0 & U); [destruct (snd i); [now apply Z.leb_le|exact I]|exact Hq|].
    unfold slopes, tops in *. cbn [map fst snd combine rsum fold_right zsum mix]. split; [constructor; [now apply le_IZR|exact Fs]|].
    change (fold_right Rplus 0 ?l) with (rsum l). change (fold_right Z.add 0%Z ?l) with (zsum l). rewrite plus_IZR. nra.
Qed.
Lemma alz_pos : Forall (fun a => 0 < a)%Z alz.
Proof. unfold alz. repeat constructor. Qed.
Definition value (x : list R) : R := sum (hart_terms hart_alpha hart_A hart_P x).
Definition scaled (x : list R) : list R := map (fun v => v * 10 ^ 6) x.
Definition conclusion (x : list R) : Prop :=
  value x <= IZR T / 10 ^ 6 /\ (IZR T1 / 10 ^ 6 < value x -> Forall2 (close RAD) (scaled x) ystar).
Lemma okbox_sound b x : length x = 6%nat -> length b = 4%nat -> proper b = true -> okbox (chords alz b) = true -> Forall2 within_i (exponents x) b -> conclusion x.
Proof.
  intros Lx Lb P K F. destruct (@chords_up alz b (exponents x) alz_pos F P) as (Fs & Q); [now rewrite Lb|].
  rewrite <- terms_sum in Q. fold (value x) in Q. set (cs := chords alz b) in *.
  assert (Lc : length (slopes cs) = 4%nat).
  { unfold slopes, cs. rewrite map_length. destruct b as [|i0 [|i1 [|i2 [|i3 [|]]]]]; try discriminate Lb. reflexivity. }
  assert (M : mix (slopes cs) (exponents x) * 10 ^ 14 = vals (slopes cs) cols (scaled x)).
  { destruct (slopes cs) as [|a [|b0 [|c [|d [|]]]]]; try discriminate Lc. destruct x as [|x0 [|x1 [|x2 [|x3 [|x4 [|x5 [|]]]]]]]; try discriminate Lx. apply mix_columns. }
  pose proof SC_pos as P0. assert (U0 : 0 < IZR UN) by (apply IZR_lt; reflexivity).
  assert (Ls : length (scaled x) = length cols) by (unfold scaled; now rewrite map_length, Lx).
  pose proof (@vals_low (slopes cs) Fs cols (scaled x) good_cols Ls) as V.
  assert (Q2 : IZR SC * value x * 10 ^ 15 <= 10 ^ 14 * IZR (zsum (tops cs)) - IZR UN * vals (slopes cs) cols (scaled x)) by (rewrite <- M; nra).
  assert (B : IZR (bound cs) = 10 ^ 14 * IZR (zsum (tops cs)) - IZR UN * IZR (zsum (map (colmin (slopes cs)) cols))).
  { unfold bound. rewrite minus_IZR, !mult_IZR. unfold tops, slopes. f_equal. f_equal. lra. }
  assert (Q3 : IZR SC * value x * 10 ^ 15 <= IZR (bound cs)) by (rewrite B; nra).
  assert (Up : forall t, (bound cs <= 10 ^ 9 * SC * t)%Z -> value x <= IZR t / 10 ^ 6).
  { intros t Ht. apply IZR_le in Ht. rewrite !mult_IZR in Ht. apply (Rmult_le_reg_l (IZR SC * 10 ^ 15)); [apply Rmult_lt_0_compat; lra|].
    replace (IZR SC * 10 ^ 15 * (IZR t / 10 ^ 6)) with (10 ^ 9 * IZR SC * IZR t) by field. replace (IZR (10 ^ 9)) with (10 ^ 9) in Ht by (simpl; lra). lra. }
  unfold okbox in K. apply orb_prop in K as [K|K].
  - apply Z.leb_le in K. pose proof (Up T1 K) as H. split; [|intro; lra]. eapply Rle_trans; [exact H|]. unfold T, T1. lra.
  - apply andb_prop in K as (K1 & K2). apply Z.leb_le in K1. split; [now apply Up|]. intro H.
    apply (@near_sound (slopes cs) (bound cs - 10 ^ 9 * SC * T1) RAD Fs ltac:(unfold RAD; lia) cols (scaled x) ystar good_cols Ls eq_refl K2).
    rewrite minus_IZR, B, !mult_IZR. replace (IZR (10 ^ 9)) with (10 ^ 9) by (simpl; lra).
    assert (H2 : 10 ^ 9 * IZR SC * IZR T1 <= IZR SC * value x * 10 ^ 15).
    { replace (10 ^ 9 * IZR SC * IZR T1) with (IZR SC * 10 ^ 15 * (IZR T1 / 10 ^ 6)) by field. replace (IZR SC * value x * 10 ^ 15) with (IZR SC * 10 ^ 15 * value x) by ring.
      apply Rmult_le_compat_l; [apply Rlt_le, Rmult_lt_0_compat; lra|lra]. }
    lra.
Qed.
Lemma split_covers : forall n b qs, Forall2 within_i qs b -> Forall2 within_i qs (fst (split_at n b)) \/ Forall2 within_i qs (snd (split_at n b)).
Proof.
  induction n as [|n IH]; intros [|[l h] b] qs F; inversion F as [|q ? qs' ? Hq F']; subst; cbn [split_at fst snd]; try solve [left; constructor].
  - set (m := match h with Some h => ((l + h) / 2)%Z | None => (l + 2 * UN)%Z end). destruct Hq as (H1 & H2). cbn [fst snd] in H1, H2.
    destruct (Rle_dec (q * IZR UN) (IZR m)) as [Le|Gt]; [left|right]; (constructor; [|exact F']); split; cbn [fst snd]; try assumption. lra.
  - destruct (split_at n b) as [x y] eqn:E. specialize (IH b qs' F'). rewrite E in IH. cbn [fst snd] in *. destruct IH as [G|G]; [left|right]; now constructor.
Qed.
Lemma split_length : forall n b, length (fst (split_at n b)) = length b /\ length (snd (split_at n b)) = length b.
Proof.
  induction n as [|n IH]; intros [|[l h] b]; cbn [split_at fst snd length]; auto. specialize (IH b). destruct (split_at n b) as [x y]. cbn in *. lia.
Qed.
Lemma recut_split : forall n al b, recut n al (fst (split_at n b)) (chords al b) = chords al (fst (split_at n b)) /\
  recut n al (snd (split_at n b)) (chords al b) = chords al (snd (split_at n b)).
Proof.
  induction n as [|n IH]; intros [|a al] [|[l h] b]; try (split; reflexivity). cbn [split_at]. specialize (IH al b). destruct (split_at n b) as [x y]. cbn [fst snd] in *.
  cbn [chords recut]. now rewrite (proj1 IH), (proj2 IH).
Qed.
Lemma check_sound x : length x = 6%nat -> forall fuel b, length b = 4%nat -> check fuel b (chords alz b) = true -> Forall2 within_i (exponents x) b -> conclusion x.
Proof.
  intros Lx. induction fuel as [|f IH]; intros b Lb K F; cbn [check] in K; destruct (proper b && okbox (chords alz b)) eqn:E.
  1, 3: apply andb_prop in E as (E1 & E2); exact (@okbox_sound b x Lx Lb E1 E2 F).
  - discriminate.
  - set (n := snd (worst (chords alz b))) in K. pose proof (@split_covers n b _ F) as C. pose proof (split_length n b) as (L1 & L2). pose proof (recut_split n alz b) as (R1 & R2).
    destruct (split_at n b) as [b1 b2]. cbn [fst snd] in *. apply andb_prop in K as (K1 & K2). rewrite R1 in K1. rewrite R2 in K2. destruct C as [C|C].
    + apply (IH b1); [lia|exact K1|exact C].
    + apply (IH b2); [lia|exact K2|exact C].
Qed.

(** *** The documented point *)
Definition SD : Z := 1208925819614629174706176.   (* 2^80 *)
Lemma SD_pow : SD = (2 ^ 80)%Z. Proof. reflexivity. Qed.
Lemma SD_pos : 0 < IZR SD. Proof. apply IZR_lt. reflexivity. Qed.
Fixpoint squares_dn (n : nat) (z : Z) : Z := match n with O => z | S n => squares_dn n (Z.shiftr (z * z) 80) end.
Lemma div_dn a b : (0 < b)%Z -> IZR (a / b) <= IZR a / IZR b.
Proof.
  intros Hb. assert (P : 0 < IZR b) by now apply IZR_lt. apply (Rmult_le_reg_r (IZR b)); [exact P|]. unfold Rdiv. rewrite Rmult_assoc, Rinv_l, Rmult_1_r by lra.
  rewrite <- mult_IZR. apply IZR_le. pose proof (Z.div_mod a b ltac:(lia)). pose proof (Z.mod_pos_bound a b Hb). nia.
Qed.
Lemma squares_down : forall n z u, (0 <= z)%Z -> IZR z <= IZR SD * exp (- u) -> IZR (squares_dn n z) <= IZR SD * exp (- (u * 2 ^ n)).
Proof.
  induction n as [|n IH]; intros z u Hz H; cbn [squares_dn].
  - replace (u * 2 ^ 0) with u by (simpl; ring). exact H.
  - replace (u * 2 ^ S n) with ((u + u) * 2 ^ n) by (simpl; ring). rewrite Z.shiftr_div_pow2 by lia. rewrite <- SD_pow.
    apply IH; [apply Z.div_pos; [nia|reflexivity]|]. replace (- (u + u)) with (- u + - u) by ring. rewrite exp_plus.
    eapply Rle_trans; [apply div_dn; reflexivity|]. pose proof SD_pos as P. apply IZR_le in Hz.
    apply (Rmult_le_reg_r (IZR SD)); [exact P|]. unfold Rdiv. rewrite (Rmult_assoc (IZR (z * z))), Rinv_l, Rmult_1_r by lra. rewrite mult_IZR.
    replace (IZR SD * (exp (- u) * exp (- u)) * IZR SD) with ((IZR SD * exp (- u)) * (IZR SD * exp (- u))) by ring. apply Rmult_le_compat; lra.
Qed.
(** SD * exp(- n / 10^14), rounded down *)
Definition TEN14 : Z := 100000000000000.
Definition TWO30 : Z := 1073741824.
Definition expdn (n : Z) : Z := squares_dn 30 (SD - (n * SD / (TEN14 * TWO30) + 1)).
Lemma expdn_down n : (0 <= n)%Z -> (0 <=? SD - (n * SD / (TEN14 * TWO30) + 1))%Z = true -> IZR (expdn n) <= IZR SD * exp (- (IZR n / IZR TEN14)).
Proof.
  intros Hn K. apply Z.leb_le in K. unfold expdn. replace (IZR n / IZR TEN14) with (IZR n / IZR (TEN14 * TWO30) * 2 ^ 30). 2:{ rewrite mult_IZR. unfold TEN14, TWO30. field. }
  apply squares_down; [exact K|]. rewrite minus_IZR. pose proof (@div_up (n * SD) (TEN14 * TWO30) eq_refl) as H. rewrite (mult_IZR n) in H.
  pose proof (exp_ineq1_le (- (IZR n / IZR (TEN14 * TWO30)))) as E. pose proof SD_pos as P.
  assert (IZR SD * (1 + - (IZR n / IZR (TEN14 * TWO30))) <= IZR SD * exp (- (IZR n / IZR (TEN14 * TWO30)))) by (apply Rmult_le_compat_l; lra).
  replace (IZR n * IZR SD / IZR (TEN14 * TWO30)) with (IZR SD * (IZR n / IZR (TEN14 * TWO30))) in H by (unfold Rdiv; ring). lra.
Qed.
Lemma exponents_star : exponents xstar = [IZR 89320705001280 / IZR TEN14; IZR 481616303491140 / IZR TEN14; IZR 3277495072720 / IZR TEN14; IZR 1126996755092420 / IZR TEN14].
Proof. unfold exponents, xstar, hart_A, hart_P, TEN14. cbn [combine map fst snd hart_row]. repeat (apply (f_equal2 (@cons R)); [lra|]); reflexivity. Qed.
Lemma star_low : (3322368 * SD * 10 <=? 1000000 * (10 * expdn 89320705001280 + 12 * expdn 481616303491140 + 30 * expdn 3277495072720 + 32 * expdn 1126996755092420))%Z = true.
Proof. vm_compute. reflexivity. Qed.
Lemma value_star : 3322368 / 10 ^ 6 <= value xstar.
Proof.
  pose proof star_low as H. apply Z.leb_le, IZR_le in H. rewrite !mult_IZR, !plus_IZR, !mult_IZR in H. pose proof SD_pos as P.
  pose proof (@expdn_down 89320705001280 ltac:(lia) eq_refl) as E1. pose proof (@expdn_down 481616303491140 ltac:(lia) eq_refl) as E2.
  pose proof (@expdn_down 3277495072720 ltac:(lia) eq_refl) as E3. pose proof (@expdn_down 1126996755092420 ltac:(lia) eq_refl) as E4.
  pose proof (terms_sum xstar) as V. fold (value xstar) in V. rewrite exponents_star in V. unfold alz, rsum in V. cbn [combine map fst snd fold_right] in V.
  apply (Rmult_le_reg_l (IZR SD * 10 * 10 ^ 6)); [lra|]. replace (IZR SD * 10 * 10 ^ 6 * value xstar) with (10 ^ 6 * (IZR SD * (value xstar * 10))) by ring. rewrite V.
  set (e1 := exp _) in *. set (e2 := exp _) in *. set (e3 := exp _) in *. set (e4 := exp _) in *. lra.
Qed.
Lemma exponents_pos x : List.Forall (fun q => 0 <= q) (exponents x).
Proof. unfold exponents, hart_A, hart_P. cbn [combine map fst snd]. assert (H : forall A P, List.Forall (fun a => 0 < a) A -> 0 <= hart_row A P x) by (intros; now apply hart_row_nonneg).
  repeat (apply List.Forall_cons; [apply H; repeat (apply List.Forall_cons; [lra|]); apply List.Forall_nil|]); apply List.Forall_nil. Qed.
Lemma all_points x : length x = 6%nat -> conclusion x.
Proof.
  intros Lx. apply (@check_sound x Lx 60 start eq_refl check_all). pose proof (exponents_pos x) as F. assert (U0 : 0 < IZR UN) by (apply IZR_lt; reflexivity).
  assert (W : forall q, 0 <= q -> within_i q (0%Z, None)) by (intros q Hq; split; cbn [fst snd]; [nra|exact I]).
  unfold exponents, hart_A, hart_P in *. cbn [combine map fst snd] in *. inversion F as [|? ? F0 G0]; inversion G0 as [|? ? F1 G1]; inversion G1 as [|? ? F2 G2]; inversion G2 as [|? ? F3 G3]; subst.
  repeat (apply Forall2_cons; [now apply W|]). apply Forall2_nil.
Qed.
Lemma hart6_value x : length x = 6%nat -> hart6 x = Ok (- value x).
Proof. intro L. destruct x as [|? [|? x]]; try discriminate. unfold hart6. rewrite L. reflexivity. Qed.
Lemma close_near : forall x ys c, Forall2 (close RAD) (scaled x) ys -> c = map (fun y => IZR y / 10 ^ 6) ys -> nearby 0.001 x c.
Proof.
  induction x as [|v x IH]; intros ys c F ->; inversion F as [|? y ? ys' H F']; subst; [constructor|]. cbn [map]. constructor; [|now apply (IH ys')].
  change (Rabs (v * 10 ^ 6 - IZR y) <= IZR RAD) in H. unfold RAD in H. replace (v * 10 ^ 6 - IZR y) with ((v - IZR y / 10 ^ 6) * 10 ^ 6) in H by (field). rewrite Rabs_mult in H. rewrite (Rabs_right (10 ^ 6)) in H by lra. lra.
Qed.
Lemma star_points : xstar = map (fun y => IZR y / 10 ^ 6) ystar.
Proof. unfold xstar, ystar. cbn [map]. repeat (apply (f_equal2 (@cons R)); [lra|]); reflexivity. Qed.
Lemma c80_hart6_min (x : list R) (y : R) : length x = 6%nat -> hart6 x = Ok y -> - 3.32237 <= y /\ (y < - 3.32236 -> nearby 0.001 x xstar).
Proof.
  intros L E. rewrite (hart6_value _ L) in E. injection E as <-. destruct (all_points x L) as (A & B). unfold T, T1 in *. split; [lra|]. intro H.
  apply (@close_near x ystar); [apply B; lra|apply star_points].
Qed.
Lemma c80_hart6_star : exists y, hart6 xstar = Ok y /\ - 3.32237 <= y <= - 3.322368.
Proof.
  exists (- value xstar). split; [now apply hart6_value|]. pose proof value_star. destruct (all_points xstar eq_refl) as (A & _). unfold T in A. lra.
Qed.
