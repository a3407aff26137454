(** Order laws of the two number systems. *)
From Coq Require Import String List ZArith Bool Lia Reals Lra Psatz.
From Flocq Require Import Core.Core IEEE754.BinarySingleNaN.
From Verif Require Import Base Num.
Set Implicit Arguments.
Local Open Scope R_scope.

Record order_laws {N} (O : numops N) : Prop := {
  ol_trans : forall x y z, nleb O x y = true -> nleb O y z = true -> nleb O x z = true;
  ol_num_l : forall x y, nleb O x y = true -> nleb O x x = true;
  ol_num_r : forall x y, nleb O x y = true -> nleb O y y = true;
  ol_lt : forall x y, nltb O x y = true <->
            (nleb O x x = true /\ nleb O y y = true /\ nleb O y x = false);
  ol_total : forall x y, nleb O x x = true -> nleb O y y = true ->
            nleb O x y = true \/ nleb O y x = true;
  ol_Z : forall a b, (a <= b)%Z -> nleb O (nofZ O a) (nofZ O b) = true
}.

Lemma Rleb_spec x y : Rleb' x y = true <-> x <= y.
Proof. unfold Rleb'. destruct (Rle_dec x y); split; intros; try easy. Qed.
Lemma Rltb_spec x y : Rltb x y = true <-> x < y.
Proof. unfold Rltb. destruct (Rlt_dec x y); split; intros; try easy. Qed.
Lemma Rleb_false x y : Rleb' x y = false <-> y < x.
Proof. unfold Rleb'. destruct (Rle_dec x y); split; intros; try easy; lra. Qed.
Lemma Rltb_false x y : Rltb x y = false <-> y <= x.
Proof. unfold Rltb. destruct (Rlt_dec x y); split; intros; try easy; lra. Qed.

Lemma Rops_order : order_laws Rops.
Proof.
  constructor; simpl; intros.
  - rewrite Rleb_spec in *. lra.
  - rewrite Rleb_spec in *. lra.
  - rewrite Rleb_spec in *. lra.
  - rewrite Rltb_spec, !Rleb_spec, Rleb_false. lra.
  - rewrite !Rleb_spec. lra.
  - rewrite Rleb_spec. now apply IZR_le.
Qed.

(** ** binary64: extended real value *)
Definition fE (x : float) : R :=
  match x with
  | B754_infinity s => if s then - bpow radix2 1024 else bpow radix2 1024
  | _ => B2R x
  end.

Lemma fE_finite x : is_finite x = true -> fE x = B2R x.
Proof. destruct x; easy. Qed.

Lemma fE_abs_finite x : is_finite x = true -> Rabs (fE x) < bpow radix2 1024.
Proof. intros H. rewrite fE_finite by easy. apply abs_B2R_lt_emax. Qed.

Lemma fE_range x : - bpow radix2 1024 <= fE x <= bpow radix2 1024.
Proof.
  destruct (is_finite x) eqn:Hf.
  - pose proof (fE_abs_finite x Hf) as H. apply Rabs_def2 in H. lra.
  - pose proof (bpow_ge_0 radix2 1024).
    destruct x; try easy; simpl; try destruct s; lra.
Qed.

Lemma fcompare_E x y : is_nan x = false -> is_nan y = false ->
  Bcompare x y = Some (Rcompare (fE x) (fE y)).
Proof.
  intros Hx Hy.
  pose proof (bpow_gt_0 radix2 1024) as Hb.
  destruct (is_finite x) eqn:Fx; destruct (is_finite y) eqn:Fy.
  - rewrite !fE_finite by easy. now apply Bcompare_correct.
  - pose proof (fE_abs_finite x Fx) as H. apply Rabs_def2 in H.
    destruct y as [|s| |]; try easy.
    assert (E : Bcompare x (B754_infinity s) = Some (if s then Gt else Lt)).
    { destruct x as [s'|s'| |s' m e H']; try easy; destruct s; try easy; destruct s'; easy. }
    rewrite E. f_equal. symmetry. unfold fE at 2. destruct s.
    + apply Rcompare_Gt. lra.
    + apply Rcompare_Lt. lra.
  - pose proof (fE_abs_finite y Fy) as H. apply Rabs_def2 in H.
    destruct x as [|s| |]; try easy.
    assert (E : Bcompare (B754_infinity s) y = Some (if s then Lt else Gt)).
    { destruct y as [s'|s'| |s' m e H']; try easy; destruct s; try easy; destruct s'; easy. }
    rewrite E. f_equal. symmetry. unfold fE at 1. destruct s.
    + apply Rcompare_Lt. lra.
    + apply Rcompare_Gt. lra.
  - destruct x as [|s| |]; destruct y as [|s'| |]; try easy.
    transitivity (Some (if s then (if s' then Eq else Lt) else (if s' then Gt else Eq))).
    { now destruct s, s'. }
    f_equal. symmetry. unfold fE. destruct s, s'.
    + apply Rcompare_Eq; lra.
    + apply Rcompare_Lt; lra.
    + apply Rcompare_Gt; lra.
    + apply Rcompare_Eq; lra.
Qed.

Lemma fcompare_nan_l y : Bcompare (@B754_nan 53 1024) y = None.
Proof. now destruct y. Qed.
Lemma fcompare_nan_r x : Bcompare x (@B754_nan 53 1024) = None.
Proof. now destruct x as [[]|[]| |[]]. Qed.

Lemma fleb_nan x y : fleb x y = true -> is_nan x = false /\ is_nan y = false.
Proof.
  unfold fleb. intros H.
  destruct (is_nan x) eqn:Nx.
  - destruct x; easy.
  - destruct (is_nan y) eqn:Ny; [|easy].
    destruct y; try easy. rewrite fcompare_nan_r in H; easy.
Qed.
Lemma fltb_nan x y : fltb x y = true -> is_nan x = false /\ is_nan y = false.
Proof.
  unfold fltb. intros H.
  destruct (is_nan x) eqn:Nx.
  - destruct x; easy.
  - destruct (is_nan y) eqn:Ny; [|easy].
    destruct y; try easy. rewrite fcompare_nan_r in H; easy.
Qed.

Lemma fleb_E x y : is_nan x = false -> is_nan y = false -> fleb x y = Rleb' (fE x) (fE y).
Proof.
  intros Hx Hy. unfold fleb. rewrite fcompare_E by easy.
  unfold Rleb'. destruct (Rcompare_spec (fE x) (fE y)); destruct Rle_dec; try easy; lra.
Qed.
Lemma fltb_E x y : is_nan x = false -> is_nan y = false -> fltb x y = Rltb (fE x) (fE y).
Proof.
  intros Hx Hy. unfold fltb. rewrite fcompare_E by easy.
  unfold Rltb. destruct (Rcompare_spec (fE x) (fE y)); destruct Rlt_dec; try easy; lra.
Qed.

Lemma fleb_spec x y : fleb x y = true <-> is_nan x = false /\ is_nan y = false /\ fE x <= fE y.
Proof.
  split.
  - intros H. destruct (fleb_nan x y H) as [Hx Hy]. rewrite fleb_E, Rleb_spec in H by easy. easy.
  - intros (Hx & Hy & H). rewrite fleb_E, Rleb_spec by easy. easy.
Qed.
Lemma fltb_spec x y : fltb x y = true <-> is_nan x = false /\ is_nan y = false /\ fE x < fE y.
Proof.
  split.
  - intros H. destruct (fltb_nan x y H) as [Hx Hy]. rewrite fltb_E, Rltb_spec in H by easy. easy.
  - intros (Hx & Hy & H). rewrite fltb_E, Rltb_spec by easy. easy.
Qed.
Lemma fleb_refl_nan x : fleb x x = negb (is_nan x).
Proof.
  destruct (is_nan x) eqn:E; simpl.
  - destruct (fleb x x) eqn:F; [|easy]. apply fleb_nan in F. destruct F; congruence.
  - apply fleb_spec. repeat split; try easy. lra.
Qed.

(** ** float(int) *)
Notation rnd := (round radix2 (SpecFloat.fexp 53 1024) ZnearestE).

Lemma fofZ_spec z :
  is_nan (fofZ z) = false /\
  fE (fofZ z) = (if Rlt_bool (Rabs (rnd (IZR z))) (bpow radix2 1024) then rnd (IZR z)
                 else if (z <? 0)%Z then - bpow radix2 1024 else bpow radix2 1024).
Proof.
  unfold fofZ.
  pose proof (binary_normalize_correct 53 1024 prec64 emax64 mode_NE z 0 false) as H.
  replace (F2R {| Fnum := z; Fexp := 0 |}) with (IZR z) in H
    by (unfold F2R; simpl; ring).
  cbv zeta in H. change (round_mode mode_NE) with ZnearestE in H.
  destruct (Rlt_bool (Rabs (rnd (IZR z))) (bpow radix2 1024)) eqn:E.
  - destruct H as (H1 & H2 & H3). split.
    + destruct (binary_normalize 53 1024 prec64 emax64 mode_NE z 0 false); easy.
    + rewrite fE_finite by easy. easy.
  - set (b := binary_normalize 53 1024 prec64 emax64 mode_NE z 0 false) in *.
    assert (E2 : Rlt_bool (IZR z) 0 = (z <? 0)%Z).
    { destruct (Rlt_bool_spec (IZR z) 0); destruct (Z.ltb_spec z 0); try easy.
      - apply lt_IZR in H0. lia.
      - apply le_IZR in H0. lia. }
    rewrite E2 in H. unfold binary_overflow in H. simpl in H.
    destruct b; simpl in H; try easy.
    injection H as ->. split; [easy|]. simpl. destruct (z <? 0)%Z; easy.
Qed.

Lemma fofZ_not_nan z : is_nan (fofZ z) = false.
Proof. apply fofZ_spec. Qed.

Lemma fofZ_mono a b : (a <= b)%Z -> fE (fofZ a) <= fE (fofZ b).
Proof.
  intros H.
  assert (Hr : rnd (IZR a) <= rnd (IZR b)).
  { apply round_le. - apply fexp_correct. reflexivity. - apply valid_rnd_N. - now apply IZR_le. }
  assert (S0 : rnd 0 = 0) by (apply round_0, valid_rnd_N).
  assert (Hneg : forall z, (z < 0)%Z -> rnd (IZR z) <= 0).
  { intros z Hz. rewrite <- S0. apply round_le; try apply valid_rnd_N.
    - apply fexp_correct. reflexivity. - apply IZR_le; lia. }
  assert (Hpos : forall z, (0 <= z)%Z -> 0 <= rnd (IZR z)).
  { intros z Hz. rewrite <- S0. apply round_le; try apply valid_rnd_N.
    - apply fexp_correct. reflexivity. - apply IZR_le; lia. }
  destruct (fofZ_spec a) as [_ ->]. destruct (fofZ_spec b) as [_ ->].
  pose proof (bpow_gt_0 radix2 1024) as Hb.
  destruct (Rlt_bool_spec (Rabs (rnd (IZR a))) (bpow radix2 1024)) as [Ha|Ha];
  destruct (Rlt_bool_spec (Rabs (rnd (IZR b))) (bpow radix2 1024)) as [Hb'|Hb'].
  - easy.
  - apply Rabs_def2 in Ha. destruct (Z.ltb_spec b 0).
    + pose proof (Hneg b H0). rewrite Rabs_left1 in Hb' by easy. lra.
    + lra.
  - apply Rabs_def2 in Hb'. destruct (Z.ltb_spec a 0).
    + lra.
    + pose proof (Hpos a H0). rewrite Rabs_pos_eq in Ha by easy. lra.
  - destruct (Z.ltb_spec a 0); destruct (Z.ltb_spec b 0); try lra. lia.
Qed.

Lemma F64_order L : order_laws (F64 L).
Proof.
  constructor; simpl; intros.
  - rewrite fleb_spec in *. destruct H as (?&?&?), H0 as (?&?&?). repeat split; try easy. lra.
  - rewrite fleb_spec in *. destruct H as (?&?&?). repeat split; try easy. lra.
  - rewrite fleb_spec in *. destruct H as (?&?&?). repeat split; try easy. lra.
  - rewrite fltb_spec, !fleb_refl_nan.
    split.
    + intros (Hx & Hy & H). rewrite Hx, Hy. repeat split; try easy.
      rewrite fleb_E, Rleb_false by easy. easy.
    + intros (Hx & Hy & H).
      destruct (is_nan x) eqn:Nx; try easy. destruct (is_nan y) eqn:Ny; try easy.
      rewrite fleb_E, Rleb_false in H by easy. easy.
  - rewrite fleb_refl_nan in *. destruct (is_nan x) eqn:Nx; try easy.
    destruct (is_nan y) eqn:Ny; try easy.
    rewrite !fleb_E, !Rleb_spec by easy. lra.
  - rewrite fleb_spec. repeat split; try apply fofZ_not_nan. now apply fofZ_mono.
Qed.

(** ** Consequences used by every model *)
Section Laws.
  Context {N : Type} {O : numops N} (L : order_laws O).

  Lemma lt_le x y : nltb O x y = true -> nleb O x y = true.
  Proof.
    intros H. pose proof (proj1 (ol_lt L x y) H) as (Hx & Hy & Hyx).
    destruct (ol_total L x y Hx Hy); congruence.
  Qed.
  Lemma lt_num_l x y : nltb O x y = true -> nleb O x x = true.
  Proof. intros H. now apply (ol_lt L) in H. Qed.
  Lemma lt_num_r x y : nltb O x y = true -> nleb O y y = true.
  Proof. intros H. now apply (ol_lt L) in H. Qed.
  Lemma lt_irrefl x : nltb O x x = false.
  Proof.
    destruct (nltb O x x) eqn:E; [|easy]. apply (ol_lt L) in E. destruct E as (? & _ & ?). congruence.
  Qed.
  Lemma lt_le_trans x y z : nltb O x y = true -> nleb O y z = true -> nltb O x z = true.
  Proof.
    intros H1 H2. pose proof (proj1 (ol_lt L x y) H1) as (Hx & Hy & Hyx).
    apply (ol_lt L). repeat split; [easy| eapply ol_num_r; eauto |].
    destruct (nleb O z x) eqn:E; [|easy].
    rewrite (ol_trans L _ _ _ H2 E) in Hyx. congruence.
  Qed.
  Lemma le_lt_trans x y z : nleb O x y = true -> nltb O y z = true -> nltb O x z = true.
  Proof.
    intros H1 H2. pose proof (proj1 (ol_lt L y z) H2) as (Hy & Hz & Hzy).
    apply (ol_lt L). repeat split; [eapply ol_num_l; eauto|easy|].
    destruct (nleb O z x) eqn:E; [|easy].
    rewrite (ol_trans L _ _ _ E H1) in Hzy. congruence.
  Qed.
  Lemma lt_trans x y z : nltb O x y = true -> nltb O y z = true -> nltb O x z = true.
  Proof. intros H1 H2. eapply lt_le_trans; eauto. now apply lt_le. Qed.
  Lemma nlt_le x y : nleb O x x = true -> nleb O y y = true -> nltb O x y = false -> nleb O y x = true.
  Proof.
    intros Hx Hy H. destruct (nleb O y x) eqn:E; [easy|].
    assert (nltb O x y = true) by (apply (ol_lt L); easy). congruence.
  Qed.
  Lemma le_nlt x y : nleb O y x = true -> nltb O x y = false.
  Proof.
    intros H. destruct (nltb O x y) eqn:E; [|easy]. apply (ol_lt L) in E. destruct E as (_&_&?). congruence.
  Qed.

  (** clipping a non-NaN value lands between the bounds *)
  Lemma clip_in lo hi x : nleb O lo hi = true -> nleb O x x = true ->
    nleb O lo (nclip O lo hi x) = true /\ nleb O (nclip O lo hi x) hi = true.
  Proof.
    intros Hlh Hx. unfold nclip.
    pose proof (ol_num_l L _ _ Hlh). pose proof (ol_num_r L _ _ Hlh).
    destruct (nltb O x lo) eqn:E1.
    - rewrite (le_nlt _ _ Hlh). easy.
    - pose proof (nlt_le _ _ Hx H E1). destruct (nltb O hi x) eqn:E2.
      + easy.
      + split; [easy|]. now apply nlt_le.
  Qed.
  (** clipping a value that is already between the bounds changes nothing *)
  Lemma clip_id lo hi x : nleb O lo x = true -> nleb O x hi = true -> nclip O lo hi x = x.
  Proof. intros H1 H2. unfold nclip. now rewrite (le_nlt _ _ H1), (le_nlt _ _ H2). Qed.
End Laws.

(** ** Rounding to integers *)
Record int_laws {N} (O : numops N) : Prop := {
  il_round : forall a b x, (Z.abs a <= 2 ^ 53)%Z -> (Z.abs b <= 2 ^ 53)%Z ->
     nleb O (nofZ O a) x = true -> nleb O x (nofZ O b) = true ->
     (a <= ntoint O (nround O x) <= b)%Z;
  il_id : forall z, (Z.abs z <= 2 ^ 53)%Z -> ntoint O (nround O (nofZ O z)) = z;
  il_le : forall a b, (Z.abs a <= 2 ^ 53)%Z -> (Z.abs b <= 2 ^ 53)%Z ->
     nleb O (nofZ O a) (nofZ O b) = (a <=? b)%Z
}.

Lemma ZnearestE_IZR z : ZnearestE (IZR z) = z.
Proof. apply Zrnd_IZR, valid_rnd_N. Qed.
Lemma ZnearestE_le x y : x <= y -> (ZnearestE x <= ZnearestE y)%Z.
Proof. intros H. now apply Zrnd_le; [apply valid_rnd_N|]. Qed.

Lemma Rops_int : int_laws Rops.
Proof.
  constructor; simpl; intros.
  - rewrite Rleb_spec in *. rewrite Ztrunc_IZR. split.
    + rewrite <- (ZnearestE_IZR a). now apply ZnearestE_le.
    + rewrite <- (ZnearestE_IZR b). now apply ZnearestE_le.
  - rewrite ZnearestE_IZR. apply Ztrunc_IZR.
  - destruct (Z.leb_spec a b).
    + apply Rleb_spec, IZR_le. lia.
    + apply Rleb_false, IZR_lt. lia.
Qed.

Lemma fofZ_exact z : (Z.abs z <= 2 ^ 53)%Z -> is_finite (fofZ z) = true /\ B2R (fofZ z) = IZR z.
Proof.
  intros Hz.
  pose proof (binary_normalize_correct 53 1024 prec64 emax64 mode_NE z 0 false) as H.
  replace (F2R {| Fnum := z; Fexp := 0 |}) with (IZR z) in H by (unfold F2R; simpl; ring).
  cbv zeta in H. change (round_mode mode_NE) with ZnearestE in H.
  assert (G : generic_format radix2 (SpecFloat.fexp 53 1024) (IZR z)).
  { change (generic_format radix2 (FLT_exp (-1074) 53) (IZR z)).
    destruct (Z.eq_dec (Z.abs z) (2 ^ 53)) as [E|E].
    - apply generic_format_FLT.
      assert (z = 2 ^ 53 \/ z = - 2 ^ 53)%Z as [->| ->] by lia.
      + exists (Float radix2 1 53); try easy; unfold F2R; simpl; lra.
      + exists (Float radix2 (-1) 53); try easy; unfold F2R; simpl; lra.
    - apply generic_format_FLT. exists (Float radix2 z 0); try easy.
      + unfold F2R; simpl; lra.
      + simpl. lia. }
  rewrite round_generic in H by (try apply valid_rnd_N; easy).
  rewrite Rlt_bool_true in H.
  - destruct H as (H1 & H2 & H3). easy.
  - rewrite <- abs_IZR. apply Rle_lt_trans with (IZR (2 ^ 53)).
    + now apply IZR_le.
    + change (bpow radix2 1024) with (IZR (2 ^ 1024)). apply IZR_lt. now vm_compute.
Qed.

Lemma fE_fofZ z : (Z.abs z <= 2 ^ 53)%Z -> fE (fofZ z) = IZR z.
Proof. intros H. destruct (fofZ_exact z H) as [F E]. now rewrite fE_finite. Qed.

Lemma fE_IZR_finite x : Rabs (fE x) <= IZR (2 ^ 53) -> is_nan x = false -> is_finite x = true.
Proof.
  intros H Hn. destruct x; try easy.
  exfalso. assert (IZR (2 ^ 53) < IZR (2 ^ 1024)) by (apply IZR_lt; now vm_compute).
  assert (Rabs (fE (B754_infinity s)) = IZR (2 ^ 1024)).
  { unfold fE. change (bpow radix2 1024) with (IZR (2 ^ 1024)).
    assert (0 <= IZR (2 ^ 1024)) by (apply IZR_le; now vm_compute).
    destruct s; [rewrite Rabs_Ropp|]; now apply Rabs_pos_eq. }
  lra.
Qed.

Lemma ftoint_fround x : is_finite x = true -> Rabs (B2R x) <= IZR (2 ^ 53) ->
  ftoint (fround x) = ZnearestE (B2R x).
Proof.
  intros Hf Hx.
  destruct (Bnearbyint_correct 53 1024 emax64 mode_NE x) as (H1 & H2 & _).
  change (round_mode mode_NE) with ZnearestE in H1.
  fold (fround x) in H1, H2.
  assert (E1 : B2R (fround x) = IZR (ZnearestE (B2R x))).
  { rewrite H1. unfold round, F2R, scaled_mantissa, cexp, FIX_exp. simpl.
    now rewrite Rmult_1_r, Rmult_1_r. }
  unfold ftoint. rewrite H2, Hf.
  assert (E : Btrunc (fround x) = ZnearestE (B2R x)).
  { apply eq_IZR. rewrite Btrunc_correct by exact emax64. rewrite E1.
    unfold round, F2R, scaled_mantissa, cexp, FIX_exp. simpl.
    rewrite !Rmult_1_r. now rewrite Ztrunc_IZR. }
  rewrite E.
  assert (Z.abs (ZnearestE (B2R x)) <= 2 ^ 53)%Z.
  { apply Rabs_le_inv in Hx. rewrite <- opp_IZR in Hx. destruct Hx as [Ha Hb].
    apply ZnearestE_le in Ha. apply ZnearestE_le in Hb. rewrite ZnearestE_IZR in Ha, Hb. lia. }
  destruct (Z.ltb_spec (Z.abs (ZnearestE (B2R x))) (2 ^ 63)); [easy|].
  assert (2 ^ 53 < 2 ^ 63)%Z by now vm_compute. lia.
Qed.

Lemma F64_int L : int_laws (F64 L).
Proof.
  constructor; simpl; intros.
  - rewrite fleb_spec in *. destruct H1 as (_ & Hn & H1), H2 as (_ & _ & H2).
    rewrite fE_fofZ in H1, H2 by easy.
    assert (Rabs (fE x) <= IZR (2 ^ 53)).
    { apply Rabs_le. rewrite <- opp_IZR. split.
      - apply Rle_trans with (IZR a); [|easy]. apply IZR_le. lia.
      - apply Rle_trans with (IZR b); [easy|]. apply IZR_le. lia. }
    assert (Hf : is_finite x = true) by (apply fE_IZR_finite; easy).
    rewrite fE_finite in * by easy.
    rewrite ftoint_fround by easy.
    split.
    + rewrite <- (ZnearestE_IZR a). now apply ZnearestE_le.
    + rewrite <- (ZnearestE_IZR b). now apply ZnearestE_le.
  - destruct (fofZ_exact z H) as [Hf E].
    rewrite ftoint_fround; try easy; rewrite E.
    + apply ZnearestE_IZR.
    + rewrite <- abs_IZR. now apply IZR_le.
  - rewrite fleb_E by apply fofZ_not_nan. rewrite !fE_fofZ by easy.
    destruct (Z.leb_spec a b).
    + apply Rleb_spec, IZR_le. lia.
    + apply Rleb_false, IZR_lt. lia.
Qed.
