(** Facts on binary64 arithmetic away from overflow, and the exactness of integer
    normalisation. *)
From Coq Require Import String List ZArith Bool Lia Reals Lra Psatz.
From Flocq Require Import Core.Core IEEE754.BinarySingleNaN.
From Flocq Require Import Relative.
From Verif Require Import Base Num NumLaws.
Set Implicit Arguments.
Local Open Scope R_scope.

#[global] Instance fexp64_valid : Valid_exp (SpecFloat.fexp 53 1024).
Proof. apply fexp_correct. reflexivity. Qed.

Lemma rnd_mono x y : x <= y -> rnd x <= rnd y.
Proof. apply round_le; [apply fexp64_valid | apply valid_rnd_N]. Qed.

Lemma rnd_0 : rnd 0 = 0.
Proof. apply round_0, valid_rnd_N. Qed.

Lemma generic_Z z : (Z.abs z <= 2 ^ 53)%Z -> generic_format radix2 (SpecFloat.fexp 53 1024) (IZR z).
Proof.
  intros H. destruct (fofZ_exact z H) as [F E]. rewrite <- E. apply generic_format_B2R.
Qed.

Lemma rnd_Z z : (Z.abs z <= 2 ^ 53)%Z -> rnd (IZR z) = IZR z.
Proof. intros H. apply round_generic; [apply valid_rnd_N|now apply generic_Z]. Qed.

Lemma rnd_le_Z x z : (Z.abs z <= 2 ^ 53)%Z -> x <= IZR z -> rnd x <= IZR z.
Proof. intros Hz H. rewrite <- (rnd_Z z Hz). now apply rnd_mono. Qed.
Lemma rnd_ge_Z x z : (Z.abs z <= 2 ^ 53)%Z -> IZR z <= x -> IZR z <= rnd x.
Proof. intros Hz H. rewrite <- (rnd_Z z Hz). now apply rnd_mono. Qed.

Definition big := bpow radix2 1023.
Lemma big_pos : 0 < big. Proof. apply bpow_gt_0. Qed.
Lemma big_lt : big < bpow radix2 1024. Proof. now apply bpow_lt. Qed.
Lemma big_Z z : (Z.abs z <= 2 ^ 53)%Z -> Rabs (IZR z) <= big.
Proof.
  intros H. rewrite <- abs_IZR. apply Rle_trans with (IZR (2 ^ 53)); [now apply IZR_le|].
  unfold big. change (bpow radix2 1023) with (IZR (2 ^ 1023)). apply IZR_le. now vm_compute.
Qed.

Lemma rnd_big : rnd big = big.
Proof.
  apply round_generic; [apply valid_rnd_N|]. apply generic_format_bpow'; [apply fexp64_valid|].
  now vm_compute.
Qed.
Lemma rnd_opp x : rnd (- x) = - rnd x.
Proof. apply round_NE_opp. Qed.

Lemma rnd_le_big x : Rabs x <= big -> Rabs (rnd x) <= big.
Proof.
  intros H. apply Rabs_le_inv in H. apply Rabs_le. rewrite <- rnd_big, <- rnd_opp.
  split; apply rnd_mono; lra.
Qed.

Lemma no_ovf x : Rabs x <= big -> Rlt_bool (Rabs (rnd x)) (bpow radix2 1024) = true.
Proof. intros H. apply Rlt_bool_true. pose proof (rnd_le_big x H). pose proof big_lt. lra. Qed.

Lemma fsub_ok x y : is_finite x = true -> is_finite y = true -> Rabs (B2R x - B2R y) <= big ->
  is_finite (fsub x y) = true /\ B2R (fsub x y) = rnd (B2R x - B2R y).
Proof.
  intros Hx Hy Hb. pose proof (Bminus_correct 53 1024 prec64 emax64 mode_NE x y Hx Hy) as H.
  change (round_mode mode_NE) with ZnearestE in H. rewrite no_ovf in H by easy. easy.
Qed.
Lemma fadd_ok x y : is_finite x = true -> is_finite y = true -> Rabs (B2R x + B2R y) <= big ->
  is_finite (fadd x y) = true /\ B2R (fadd x y) = rnd (B2R x + B2R y).
Proof.
  intros Hx Hy Hb. pose proof (Bplus_correct 53 1024 prec64 emax64 mode_NE x y Hx Hy) as H.
  change (round_mode mode_NE) with ZnearestE in H. rewrite no_ovf in H by easy. easy.
Qed.
Lemma fmul_ok x y : is_finite x = true -> is_finite y = true -> Rabs (B2R x * B2R y) <= big ->
  is_finite (fmul x y) = true /\ B2R (fmul x y) = rnd (B2R x * B2R y).
Proof.
  intros Hx Hy Hb. pose proof (Bmult_correct 53 1024 prec64 emax64 mode_NE x y) as H.
  change (round_mode mode_NE) with ZnearestE in H. rewrite no_ovf in H by easy.
  destruct H as (H1 & H2 & _). rewrite Hx, Hy in H2. easy.
Qed.
Lemma fdiv_ok x y : is_finite x = true -> B2R y <> 0 -> Rabs (B2R x / B2R y) <= big ->
  is_finite (fdiv x y) = true /\ B2R (fdiv x y) = rnd (B2R x / B2R y).
Proof.
  intros Hx Hy Hb. pose proof (Bdiv_correct 53 1024 prec64 emax64 mode_NE x y Hy) as H.
  change (round_mode mode_NE) with ZnearestE in H. rewrite no_ovf in H by easy.
  destruct H as (H1 & H2 & _). rewrite Hx in H2. easy.
Qed.

(** Rounding error: relative 2^-53 plus absolute 2^-1075. *)
Lemma rnd_err x : Rabs (rnd x - x) <= / IZR (2 ^ 53) * Rabs x + / IZR (2 ^ 100).
Proof.
  destruct (error_N_FLT radix2 (-1074) 53 eq_refl (fun z => negb (Z.even z)) x)
    as (eps & eta & He & Ht & _ & E).
  change (rnd x) with (round radix2 (FLT_exp (-1074) 53) (Znearest (fun z => negb (Z.even z))) x).
  rewrite E. replace (x * (1 + eps) + eta - x) with (x * eps + eta) by ring.
  eapply Rle_trans; [apply Rabs_triang|]. rewrite Rabs_mult.
  assert (E1 : / 2 * bpow radix2 (-53 + 1) = / IZR (2 ^ 53)).
  { change (bpow radix2 (-53 + 1)) with (/ IZR (2 ^ 52)).
    replace (IZR (2 ^ 53)) with (2 * IZR (2 ^ 52)) by (rewrite <- mult_IZR; f_equal).
    assert (0 < IZR (2 ^ 52)) by (apply IZR_lt; easy). field. lra. }
  change (Z.opp 53 + 1)%Z with (-53 + 1)%Z in He. rewrite E1 in He.
  assert (E2 : / 2 * bpow radix2 (-1074) <= / IZR (2 ^ 100)).
  { apply Rle_trans with (1 * bpow radix2 (-100)).
    - apply Rmult_le_compat; try apply bpow_ge_0; try lra. now apply bpow_le.
    - rewrite Rmult_1_l. change (bpow radix2 (-100)) with (/ IZR (2 ^ 100)). lra. }
  pose proof (Rabs_pos x). pose proof (Rabs_pos eps).
  assert (Rabs x * Rabs eps <= / IZR (2 ^ 53) * Rabs x) by (rewrite Rmult_comm; apply Rmult_le_compat_r; easy).
  lra.
Qed.

(** Normalising an integer and undoing it, with every rounding: exact up to 2^50. *)
Section NormInt.
  Variables (l h x : Z).
  Hypothesis Hl : (Z.abs l <= 2 ^ 50)%Z.
  Hypothesis Hh : (Z.abs h <= 2 ^ 50)%Z.
  Hypothesis HD : (h - l <= 2 ^ 50)%Z.
  Hypothesis Hlx : (l <= x)%Z.
  Hypothesis Hxh : (x <= h)%Z.

  Let P50 : (2 ^ 50 <= 2 ^ 53)%Z. Proof. now vm_compute. Qed.

  Let u := fsub (fofZ x) (fofZ l).
  Let D := fsub (fofZ h) (fofZ l).

  Lemma norm_u : is_finite u = true /\ B2R u = IZR (x - l).
  Proof.
    destruct (fofZ_exact x ltac:(lia)) as [Fx Ex]. destruct (fofZ_exact l ltac:(lia)) as [Fl El].
    unfold u. destruct (fsub_ok (fofZ x) (fofZ l)) as [F E]; try easy.
    - rewrite Ex, El, <- minus_IZR. apply big_Z. lia.
    - split; [easy|]. rewrite E, Ex, El, <- minus_IZR. apply rnd_Z. lia.
  Qed.
  Lemma norm_D : is_finite D = true /\ B2R D = IZR (h - l).
  Proof.
    destruct (fofZ_exact h ltac:(lia)) as [Fx Ex]. destruct (fofZ_exact l ltac:(lia)) as [Fl El].
    unfold D. destruct (fsub_ok (fofZ h) (fofZ l)) as [F E]; try easy.
    - rewrite Ex, El, <- minus_IZR. apply big_Z. lia.
    - split; [easy|]. rewrite E, Ex, El, <- minus_IZR. apply rnd_Z. lia.
  Qed.

  Hypothesis Hlh : (l < h)%Z.
  Let q := fdiv u D.
  Let p := fmul q D.
  Let s := fadd p (fofZ l).

  Let RD : 1 <= IZR (h - l) <= IZR (2 ^ 50).
  Proof. split; apply IZR_le; lia. Qed.
  Let Ru : 0 <= IZR (x - l) <= IZR (h - l).
  Proof. split; apply IZR_le; lia. Qed.
  Let Rq : 0 <= IZR (x - l) / IZR (h - l) <= 1.
  Proof.
    split.
    - apply Rmult_le_pos; [lra|]. left. apply Rinv_0_lt_compat. lra.
    - apply Rmult_le_reg_r with (IZR (h - l)); [lra|]. unfold Rdiv. rewrite Rmult_assoc, Rinv_l; lra.
  Qed.

  Lemma norm_q : is_finite q = true /\ B2R q = rnd (IZR (x - l) / IZR (h - l)) /\ 0 <= B2R q <= 1.
  Proof.
    destruct norm_u as [Fu Eu]. destruct norm_D as [FD ED].
    destruct (fdiv_ok u D) as [F E]; try easy.
    - rewrite ED. lra.
    - rewrite Eu, ED. rewrite Rabs_pos_eq by lra. apply Rle_trans with 1; [lra|].
      apply Rle_trans with (Rabs 1); [rewrite Rabs_pos_eq; lra|]. apply (@big_Z 1). now vm_compute.
    - rewrite Eu, ED in E. repeat split; try easy; fold q in E; rewrite E.
      + rewrite <- rnd_0. apply rnd_mono. lra.
      + rewrite <- (rnd_Z 1) by now vm_compute. apply rnd_mono. lra.
  Qed.

  Lemma norm_p : is_finite p = true /\ B2R p = rnd (B2R q * IZR (h - l)) /\ 0 <= B2R p <= IZR (h - l).
  Proof.
    destruct norm_q as (Fq & Eq & Hq). destruct norm_D as [FD ED].
    assert (B : 0 <= B2R q * IZR (h - l) <= IZR (h - l)).
    { split; [apply Rmult_le_pos; lra|].
      rewrite <- (Rmult_1_l (IZR (h - l))) at 2. apply Rmult_le_compat_r; lra. }
    destruct (fmul_ok q D) as [F E]; try easy.
    - rewrite ED. rewrite Rabs_pos_eq by lra. apply Rle_trans with (Rabs (IZR (h - l))).
      + rewrite Rabs_pos_eq; lra.
      + apply big_Z. lia.
    - rewrite ED in E. repeat split; try easy; fold p in E; rewrite E.
      + rewrite <- rnd_0. apply rnd_mono. lra.
      + apply rnd_le_Z; [lia|lra].
  Qed.

  Lemma norm_s : is_finite s = true /\ B2R s = rnd (B2R p + IZR l) /\ IZR l <= B2R s <= IZR h.
  Proof.
    destruct norm_p as (Fp & Ep & Hp). destruct (fofZ_exact l ltac:(lia)) as [Fl El].
    assert (B : IZR l <= B2R p + IZR l <= IZR h) by (rewrite minus_IZR in Hp; lra).
    destruct (fadd_ok p (fofZ l)) as [F E]; try easy.
    - rewrite El. pose proof (@big_Z l ltac:(lia)). pose proof (@big_Z h ltac:(lia)).
      apply Rabs_le. apply Rabs_le_inv in H. apply Rabs_le_inv in H0. lra.
    - rewrite El in E. repeat split; try easy; fold s in E; rewrite E.
      + apply rnd_ge_Z; [lia|lra].
      + apply rnd_le_Z; [lia|lra].
  Qed.

  Lemma norm_close : Rabs (B2R s - IZR x) < / 2.
  Proof.
    destruct norm_q as (_ & Eq & Hq). destruct norm_p as (_ & Ep & Hp). destruct norm_s as (_ & Es & Hs).
    pose proof (rnd_err (IZR (x - l) / IZR (h - l))) as E1. rewrite <- Eq in E1.
    pose proof (rnd_err (B2R q * IZR (h - l))) as E2. rewrite <- Ep in E2.
    pose proof (rnd_err (B2R p + IZR l)) as E3. rewrite <- Es in E3.
    set (d := IZR (h - l)) in *. set (v := IZR (x - l)) in *.
    assert (Hx : IZR x = v + IZR l) by (unfold v; rewrite minus_IZR; ring).
    rewrite Hx.
    assert (Hl' : Rabs (IZR l) <= IZR (2 ^ 50)) by (rewrite <- abs_IZR; now apply IZR_le).
    assert (Hh' : Rabs (IZR h) <= IZR (2 ^ 50)) by (rewrite <- abs_IZR; now apply IZR_le).
    assert (Hd : d = IZR h - IZR l) by (unfold d; apply minus_IZR).
    rewrite (Rabs_pos_eq (v / d)) in E1 by lra.
    assert (P : IZR (2 ^ 53) = 8 * IZR (2 ^ 50)) by (rewrite <- mult_IZR; f_equal).
    assert (P' : IZR (2 ^ 100) = IZR (2 ^ 50) * IZR (2 ^ 50)) by (rewrite <- mult_IZR; f_equal).
    set (T := IZR (2 ^ 50)) in *.
    assert (HT : 1024 <= T) by (apply IZR_le; now vm_compute).
    rewrite P in *. rewrite P' in *.
    assert (Hi : / (8 * T) = / 8 * / T) by (field; lra).
    assert (Hi' : / (T * T) = / T * / T) by (field; lra).
    rewrite Hi, Hi' in *.
    set (e := / T) in *.
    assert (HeT : e * T = 1) by (unfold e; field; lra).
    assert (He : 0 < e <= / 1024) by (split; [apply Rinv_0_lt_compat; lra | apply Rinv_le; lra]).
    (* |q d - v| *)
    assert (A1 : Rabs (B2R q * d - v) <= / 8 * e * v + e).
    { replace (B2R q * d - v) with ((B2R q - v / d) * d) by (field; lra).
      rewrite Rabs_mult, (Rabs_pos_eq d) by lra.
      apply Rle_trans with ((/ 8 * e * (v / d) + e * e) * d).
      - apply Rmult_le_compat_r; lra.
      - replace ((/ 8 * e * (v / d) + e * e) * d) with (/ 8 * e * v + e * (e * d)) by (field; lra).
        assert (e * d <= 1) by nra. nra. }
    assert (A1' : Rabs (B2R q * d - v) <= / 8 + / 1024) by nra.
    assert (A2 : Rabs (B2R p - B2R q * d) <= / 8 + / 1024).
    { eapply Rle_trans; [apply E2|]. rewrite Rabs_pos_eq by nra.
      assert (B2R q * d <= T) by nra. nra. }
    assert (A3 : Rabs (B2R s - (B2R p + IZR l)) <= / 8 + / 1024).
    { eapply Rle_trans; [apply E3|].
      assert (Rabs (B2R p + IZR l) <= T).
      { apply Rabs_le. apply Rabs_le_inv in Hl'. apply Rabs_le_inv in Hh'. lra. }
      pose proof (Rabs_pos (B2R p + IZR l)). nra. }
    apply Rabs_le_inv in A1'. apply Rabs_le_inv in A2. apply Rabs_le_inv in A3.
    apply Rabs_def1; lra.
  Qed.

  Lemma norm_int_exact : ftoint (fround s) = x.
  Proof.
    destruct norm_s as (Fs & _ & Hs).
    rewrite ftoint_fround; [|easy|].
    - apply Znearest_imp. apply norm_close.
    - apply Rabs_le. rewrite <- opp_IZR. split.
      + apply Rle_trans with (IZR l); [apply IZR_le; lia|lra].
      + apply Rle_trans with (IZR h); [lra|apply IZR_le; lia].
  Qed.
End NormInt.
