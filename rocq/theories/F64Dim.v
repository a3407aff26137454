(** Binary64 facts used for sampling (C06) and warped bounds (C07). *)
From Coq Require Import String List ZArith Bool Lia Reals Lra Psatz.
From Flocq Require Import Core.Core IEEE754.BinarySingleNaN Plus_error.
From Verif Require Import Base Num NumLaws F64Arith.
Import ListNotations.
Set Implicit Arguments.
Local Open Scope R_scope.
Local Arguments Z.pow : simpl never.

Lemma inf_not_nan (x : float) s : B2SF x = SpecFloat.S754_infinity s -> is_nan x = false.
Proof. now destruct x. Qed.
Lemma inf_not_finite (x : float) s : B2SF x = SpecFloat.S754_infinity s -> is_finite x = false.
Proof. now destruct x. Qed.
Lemma finite_not_nan (x : float) : is_finite x = true -> is_nan x = false.
Proof. now destruct x. Qed.

Lemma fmul_not_nan x y : is_finite x = true -> is_finite y = true -> is_nan (fmul x y) = false.
Proof.
  intros Hx Hy. pose proof (Bmult_correct 53 1024 prec64 emax64 mode_NE x y) as H.
  destruct (Rlt_bool _ _).
  - destruct H as (_ & H & _). rewrite Hx, Hy in H. now apply finite_not_nan.
  - unfold fmul. now apply inf_not_nan in H.
Qed.

Lemma fadd_not_nan x y : is_nan x = false -> is_finite y = true -> is_nan (fadd x y) = false.
Proof.
  intros Hx Hy. destruct (is_finite x) eqn:Fx.
  - pose proof (Bplus_correct 53 1024 prec64 emax64 mode_NE x y Fx Hy) as H.
    destruct (Rlt_bool _ _).
    + destruct H as (_ & H & _). now apply finite_not_nan.
    + destruct H as [H _]. unfold fadd. now apply inf_not_nan in H.
  - destruct x as [|s| |]; try easy. destruct y as [| | |]; try easy.
Qed.

Lemma fsub_rnd x y : is_finite x = true -> is_finite y = true -> is_finite (fsub x y) = true ->
  B2R (fsub x y) = rnd (B2R x - B2R y).
Proof.
  intros Hx Hy Hf. pose proof (Bminus_correct 53 1024 prec64 emax64 mode_NE x y Hx Hy) as H.
  destruct (Rlt_bool _ _); [easy|]. destruct H as [H _]. unfold fsub in Hf.
  apply inf_not_finite in H. congruence.
Qed.

Lemma fsub_pos l h : is_finite l = true -> is_finite h = true -> is_finite (fsub h l) = true ->
  B2R l < B2R h -> 0 < B2R (fsub h l).
Proof.
  intros Hl Hh Hf Hlt. rewrite fsub_rnd by easy.
  assert (0 <= rnd (B2R h - B2R l)) by (rewrite <- rnd_0; apply rnd_mono; lra).
  assert (rnd (B2R h - B2R l) <> 0); [|lra].
  unfold Rminus.
  apply (@round_plus_neq_0 radix2 (SpecFloat.fexp 53 1024) (fexp_correct 53 1024 prec64)
           (@monotone_exp_not_FTZ _ (fexp_correct 53 1024 prec64) (fexp_monotone 53 1024))
           ZnearestE (valid_rnd_N _)).
  - apply generic_format_B2R.
  - apply generic_format_opp, generic_format_B2R.
  - lra.
Qed.

Lemma between_finite l h x : is_finite l = true -> is_finite h = true ->
  fleb l x = true -> fleb x h = true ->
  is_finite x = true /\ B2R l <= B2R x <= B2R h.
Proof.
  intros Hl Hh H1 H2. apply fleb_spec in H1 as (Nl & Nx & H1). apply fleb_spec in H2 as (_ & Nh & H2).
  rewrite (fE_finite l) in H1 by easy. rewrite (fE_finite h) in H2 by easy.
  assert (Fx : is_finite x = true).
  { pose proof (fE_abs_finite _ Hl) as A1. pose proof (fE_abs_finite _ Hh) as A2.
    rewrite fE_finite in A1, A2 by easy.
    apply Rabs_def2 in A1. apply Rabs_def2 in A2.
    destruct x as [s|s| |s m e B]; try easy. unfold fE in H1, H2. destruct s; lra. }
  rewrite fE_finite in H1, H2 by easy. easy.
Qed.

Lemma fleb_finite x y : is_finite x = true -> is_finite y = true -> fleb x y = true <-> B2R x <= B2R y.
Proof.
  intros Hx Hy. rewrite fleb_spec, !fE_finite by easy. split; [easy|].
  intros. repeat split; auto using finite_not_nan.
Qed.
Lemma fltb_finite x y : is_finite x = true -> is_finite y = true -> fltb x y = true <-> B2R x < B2R y.
Proof.
  intros Hx Hy. rewrite fltb_spec, !fE_finite by easy. split; [easy|].
  intros. repeat split; auto using finite_not_nan.
Qed.

(** Normalised reals stay in [0, 1]. *)
Lemma norm01 l h x : is_finite l = true -> is_finite h = true -> is_finite (fsub h l) = true ->
  fltb l h = true -> fleb l x = true -> fleb x h = true ->
  is_finite (fdiv (fsub x l) (fsub h l)) = true /\
  0 <= B2R (fdiv (fsub x l) (fsub h l)) <= 1.
Proof.
  intros Hl Hh HD Hlt H1 H2. destruct (@between_finite _ _ _ Hl Hh H1 H2) as (Fx & Bx).
  rewrite fltb_finite in Hlt by easy.
  pose proof (@fsub_pos _ _ Hl Hh HD Hlt) as Dpos. pose proof (@fsub_rnd _ _ Hh Hl HD) as ED.
  assert (Hu : is_finite (fsub x l) = true).
  { pose proof (Bminus_correct 53 1024 prec64 emax64 mode_NE x l Fx Hl) as H.
    rewrite Rlt_bool_true in H; [easy|]. change (round_mode mode_NE) with ZnearestE.
    rewrite Rabs_pos_eq by (rewrite <- rnd_0; apply rnd_mono; lra).
    apply Rle_lt_trans with (B2R (fsub h l)).
    - rewrite ED. apply rnd_mono. lra.
    - pose proof (abs_B2R_lt_emax _ _ (fsub h l)) as A. now apply Rabs_def2 in A. }
  pose proof (@fsub_rnd _ _ Fx Hl Hu) as Eu.
  assert (Bu : 0 <= B2R (fsub x l) <= B2R (fsub h l)).
  { rewrite Eu. split; [rewrite <- rnd_0; apply rnd_mono; lra|]. rewrite ED. apply rnd_mono. lra. }
  set (u := B2R (fsub x l)) in *. set (D := B2R (fsub h l)) in *.
  assert (Bq : 0 <= u / D <= 1).
  { split.
    - apply Rmult_le_pos; [lra|]. left. now apply Rinv_0_lt_compat.
    - apply Rmult_le_reg_r with D; [lra|]. unfold Rdiv. rewrite Rmult_assoc, Rinv_l; lra. }
  destruct (@fdiv_ok (fsub x l) (fsub h l)) as [F E]; try easy.
  - fold D. lra.
  - fold u D. rewrite Rabs_pos_eq by lra. apply Rle_trans with (Rabs (IZR 1)); [rewrite Rabs_pos_eq; lra|].
    apply big_Z. now vm_compute.
  - split; [easy|]. rewrite E. fold u D. split.
    + rewrite <- rnd_0. apply rnd_mono. lra.
    + apply (@rnd_le_Z _ 1); [now vm_compute|lra].
Qed.

(** nextafter(1, 2) *)
Definition fone' : float := fnext (fofZ 1).
Lemma fone'_val : is_finite fone' = true /\ B2R fone' = 1 + / IZR (2 ^ 52).
Proof.
  assert (E : B2SF fone' = SpecFloat.S754_finite false 4503599627370497 (-52)) by now vm_compute.
  destruct fone' as [s|s| |s m e B]; try easy. split; [easy|].
  simpl in E. injection E as -> -> ->. simpl. unfold F2R. simpl.
  change (Z.pow_pos 2 52) with (2 ^ 52)%Z. 
  assert (H : IZR 4503599627370497 = IZR (2 ^ 52) + 1) by (rewrite <- plus_IZR; f_equal).
  rewrite H. field. apply not_0_IZR. easy.
Qed.

(** A draw in [0, 1) scaled. *)
Lemma unit_draw u s : fleb (fofZ 0) u = true -> fltb u (fofZ 1) = true -> is_finite s = true -> 0 <= B2R s ->
  is_finite (fmul u s) = true /\ 0 <= B2R (fmul u s) <= B2R s.
Proof.
  intros H0 H1 Fs Hs.
  assert (H1' : fleb u (fofZ 1) = true).
  { apply fltb_spec in H1 as (A & B & C). apply fleb_spec. repeat split; auto. lra. }
  destruct (fofZ_exact 0 ltac:(now vm_compute)) as [F0 E0].
  destruct (fofZ_exact 1 ltac:(now vm_compute)) as [F1 E1].
  destruct (@between_finite _ _ _ F0 F1 H0 H1') as (Fu & Bu). rewrite E0, E1 in Bu.
  assert (Bm : 0 <= B2R u * B2R s <= B2R s) by nra.
  assert (Rs : rnd (B2R s) = B2R s) by (apply round_generic; [apply valid_rnd_N|apply generic_format_B2R]).
  assert (Br : 0 <= rnd (B2R u * B2R s) <= B2R s).
  { split; [rewrite <- rnd_0; apply rnd_mono; lra|]. apply Rle_trans with (rnd (B2R s)); [apply rnd_mono|]; lra. }
  pose proof (Bmult_correct 53 1024 prec64 emax64 mode_NE u s) as H.
  change (round_mode mode_NE) with ZnearestE in H.
  rewrite Rlt_bool_true in H.
  - destruct H as (E & F & _). rewrite Fu, Fs in F. unfold fmul. split; [easy|]. rewrite E. easy.
  - rewrite Rabs_pos_eq by easy. pose proof (abs_B2R_lt_emax _ _ s) as A. apply Rabs_def2 in A. lra.
Qed.

Lemma fadd_0 x : is_finite x = true -> is_finite (fadd x (fofZ 0)) = true /\ B2R (fadd x (fofZ 0)) = B2R x.
Proof.
  intros Fx. destruct (fofZ_exact 0 ltac:(now vm_compute)) as [F0 E0].
  pose proof (Bplus_correct 53 1024 prec64 emax64 mode_NE x (fofZ 0) Fx F0) as H.
  change (round_mode mode_NE) with ZnearestE in H. rewrite E0, Rplus_0_r in H.
  rewrite round_generic in H; [|apply valid_rnd_N|apply generic_format_B2R].
  rewrite Rlt_bool_true in H by apply abs_B2R_lt_emax. easy.
Qed.

Lemma fnext_finite_nonneg s : is_finite s = true -> 0 <= B2R s -> is_finite (fnext s) = true -> 0 <= B2R (fnext s).
Proof.
  intros Fs Hs Hf. unfold fnext in *. cbn zeta in *.
  destruct (fltb s (fadd s (fofZ 1))) eqn:E1.
  - pose proof (Bsucc_correct 53 1024 prec64 emax64 s Fs) as H. destruct (Rlt_bool _ _).
    + destruct H as (H & _). rewrite H. apply Rle_trans with (B2R s); [easy|]. apply succ_ge_id.
    + destruct (Bsucc s); try easy. 
  - destruct (fleb s (fadd s (fofZ 1))) eqn:E2; [easy|].
    (* the sum of a finite non-negative number and 1 is not below it *)
    exfalso. destruct (fofZ_exact 1 ltac:(now vm_compute)) as [F1 E1'].
    assert (Rs : rnd (B2R s) = B2R s) by (apply round_generic; [apply valid_rnd_N|apply generic_format_B2R]).
    pose proof (Bplus_correct 53 1024 prec64 emax64 mode_NE s (fofZ 1) Fs F1) as H.
    change (round_mode mode_NE) with ZnearestE in H. rewrite E1' in H.
    destruct (Rlt_bool _ _).
    + destruct H as (H & Hfin & _). fold (fadd s (fofZ 1)) in *.
      assert (L : fleb s (fadd s (fofZ 1)) = true); [|congruence].
      apply fleb_finite; auto. rewrite H, <- Rs at 1. apply rnd_mono. lra.
    + fold (fadd s (fofZ 1)) in *. destruct (fadd s (fofZ 1)); try easy.
Qed.

(** Un-normalising a category label. *)
Lemma label_range z m : (0 <= m <= 2 ^ 50)%Z -> is_finite z = true -> 0 <= B2R z <= 1 + / IZR (2 ^ 52) ->
  (0 <= ftoint (fround (fadd (fmul z (fsub (fofZ m) (fofZ 0))) (fofZ 0))) <= m)%Z.
Proof.
  intros Hm Fz Hz.
  assert (P : (2 ^ 50 <= 2 ^ 53)%Z) by now vm_compute.
  destruct (fofZ_exact m ltac:(lia)) as [Fm Em].
  destruct (fofZ_exact 0 ltac:(now vm_compute)) as [F0 E0].
  assert (D : is_finite (fsub (fofZ m) (fofZ 0)) = true /\ B2R (fsub (fofZ m) (fofZ 0)) = IZR m).
  { destruct (@fsub_ok (fofZ m) (fofZ 0)) as [F E]; try easy.
    - rewrite Em, E0, Rminus_0_r. apply big_Z. lia.
    - split; [easy|]. rewrite E, Em, E0, Rminus_0_r. apply rnd_Z. lia. }
  destruct D as [FD ED]. set (D := fsub (fofZ m) (fofZ 0)) in *.
  assert (Hm' : 0 <= IZR m <= IZR (2 ^ 50)) by (split; apply IZR_le; lia).
  assert (P52 : IZR (2 ^ 52) = 4 * IZR (2 ^ 50)) by (rewrite <- mult_IZR; f_equal).
  set (T := IZR (2 ^ 50)) in *. assert (HT : 1024 <= T) by (apply IZR_le; now vm_compute).
  rewrite P52 in Hz. assert (Hi : / (4 * T) = / 4 * / T) by (field; lra). rewrite Hi in Hz.
  assert (Hte : / T * T = 1) by (field; lra).
  assert (Bm : 0 <= B2R z * IZR m <= IZR m + / 4).
  { split; [nra|]. assert (/ T * IZR m <= 1) by (assert (0 < / T) by (apply Rinv_0_lt_compat; lra); nra). nra. }
  assert (Rq : rnd (IZR m + / 4) = IZR m + / 4).
  { apply round_generic; [apply valid_rnd_N|].
    apply generic_format_FLT with (emin := (-1074)%Z) (prec := 53%Z).
    exists (Float radix2 (4 * m + 1) (-2)).
    - unfold F2R. cbn [Fnum Fexp]. rewrite plus_IZR, mult_IZR. change (bpow radix2 (-2)) with (/ 4). field.
    - change ((Z.abs (4 * m + 1) < 2 ^ 53)%Z). assert (2 ^ 53 = 8 * 2 ^ 50)%Z by now vm_compute. lia.
    - easy. }
  assert (Br : 0 <= rnd (B2R z * IZR m) <= IZR m + / 4).
  { split; [rewrite <- rnd_0; apply rnd_mono; lra|]. apply Rle_trans with (rnd (IZR m + / 4)); [apply rnd_mono|]; lra. }
  destruct (@fmul_ok z D) as [Fp Ep]; auto.
  { rewrite ED, Rabs_pos_eq by lra. apply Rle_trans with (Rabs (IZR (m + 1))).
    - rewrite plus_IZR, Rabs_pos_eq; lra.
    - apply big_Z. assert (2 ^ 53 = 8 * 2 ^ 50)%Z by now vm_compute. lia. }
  rewrite ED in Ep.
  destruct (@fadd_0 _ Fp) as [Fs Es].
  assert (V : IZR (m + 1) <= IZR (2 ^ 53)).
  { apply IZR_le. assert (2 ^ 53 = 8 * 2 ^ 50)%Z by now vm_compute. lia. }
  rewrite plus_IZR in V.
  rewrite ftoint_fround; [|easy|].
  2:{ rewrite Es, Ep, Rabs_pos_eq by lra. lra. }
  rewrite Es, Ep. split.
  - rewrite <- (ZnearestE_IZR 0). apply ZnearestE_le. lra.
  - replace m with (ZnearestE (IZR m + / 4)) at 2.
    + apply ZnearestE_le. lra.
    + apply Znearest_imp. rewrite Rabs_pos_eq; lra.
Qed.
