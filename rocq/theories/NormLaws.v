(** Integer normalisation and small constants: laws shared by binary64 and exact reals. *)
From Coq Require Import ZArith Bool Lia Reals Lra Psatz.
From Flocq Require Import Core.Core IEEE754.BinarySingleNaN.
From Verif Require Import Num NumLaws F64Arith.
Set Implicit Arguments.
Local Open Scope R_scope.
Local Arguments Z.pow : simpl never.

Record norm_laws {N} (O : numops N) : Prop := {
  nl_half1 : nltb O (nhalf O) (nofZ O 1) = true;
  nl_half0 : nltb O (nhalf O) (nofZ O 0) = false;
  nl_01 : nltb O (nofZ O 0) (nofZ O 1) = true;
  (* 0 * 0 and back, for a single category *)
  nl_zero : neqb O (nsub O (nofZ O 0) (nofZ O 0)) (nofZ O 0) = true;
  nl_zero_range : nltb O (nadd O (nofZ O 1) (neps O)) (nmul O (nofZ O 0) (nofZ O 0)) = false /\
                  nltb O (nmul O (nofZ O 0) (nofZ O 0)) (nsub O (nofZ O 0) (neps O)) = false;
  nl_zero_back : ntoint O (nround O (nadd O (nmul O (nmul O (nofZ O 0) (nofZ O 0))
                    (nsub O (nofZ O 0) (nofZ O 0))) (nofZ O 0))) = 0%Z;
  nl_zero_val : neqb O (nmul O (nofZ O 0) (nofZ O 0)) (nofZ O 0) = true;
  nl_round : forall z, (Z.abs z <= 2 ^ 53)%Z -> neqb O (nround O (nofZ O z)) (nofZ O z) = true;
  nl_span : forall l h, (Z.abs l <= 2 ^ 50)%Z -> (Z.abs h <= 2 ^ 50)%Z -> (l < h)%Z ->
     (h - l <= 2 ^ 50)%Z ->
     neqb O (nsub O (nofZ O h) (nofZ O l)) (nofZ O 0) = false;
  nl_back : forall l h x, (Z.abs l <= 2 ^ 50)%Z -> (Z.abs h <= 2 ^ 50)%Z -> (h - l <= 2 ^ 50)%Z ->
     (l < h)%Z -> (l <= x <= h)%Z ->
     let q := ndiv O (nsub O (nofZ O x) (nofZ O l)) (nsub O (nofZ O h) (nofZ O l)) in
     ntoint O (nround O (nadd O (nmul O q (nsub O (nofZ O h) (nofZ O l))) (nofZ O l))) = x /\
     nleb O (nofZ O 0) q = true /\ nleb O q (nofZ O 1) = true;
  nl_eps : nleb O (nofZ O 1) (nadd O (nofZ O 1) (neps O)) = true /\
           nleb O (nsub O (nofZ O 0) (neps O)) (nofZ O 0) = true
}.

Lemma Rneqb_spec x y : neqb Rops x y = true <-> x = y.
Proof.
  unfold neqb. simpl. rewrite andb_true_iff, !Rleb_spec. lra.
Qed.
Lemma Rneqb_false x y : neqb Rops x y = false <-> x <> y.
Proof. rewrite <- Rneqb_spec. destruct (neqb Rops x y); split; congruence. Qed.

Lemma Rops_norm : norm_laws Rops.
Proof.
  constructor; simpl.
  - apply Rltb_spec. lra.
  - apply Rltb_false. lra.
  - apply Rltb_spec. lra.
  - apply Rneqb_spec. lra.
  - split; apply Rltb_false; lra.
  - replace (0 * 0 * (0 - 0) + 0) with 0 by ring. rewrite (ZnearestE_IZR 0). apply (Ztrunc_IZR 0).
  - apply Rneqb_spec. lra.
  - intros z _. apply Rneqb_spec. now rewrite ZnearestE_IZR.
  - intros l h _ _ H _. apply Rneqb_false. apply IZR_lt in H. lra.
  - intros l h x _ _ _ Hlh Hx.
    assert (D : 0 < IZR h - IZR l) by (apply IZR_lt in Hlh; lra).
    assert (A : IZR l <= IZR x <= IZR h) by (split; apply IZR_le; lia).
    split; [|split].
    + replace ((IZR x - IZR l) / (IZR h - IZR l) * (IZR h - IZR l) + IZR l) with (IZR x) by (field; lra).
      rewrite ZnearestE_IZR. apply Ztrunc_IZR.
    + apply Rleb_spec. apply Rmult_le_pos; [lra|]. left. now apply Rinv_0_lt_compat.
    + apply Rleb_spec. apply Rmult_le_reg_r with (IZR h - IZR l); [lra|].
      unfold Rdiv. rewrite Rmult_assoc, Rinv_l; lra.
  - split; apply Rleb_spec; lra.
Qed.

Lemma fneqb_finite L x y : is_finite x = true -> is_finite y = true ->
  B2R x = B2R y -> neqb (F64 L) x y = true.
Proof.
  intros Hx Hy H. unfold neqb. simpl.
  assert (Nx : is_nan x = false) by now destruct x.
  assert (Ny : is_nan y = false) by now destruct y.
  rewrite !fleb_E by easy. rewrite !fE_finite by easy. rewrite H.
  apply andb_true_iff. split; apply Rleb_spec; lra.
Qed.

Lemma F64_norm L : norm_laws (F64 L).
Proof.
  constructor; cbn [nadd nsub nmul ndiv nltb nleb nofZ nround ntoint neps nhalf F64].
  - now vm_compute.
  - now vm_compute.
  - now vm_compute.
  - now vm_compute.
  - now vm_compute.
  - now vm_compute.
  - now vm_compute.
  - intros z Hz. destruct (fofZ_exact z Hz) as [F E].
    pose proof (Bnearbyint_correct 53 1024 emax64 mode_NE (fofZ z)) as (E' & F' & _).
    apply fneqb_finite; [|easy|].
    + unfold fround. rewrite F'. exact F.
    + unfold fround. rewrite E', E. unfold round_mode.
      rewrite round_generic; [easy|apply valid_rnd_N|].
      apply generic_format_FIX. exists (Float radix2 z 0); [unfold F2R; simpl; lra|easy].
  - intros l h Hl Hh Hlh Hs.
    destruct (@norm_D l h l Hl Hh) as [F E]; [lia..|].
    destruct (neqb (F64 L) (fsub (fofZ h) (fofZ l)) (fofZ 0)) eqn:Q; [|easy].
    exfalso. unfold neqb in Q. cbn [nleb F64] in Q. apply andb_true_iff in Q as [Q _].
    apply fleb_spec in Q as (_ & _ & Q). rewrite fE_finite, E, fE_fofZ in Q by easy.
    apply IZR_lt in Hlh. rewrite minus_IZR in Q. lra.
  - intros l h x Hl Hh Hs Hlh Hx. split.
    + now apply norm_int_exact.
    + destruct (@norm_q l h x Hl Hh) as (F & _ & B); [lia..|].
      assert (Nn : is_nan (fdiv (fsub (fofZ x) (fofZ l)) (fsub (fofZ h) (fofZ l))) = false)
        by (destruct (fdiv _ _); easy).
      split; apply fleb_spec; repeat split; try easy; try apply fofZ_not_nan;
        rewrite (fE_finite _ F), fE_fofZ by easy; lra.
  - split; now vm_compute.
Qed.
