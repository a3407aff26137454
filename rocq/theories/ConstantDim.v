(** C73: which dimensions count as constant. *)
From Coq Require Import List ZArith Bool Lia Reals Lra.
From Flocq Require Import IEEE754.BinarySingleNaN.
From Verif Require Import Base Num Values Transformers Dimension Space NumLaws SpaceSpec NormLaws.
Import ListNotations.
Open Scope list_scope.
Set Implicit Arguments.

Section Constant.
  Context {N : Type} (O : numops N) (OL : order_laws O).
  Hypothesis eq_le : forall x y, neqb O x y = true -> nleb O y x = true.
  Lemma constant_one d : wf_dim O d -> (is_constant O d = true <-> forall u v, in_dim O d u -> in_dim O d v -> py_eqb O u v = true).
  Proof.
    intro W. destruct d as [r|i|c]; cbn [is_constant wf_dim] in *.
    - destruct W as (W & _). pose proof (proj1 (ol_lt OL _ _) W) as (Wl & Wh & Wn). assert (Wle : nleb O (r_low r) (r_high r) = true) by (destruct (ol_total OL _ _ Wl Wh); [assumption|congruence]).
      split; intro H.
      + apply eq_le in H. congruence.
      + apply (H (VFloat (r_low r)) (VFloat (r_high r))); constructor; assumption.
    - destruct W as (W & _). rewrite Z.eqb_eq. split; [lia|]. intro H. apply Z.eqb_eq. apply (H (VInt (i_low i)) (VInt (i_high i))); constructor; lia.
    - destruct W as (Hne & _ & Hr & Hd). rewrite Nat.leb_le. split.
      + intros Hl u v Hu Hv. inversion Hu; inversion Hv; subst. destruct (c_cats c) as [|a [|b l]]; [easy| |cbn in Hl; lia]. rewrite Forall_forall in Hr.
        match goal with H1 : In u _, H2 : In v _ |- _ => destruct H1 as [<-|[]]; destruct H2 as [<-|[]] end. apply Hr. now left.
      + intro H. destruct (c_cats c) as [|a [|b l]] eqn:E; cbn; try lia. exfalso. inversion Hd as [|? ? Ha _]; subst. inversion Ha as [|? ? Hab _]; subst.
        rewrite H in Hab; [discriminate| |]; constructor; rewrite E; cbn; auto.
  Qed.
End Constant.
Lemma F64_eq_le L x y : neqb (F64 L) x y = true -> nleb (F64 L) y x = true.
Proof.
  intro H. unfold neqb in H. apply andb_true_iff in H. tauto.
Qed.
Lemma constant_dims L : (forall d, wf_dim (F64 L) d -> (is_constant (F64 L) d = true <-> forall u v, in_dim (F64 L) d u -> in_dim (F64 L) d v -> py_eqb (F64 L) u v = true)) /\
  (forall d, wf_dim Rops d -> (is_constant Rops d = true <-> forall u v, in_dim Rops d u -> in_dim Rops d v -> py_eqb Rops u v = true)).
Proof.
  split; intro d; [apply (constant_one (F64_order L) (@F64_eq_le L))|]. apply (constant_one Rops_order). intros x y H. apply Rneqb_spec in H. subst. apply Rleb_spec. lra.
Qed.
