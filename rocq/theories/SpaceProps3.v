(** Concrete cases and counterexamples for C08-C12. *)
From Coq Require Import String List ZArith Bool Lia Reals Lra DecimalString.
From Verif Require Import Base BaseLemmas Num Values Transformers Dimension Space SpaceSpec CheckDim MetricLemmas
  Samples SpaceProps SpaceProps2.
Import ListNotations.
Open Scope list_scope.

Lemma distance_is_metric dims a b c : Forall (wf_dim Rops) dims ->
  in_space Rops dims a -> in_space Rops dims b -> in_space Rops dims c ->
  exists ab bc ac,
    space_distance Rops dims a b = Ok ab /\ space_distance Rops dims b c = Ok bc /\
    space_distance Rops dims a c = Ok ac /\
    (0 <= ab)%R /\ (ab = 0%R <-> a = b) /\ space_distance Rops dims b a = Ok ab /\ (ac <= ab + bc)%R.
Proof.
  intros Hd Ha Hb Hc.
  destruct (distance_metric Hd Ha Hb) as [s [E1 [E2 [P Z]]]].
  destruct (distance_metric Hd Hb Hc) as [t [F1 _]]. destruct (distance_metric Hd Ha Hc) as [u [G1 _]].
  exists s, t, u. repeat split; auto; try apply Z.
  exact (distance_triangle Hd Ha Hb Hc E1 F1 G1).
Qed.

Definition dspace : list (dim R) :=
  [DReal (mkReal 0%R 10%R PUniform 10%R KIdentity None DT64);
   DInt (mkInt 0 9 PUniform 10%R KIdentity None int64);
   DCat (mkCat [VStr "b"; VStr "a"; VStr "c"]%string None KOnehot None)].
Lemma C08_sample :
  Forall (wf_dim Rops) dspace /\ in_space Rops dspace [VFloat 1%R; VInt 5; VStr "a"%string] /\
  in_space Rops dspace [VFloat 3%R; VInt 7; VStr "b"%string].
Proof.
  assert (Q : forall x y, (x <= y)%R -> Rleb' x y = true) by (intros x y H; now apply Rleb_le).
  split; [|split].
  - constructor; [|constructor; [|constructor; [|constructor]]].
    + split; [|split; [easy|now left]]. simpl. unfold Rltb. destruct (Rlt_dec 0 10); [easy|lra].
    + split; [now vm_compute|]. split; [now vm_compute|]. split; [now vm_compute|].
      split; [|now left]. intros z Hz. apply int64_id. simpl in Hz. lia.
    + apply wf_cat_str.
  - constructor; [constructor; simpl; apply Q; lra|]. constructor; [constructor; simpl; lia|].
    constructor; [constructor; simpl; auto|constructor].
  - constructor; [constructor; simpl; apply Q; lra|]. constructor; [constructor; simpl; lia|].
    constructor; [constructor; simpl; auto|constructor].
Qed.
Lemma C08_outside_sample :
  let a := [VFloat 1%R; VInt 50; VStr "a"%string] in
  let b := [VFloat 1%R; VInt 5; VStr "a"%string] in
  Forall2 (comparable Rops) dspace a /\ Forall2 (comparable Rops) dspace b /\
  ~ (Forall2 (accepts Rops) dspace a /\ Forall2 (accepts Rops) dspace b).
Proof.
  intros a b. split; [|split].
  - repeat constructor; discriminate.
  - repeat constructor; discriminate.
  - intros [H _]. inversion H as [|d1 v l1 l2 _ H2]. subst. inversion H2 as [|d2 w l3 l4 H3 _]. subst.
    apply contains_accepts in H3. discriminate H3.
Qed.

Lemma C09_sample :
  check_x_in_space O0 (X1 [VInt 3; VInt 5; VStr "c"; VInt 3]%string) space4 = Ok tt /\
  check_x_in_space O0 (X1 [VInt 3; VInt 13; VStr "c"; VInt 3]%string) space4 = Raise ValueError /\
  check_x_in_space O0 (X1 [VInt 3; VInt 5; VStr "c"]%string) space4 = Raise ValueError.
Proof. repeat split; now vm_compute. Qed.
Lemma C09_batch_sample :
  check_x_in_space O0 (X2 [[VInt 3; VInt 5; VStr "c"; VInt 3]; [VInt 0; VInt 12; VStr "b"; VInt 7]]%string) space4 = Ok tt.
Proof. now vm_compute. Qed.

(** An Integer dimension accepts non-integers. *)
Lemma integer_accepts_fraction L : exists i v,
  wf_int i /\ check_x_in_space (F64 L) (X1 [v]) [DInt i] = Ok tt /\ ~ in_dim (F64 L) (DInt i) v.
Proof.
  exists (mkInt (-3) 12 PUniform (fofZ 10) KIdentity None int64), (VFloat fhalf).
  split; [apply (wf_int1 KIdentity); auto|]. split; [now vm_compute|]. intros H. inversion H.
Qed.
(** Membership through [in] accepts truncated points. *)
Lemma contains_accepts_short L : exists dims p,
  space_contains (F64 L) dims p = Ok true /\ length p < length dims.
Proof. exists [int1 KIdentity; int1 KIdentity], [VInt 3]. split; [now vm_compute|simpl; lia]. Qed.

Lemma eq_truncates L : exists a b : list (dim float),
  space_eqb (F64 L) a b = true /\ length a <> length b.
Proof. exists [int1 KIdentity], [int1 KIdentity; int1 KIdentity]. split; [now vm_compute|discriminate]. Qed.
Lemma eq_ignores_prior L : exists x y : int_dim float,
  space_eqb (F64 L) [DInt x] [DInt y] = true /\ i_prior x <> i_prior y /\ i_kind x <> i_kind y.
Proof.
  exists (mkInt 1 12 PUniform (fofZ 10) KIdentity None int64), (mkInt 1 12 PLogUniform (fofZ 10) KNormalize None int64).
  split; [now vm_compute|]. split; discriminate.
Qed.
Lemma eq_asymmetric L : exists x y : list (dim float),
  space_eqb (F64 L) x y = true /\ space_eqb (F64 L) y x = false.
Proof.
  exists [DInt (mkInt 0 1000000000000 PUniform (fofZ 10) KIdentity None int64)],
         [DInt (mkInt 0 1000010000050 PUniform (fofZ 10) KIdentity None int64)].
  split; now vm_compute.
Qed.
Lemma C10_sample : Forall (wf_dim Rops) dspace /\ length dspace = length dspace.
Proof. split; [apply C08_sample|reflexivity]. Qed.

Lemma lookup_list (dims : list (dim float)) ks :
  length (space_get_list dims ks) = length ks /\
  forall j k, nth_error ks j = Some k -> nth_error (space_get_list dims ks) j = Some (space_get dims k).
Proof.
  unfold space_get_list. split; [apply map_length|]. intros j k H. now rewrite nth_error_map, H.
Qed.
Lemma C11_sample :
  space_get space4 (GName "c") = Some (2, cat3 KOnehot) /\ space_get space4 (GName "zz") = None /\
  space_get space4 (GIndex 3) = Some (3, cat2 KNormalize) /\
  dimension_names space4 = ["x"; "n"; "c"; "X_3"]%string.
Proof. repeat split. Qed.

Lemma C12_sample :
  check_dimension O0 None (CSeq [VInt 1; VInt 5]) = Ok (DInt (mkInt 1 5 PUniform (fofZ 10) KIdentity None int64)) /\
  check_dimension O0 None (CSeq [VInt 1; VInt 5; VInt 9])
  = Ok (DCat (mkCat [VInt 1; VInt 5; VInt 9] None KOnehot None)).
Proof. split; reflexivity. Qed.

Lemma not_numeric_sample : ~ numeric_shorthand [@VStr float "a"; VStr "b"; VStr "c"]%string.
Proof.
  intros H. inversion H as [| a b v p [H1|H1] H2|]; discriminate.
Qed.

(** (low, high, "uniform", base) is read as four categories; so is a fractional base. *)
Lemma uniform_base_is_categorical L :
  check_dimension (F64 L) None (CSeq [VInt 1; VInt 5; VStr "uniform"%string; VInt 2])
  = Ok (DCat (mkCat [VInt 1; VInt 5; VStr "uniform"%string; VInt 2] None KOnehot None)) /\
  check_dimension (F64 L) None (CSeq [VInt 1; VInt 5; VStr "log-uniform"%string; VFloat fhalf])
  = Ok (DCat (mkCat [VInt 1; VInt 5; VStr "log-uniform"%string; VFloat fhalf] None KOnehot None)).
Proof. split; reflexivity. Qed.
(** A list of categories one of which happens to be a prior name raises. *)
Lemma categories_with_prior_name L :
  check_dimension (F64 L) None (CSeq [VStr "a"; VInt 5; VStr "uniform"]%string) = Raise TypeError.
Proof. reflexivity. Qed.
