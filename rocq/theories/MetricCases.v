(** Concrete float64 distances (C08). *)
From Coq Require Import String List ZArith Bool Lia Reals Lra.
From Flocq Require Import Core.Core IEEE754.BinarySingleNaN.
From Verif Require Import Base BaseLemmas Num Values Transformers Dimension Space SpaceSpec NumLaws Samples SpaceProps MetricSpec.
Import ListNotations.
Open Scope list_scope.

(** 2 ** k for negative k *)
Definition tiny (k : positive) : float := fdiv (fofZ 1) (fofZ (Z.pow_pos 2 k)).
Definition line0 : list (dim float) := [DReal (mkReal (fofZ (-2)) (fofZ 2) PUniform (fofZ 10) KIdentity None DT64)].
Lemma triangle_fails : Forall (wf_dim O0) line0 /\ Forall bounded line0 /\
  exists a b c ab bc ac, in_space O0 line0 a /\ in_space O0 line0 b /\ in_space O0 line0 c /\
    space_distance O0 line0 a b = Ok ab /\ space_distance O0 line0 b c = Ok bc /\ space_distance O0 line0 a c = Ok ac /\
    is_finite (fadd ab bc) = true /\ fltb (fadd ab bc) ac = true.
Proof.
  split; [constructor; [|constructor]; split; [vm_compute; reflexivity|]; split; [reflexivity|left; reflexivity]|].
  split; [constructor; [split; vm_compute; reflexivity|constructor]|].
  exists [VFloat (fofZ (-1))], [VFloat (tiny 53)], [VFloat (tiny 52)].
  set (g x y := fadd (fofZ 0) (fabs (fsub x y))).
  exists (g (fofZ (-1)) (tiny 53)), (g (tiny 53) (tiny 52)), (g (fofZ (-1)) (tiny 52)).
  assert (I : forall x, fleb (fofZ (-2)) x = true -> fleb x (fofZ 2) = true -> in_space O0 line0 [VFloat x]) by (intros; repeat constructor; assumption).
  split; [apply I; vm_compute; reflexivity|]. split; [apply I; vm_compute; reflexivity|]. split; [apply I; vm_compute; reflexivity|].
  assert (D : forall x y, fleb (fofZ (-2)) x = true -> fleb x (fofZ 2) = true -> fleb (fofZ (-2)) y = true -> fleb y (fofZ 2) = true ->
              space_distance O0 line0 [VFloat x] [VFloat y] = Ok (g x y)).
  { intros x y H1 H2 H3 H4. unfold space_distance, line0. cbn [distance_from dim_distance contains leb_chain]. unfold dim_distance, contains, leb_chain, py_leb.
    cbn [to_num r_low r_high]. cbn [nleb O0 F64]. rewrite H1, H2, H3, H4. reflexivity. }
  split; [apply D; vm_compute; reflexivity|]. split; [apply D; vm_compute; reflexivity|]. split; [apply D; vm_compute; reflexivity|].
  split; vm_compute; reflexivity.
Qed.
(** A Real, an Integer and a Categorical dimension *)
Definition mixed0 : list (dim float) :=
  [DReal (mkReal (fofZ (-2)) (fofZ 2) PUniform (fofZ 10) KIdentity None DT64); DInt (mkInt (-5) 5 PUniform (fofZ 10) KIdentity None int64);
   DCat (mkCat [VStr "a"%string; VStr "b"%string] None KOnehot None)].
Lemma mixed_case : Forall (wf_dim O0) mixed0 /\ Forall bounded mixed0 /\
  let a := [VFloat (tiny 3); VInt 2; VStr "a"%string] in let b := [VFloat (fofZ (-1)); VInt (-4); VStr "b"%string] in
  in_space O0 mixed0 a /\ in_space O0 mixed0 b /\ ~ Forall2 same a b /\
  Forall2 same [VFloat (B754_zero false); VInt 2; VStr "a"%string] [VFloat (B754_zero true); VInt 2; VStr "a"%string].
Proof.
  split.
  { repeat apply Forall_cons; [| | |constructor].
    - split; [vm_compute; reflexivity|]. split; [reflexivity|left; reflexivity].
    - cbn [wf_dim]. unfold wf_int. cbn [i_low i_high i_dtype i_kind]. split; [lia|]. split; [lia|]. split; [lia|]. split; [|left; reflexivity].
      intros z Hz. apply int64_id. lia.
    - split; [discriminate|]. split; [exists TyStr; repeat constructor|]. split; repeat constructor. }
  split; [repeat constructor|]. cbv zeta. split.
  { repeat apply Forall2_cons; [constructor; vm_compute; reflexivity|constructor; cbn; lia|constructor; cbn; tauto|constructor]. }
  split; [repeat apply Forall2_cons; [constructor; vm_compute; reflexivity|constructor; cbn; lia|constructor; cbn; tauto|constructor]|].
  split; [intro H; inversion H as [|? ? ? ? _ H2]; subst; inversion H2 as [|? ? ? ? H3 _]; discriminate H3|].
  repeat apply Forall2_cons; [split; reflexivity|reflexivity|reflexivity|constructor].
Qed.
