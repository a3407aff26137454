(** Boxes of Halton designs in float64. *)
From Coq Require Import List ZArith.
From Verif Require Import Base Num SamplerSpec VdcFSpec.
Import ListNotations.
Open Scope list_scope.

(** The numbers [row] are, each up to 2^-45, in the parts [js] of the divisions of [0,1) into [p ^ k] parts. *)
Fixpoint near_box (bases ks : list nat) (js : list Z) (row : list float) : Prop :=
  match bases, ks, js, row with
  | [], [], [], [] => True
  | p :: ps, k :: ks', j :: js', x :: row' => near_in_part (Z.of_nat p ^ Z.of_nat k) j x /\ near_box ps ks' js' row'
  | _, _, _, _ => False
  end.
(** The [len] elements of [h] from [s] on can be assigned one to one to the boxes, each element being in its box in the sense of [P]. *)
Definition one_per_box {A} (bases ks : list nat) (h : list A) (s len : nat) (P : list Z -> A -> Prop) : Prop :=
  exists box : nat -> list Z,
    (forall i, s <= i < s + len -> is_box bases ks (box i) /\ exists x, nth_error h i = Some x /\ P (box i) x) /\
    forall js, is_box bases ks js -> exists! i, s <= i < s + len /\ box i = js.
