(** What it means for the documentation of a benchmark function to be right. *)
From Coq Require Import List Reals.
From Verif Require Import Base.
Import ListNotations.
Open Scope R_scope.

(** On the points of [D] the function always returns, never less than [v],
    and [v] exactly at the points of [at_]. *)
Definition minimised {X : Type} (f : X -> res R) (D : X -> Prop) (v : R)
    (at_ : X -> Prop) : Prop :=
  (exists x, D x /\ at_ x) /\
  forall x, D x -> exists y, f x = Ok y /\ v <= y /\ (y = v <-> at_ x).

(** The square the Branin-Hoo function is defined on. *)
Definition branin_square (x : list R) : Prop :=
  exists u v, x = [u; v] /\ -5 <= u <= 10 /\ 0 <= v <= 15.

(** Points of the unit hypercube, points all of whose coordinates are within [r] of another's, and the documented
    place of the minimum of hart6 (benchmarks.py:96). *)
Definition unit_point (x : list R) : Prop := length x = 6%nat /\ List.Forall (fun v => 0 <= v <= 1) x.
Definition nearby (r : R) (x c : list R) : Prop := List.Forall2 (fun v w => Rabs (v - w) <= r) x c.
Definition xstar : list R := [0.20169; 0.15001; 0.476874; 0.275332; 0.311652; 0.6573].
