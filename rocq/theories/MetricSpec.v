(** Vocabulary for distances in float64 (C08): how far two points are apart. *)
From Coq Require Import List ZArith Reals.
From Flocq Require Import IEEE754.BinarySingleNaN.
From Verif Require Import Base Num Values Dimension.
Import ListNotations.
Open Scope R_scope.

Inductive apart : dim float -> pyval float -> pyval float -> R -> Prop :=
| ap_real r x y : apart (DReal r) (VFloat x) (VFloat y) (Rabs (B2R x - B2R y))
| ap_int i z w : apart (DInt i) (VInt z) (VInt w) (IZR (Z.abs (z - w)))
| ap_same c v : apart (DCat c) v v 0
| ap_other c v w : v <> w -> apart (DCat c) v w 1.
(** The exact distance of two points. *)
Inductive exactly_apart : list (dim float) -> list (pyval float) -> list (pyval float) -> R -> Prop :=
| ea_nil : exactly_apart [] [] [] 0
| ea_cons d ds v a w b g t : apart d v w g -> exactly_apart ds a b t -> exactly_apart (d :: ds) (v :: a) (w :: b) (g + t).
(** Equal coordinates: -0.0 is 0.0. *)
Definition same (v w : pyval float) : Prop :=
  match v, w with
  | VFloat x, VFloat y => fleb x y = true /\ fleb y x = true
  | _, _ => v = w
  end.
Definition bounded (d : dim float) : Prop :=
  match d with DReal r => is_finite (r_low r) = true /\ is_finite (r_high r) = true | _ => True end.
(** Half a unit in the last place of 1. *)
Definition ulp2 : R := / IZR (2 ^ 53).
