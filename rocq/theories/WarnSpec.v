(** Vocabulary for C103: how far points are apart, over the reals. *)
From Coq Require Import List ZArith Reals.
From Verif Require Import Base Num Values Dimension.
Import ListNotations.
Open Scope R_scope.

(** Numbers by their difference, different categories by 1 *)
Inductive off : dim R -> pyval R -> pyval R -> R -> Prop :=
| off_real r x y : off (DReal r) (VFloat x) (VFloat y) (Rabs (x - y))
| off_int i z w : off (DInt i) (VInt z) (VInt w) (IZR (Z.abs (z - w)))
| off_same c v : off (DCat c) v v 0
| off_other c v w : v <> w -> off (DCat c) v w 1.
Inductive away : list (dim R) -> list (pyval R) -> list (pyval R) -> R -> Prop :=
| aw_nil : away [] [] [] 0
| aw_cons d ds v a w b g t : off d v w g -> away ds a b t -> away (d :: ds) (v :: a) (w :: b) (g + t).

(** Integer and Categorical dimensions *)
Definition discrete {N} (d : dim N) : Prop := match d with DReal _ => False | _ => True end.
