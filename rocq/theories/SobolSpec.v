(** Vocabulary of the joint properties of the Sobol generator. *)
From Coq Require Import List ZArith Reals.
Import ListNotations.
Open Scope list_scope.

(** Exactly [c] positions from [s] on, [len] of them, hold an element of [l] satisfying [P]. *)
Definition many_in_stretch {A} (l : list A) (s len : nat) (P : A -> Prop) (c : nat) : Prop :=
  exists is, NoDup is /\ length is = c /\ forall i, In i is <-> s <= i < s + len /\ exists x, nth_error l i = Some x /\ P x.

(** The polynomials over GF(2) of the dimensions after the first (Bratley and Fox, ACM TOMS 14, 1988), as the exponents of their
    terms: [3; 1; 0] is x^3 + x + 1. *)
Definition exponents : list (list nat) :=
  [[1; 0]; [2; 1; 0]; [3; 1; 0]; [3; 2; 0]; [4; 1; 0]; [4; 3; 0]; [5; 2; 0]; [5; 4; 3; 1; 0]; [5; 3; 2; 1; 0];
   [5; 4; 3; 2; 0]; [5; 4; 2; 1; 0]; [5; 3; 0]; [6; 1; 0]; [6; 5; 0]; [6; 4; 3; 1; 0]; [6; 5; 3; 2; 0];
   [6; 5; 2; 1; 0]; [6; 5; 4; 1; 0]; [7; 1; 0]; [7; 6; 0]; [7; 3; 0]; [7; 4; 0]; [7; 3; 2; 1; 0]; [7; 6; 5; 4; 0];
   [7; 4; 3; 2; 0]; [7; 5; 4; 3; 0]; [7; 5; 2; 1; 0]; [7; 6; 5; 2; 0]; [7; 5; 3; 1; 0]; [7; 6; 4; 2; 0];
   [7; 5; 4; 3; 2; 1; 0]; [7; 6; 5; 4; 3; 2; 0]; [7; 6; 3; 1; 0]; [7; 6; 4; 1; 0]; [7; 6; 5; 3; 2; 1; 0];
   [7; 6; 5; 4; 2; 1; 0]; [8; 4; 3; 2; 0]; [8; 6; 5; 4; 0]; [8; 5; 3; 1; 0]].
(** The degree of the polynomial of a dimension; the first dimension counts as degree 1. *)
Definition sobol_degree (j : nat) : nat := match j with 0 => 1 | S i => hd 0 (nth i exponents []) end.

(** The [t]-th direction number of dimension [j], in units of 2^-30, as seen in the points: point 2^(t+1) - 1. *)
Definition direction (h : list (list R)) (j t : nat) (v : Z) : Prop :=
  exists row, nth_error h (2 ^ (t + 1) - 1) = Some row /\ nth_error row j = Some (IZR v / 2 ^ 30)%R.
