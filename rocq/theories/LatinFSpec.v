(** Strata of Latin hypercube designs in float64. *)
From Coq Require Import List ZArith Reals.
From Coq Require Import Permutation.
From Flocq Require Import IEEE754.BinarySingleNaN.
From Verif Require Import Base Num.
Import ListNotations.
Open Scope list_scope.

(** In the [k]-th of [n] equal parts of the unit interval, up to 2^-49 *)
Definition near_part (n k : nat) (v : float) : Prop :=
  is_finite v = true /\ (INR k / INR n - / IZR (2 ^ 49) <= B2R v <= INR (S k) / INR n + / IZR (2 ^ 49))%R.
(** In exactly that part *)
Definition exact_part (n k : nat) (v : float) : Prop := is_finite v = true /\ (INR k / INR n <= B2R v < INR (S k) / INR n)%R.
(** The points can be assigned to the parts one to one: the coordinate [j] of the point [i] lies in the part [o i]. *)
Definition one_each (part : nat -> float -> Prop) (n j : nat) (h : list (list float)) : Prop :=
  length h = n /\ exists o, Permutation o (seq 0 n) /\
    forall i row, nth_error h i = Some row -> exists k v, nth_error o i = Some k /\ nth_error row j = Some v /\ part k v.
