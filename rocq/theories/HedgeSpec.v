(** Vocabulary of C23 in float64: what is assumed of exp. *)
From Coq Require Import ZArith Bool Reals.
From Flocq Require Import Core.Core IEEE754.BinarySingleNaN.
From Verif Require Import Base Num.
Local Open Scope R_scope.

(** exp(0) is 1, exp never decreases, and exp of anything but NaN is not negative. *)
Definition fair_exp (L : libm) : Prop :=
  (forall x, is_finite x = true -> B2R x = 0 -> is_finite (l_exp L x) = true /\ B2R (l_exp L x) = 1) /\
  (forall x y, fleb x y = true -> fleb y (fofZ 0) = true -> fleb (l_exp L x) (l_exp L y) = true) /\
  (forall x, fleb x (fofZ 0) = true -> fleb (fofZ 0) (l_exp L x) = true).
