(** Radical inverses in float64. *)
From Coq Require Import ZArith Reals.
From Flocq Require Import IEEE754.BinarySingleNaN.
From Verif Require Import Base Num.

(** In the [j]-th of [m] equal parts of the unit interval, up to 2^-45 *)
Definition near_in_part (m j : Z) (x : float) : Prop :=
  is_finite x = true /\ (IZR j / IZR m - / IZR (2 ^ 45) <= B2R x <= IZR (j + 1) / IZR m + / IZR (2 ^ 45))%R.
(** The real number [r] up to 2^-45 *)
Definition close45 (x : float) (r : R) : Prop := is_finite x = true /\ (r - / IZR (2 ^ 45) <= B2R x <= r + / IZR (2 ^ 45))%R.
