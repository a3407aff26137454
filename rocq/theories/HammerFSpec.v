(** Evenly spaced numbers in float64. *)
From Coq Require Import ZArith Reals.
From Flocq Require Import IEEE754.BinarySingleNaN.
From Verif Require Import Base Num.

(** The number i/n up to 2^-51 *)
Definition near_tick (n i : nat) (y : float) : Prop := is_finite y = true /\ (INR i / INR n - / IZR (2 ^ 51) <= B2R y <= INR i / INR n + / IZR (2 ^ 51))%R.
