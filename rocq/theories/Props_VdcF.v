(** C44 in float64. *)
From Coq Require Import List ZArith Reals.
From Flocq Require Import IEEE754.BinarySingleNaN.
From Verif Require Import Base Num Sampler VdcFSpec VdcFBest.
Open Scope nat_scope.

(** The radical inverse computed in float64 is the exact one up to 2^-45 and lies in [0, 1). *)
Theorem C44_float : forall L b n, (2 <= b <= 2 ^ 45)%Z -> (0 <= n)%Z -> (b * n <= 2 ^ 45)%Z ->
  exists x r, vdc (F64 L) b n = Ok x /\ vdc Rops b n = Ok r /\ close45 x r /\ (0 <= B2R x < 1)%R.
Proof. exact c44_close. Qed.
Print Assumptions C44_float.
(** Different indices have different floats. *)
Theorem C44_float_distinct : forall L b m n x y, (2 <= b <= 2 ^ 45)%Z -> (0 <= m)%Z -> (0 <= n)%Z -> (b * m <= 2 ^ 44)%Z -> (b * n <= 2 ^ 44)%Z ->
  vdc (F64 L) b m = Ok x -> vdc (F64 L) b n = Ok y -> B2R x = B2R y -> m = n.
Proof. exact c44_float_distinct. Qed.
Print Assumptions C44_float_distinct.
(** Any b^k consecutive indices, aligned or not, can be assigned one to one to the b^k-th parts of the unit interval, each
    radical inverse lying in its part up to 2^-45. *)
Theorem C44_float_strata : forall L b k s, (2 <= b <= 2 ^ 45)%Z -> (0 <= s)%Z -> (b * (s + b ^ Z.of_nat k) <= 2 ^ 45)%Z ->
  exists part : Z -> Z,
    (forall n, (s <= n < s + b ^ Z.of_nat k)%Z -> (0 <= part n < b ^ Z.of_nat k)%Z /\ exists x, vdc (F64 L) b n = Ok x /\ near_in_part (b ^ Z.of_nat k) (part n) x) /\
    forall j, (0 <= j < b ^ Z.of_nat k)%Z -> exists! n, (s <= n < s + b ^ Z.of_nat k)%Z /\ part n = j.
Proof. exact c44_float_once. Qed.
Print Assumptions C44_float_strata.
(** The bounds leave room: base 3 beyond the index 10^12, and 3^20 parts. *)
Example C44_float_case : (2 <= 3 <= 2 ^ 45)%Z /\ (0 <= 1000000000000)%Z /\ (3 * 1000000000000 <= 2 ^ 44)%Z /\ (3 * (1000000000000 + 3 ^ Z.of_nat 20) <= 2 ^ 45)%Z.
Proof. exact c44_close_case. Qed.
