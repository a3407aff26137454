(** C43 in float64. *)
From Coq Require Import List ZArith Reals.
From Verif Require Import Base Num Values Dimension Space Samples SpaceProps2 Sampler GeneratorCases LatinFSpec LatinF LatinFCases.
Import ListNotations.
Open Scope nat_scope.

(** In every dimension the points can be assigned one to one to the n equal parts of the unit interval, each point lying in
    its part up to 2^-49. *)
Theorem C43_float : forall L RNG (G : rng_ops float RNG), rng_ok (F64 L) G -> forall S t c its d n g h g', t <> LOtherType -> (Z.of_nat n <= 2 ^ 45)%Z ->
  lhs_design (F64 L) G S t c its d n g = (Ok h, g') -> forall j, j < d -> one_each (near_part n) n j h.
Proof. exact c43_float. Qed.
Print Assumptions C43_float.
(** Without that allowance it fails: the ends of the parts are rounded. No point of three lies in the last third. *)
Theorem C43_float_exact_refuted : exists h g', lhs_design O0 G0 flat_stats LClassic CNone 0 1 3 0 = (Ok h, g') /\ length h = 3 /\ ~ one_each (exact_part 3) 3 0 h.
Proof. exact c43_refuted. Qed.
Print Assumptions C43_float_exact_refuted.
Example C43_float_case : rng_ok O0 G0 /\ (Z.of_nat 3 <= 2 ^ 45)%Z /\
  exists h g', lhs_design O0 G0 flat_stats LClassic CNone 0 1 3 0 = (Ok h, g') /\ one_each (near_part 3) 3 0 h.
Proof. exact c43_float_case. Qed.
