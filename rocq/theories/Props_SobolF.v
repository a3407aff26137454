(** C46 and C77 in float64. *)
From Coq Require Import List ZArith Reals.
From Flocq Require Import IEEE754.BinarySingleNaN.
From Verif Require Import Base Num Values Dimension Space Samples SpaceProps2 Sampler SamplerSpec Sobol SobolProps GeneratorCases SobolExact SobolExactCases.
Import ListNotations.
Open Scope nat_scope.
Open Scope list_scope.

(** Without randomize, what the generator yields in float64, used before or not, is exactly what a new one yields in exact
    arithmetic: C46_strata, C46_distinct and C77_boxes hold of the numbers computed. *)
Theorem C46_float : forall L RNG (G : rng_ops float RNG) RNG' (G' : rng_ops R RNG') skip s total d n g g' s' h,
  sobol_history (F64 L) G skip false s total -> (skip < 2 ^ 30)%Z -> 1 <= d <= 40 -> sobol_design (F64 L) G s d n g = (s', Ok h) ->
  exists s0 s0', sobol_new skip false = Ok s0 /\ Forall (Forall (fun x => is_finite x = true)) h /\ sobol_design Rops G' s0 d n g' = (s0', Ok (map (map (@B2R 53 1024)) h)).
Proof. exact c46_float. Qed.
Print Assumptions C46_float.
Theorem C46_float_strata : forall L RNG (G : rng_ops float RNG) skip s total d n g s' h,
  sobol_history (F64 L) G skip false s total -> (skip < 2 ^ 30)%Z -> 1 <= d <= 40 -> sobol_design (F64 L) G s d n g = (s', Ok h) ->
  forall k start j c, j < d -> start + 2 ^ k <= n -> (2 ^ Z.of_nat k | skip + Z.of_nat start)%Z -> (0 <= c < 2 ^ Z.of_nat k)%Z ->
    one_in_stretch h start (2 ^ k) (fun row => exists v, nth_error row j = Some v /\ is_finite v = true /\ in_part (2 ^ Z.of_nat k) c (B2R v)).
Proof. exact c46_float_strata. Qed.
Print Assumptions C46_float_strata.
Example C46_float_case : exists s s' h, sobol_history O0 G0 4 false s 0 /\ sobol_design O0 G0 s 3 4 1 = (s', Ok h) /\ length h = 4 /\ (2 ^ Z.of_nat 2 | 4 + Z.of_nat 0)%Z.
Proof. exact c46_float_case. Qed.
