(** C64 in float64. *)
From Coq Require Import List ZArith Reals.
From Verif Require Import Base Num Values Dimension Space Samples SpaceProps2 Sampler SamplerSpec HaltonLemmas FloatDesign GeneratorCases HaltonFSpec HaltonF HaltonFCases.
Import ListNotations.
Open Scope nat_scope.

(** As long as the bases times the indices stay within 2^45, the points of every stretch of as many points as
    there are boxes can be assigned one to one to the boxes, each coordinate of each point being in its box up to 2^-45. *)
Theorem C64_float : forall L RNG (G : rng_ops float RNG), rng_ok (F64 L) G -> forall a d n g,
  0 < d -> match h_primes a with None => True | Some l => length l < d end -> skip_counts a -> in_reach a d n ->
  exists ps h, first_primes d ps /\ fst (halton_design (F64 L) G a d n g) = Ok h /\ length h = n /\
    forall ks s, length ks = d -> (Z.of_nat s + box_count ps ks <= Z.of_nat n)%Z ->
      one_per_box ps ks h s (Z.to_nat (box_count ps ks)) (near_box ps ks).
Proof. exact c64_float. Qed.
Print Assumptions C64_float.
(** Two dimensions, forty points: any thirty-six in a row meet all the boxes of quarters and ninths. *)
Example C64_float_case : rng_ok O0 G0 /\ skip_counts (mkHalton (-1) (-2) None) /\ in_reach (mkHalton (-1) (-2) None) 2 40 /\
  is_box [2; 3] [2; 2] [3; 8]%Z /\ (Z.of_nat 4 + box_count [2; 3]%nat [2; 2]%nat <= Z.of_nat 40)%Z.
Proof. exact c64_float_case. Qed.
