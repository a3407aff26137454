(** C104 in float64. *)
From Coq Require Import List ZArith Reals.
From Verif Require Import Base Num Values Dimension Space Samples SpaceProps2 Sampler SamplerSpec HaltonLemmas FloatDesign GeneratorCases HaltonFSpec HaltonFCases HammerFSpec HammerF.
Import ListNotations.
Open Scope nat_scope.
Open Scope list_scope.

(** As C64_float for the first coordinates; the last one is the index over the number of points, up to 2^-51. *)
Theorem C104_float : forall L RNG (G : rng_ops float RNG), rng_ok (F64 L) G -> forall a d n g,
  2 <= d -> match h_primes a with None => True | Some l => length l < d - 1 end -> skip_counts a -> in_reach a (d - 1) n ->
  exists ps h, first_primes (d - 1) ps /\ hammersly_design (F64 L) G a d n g = Ok h /\ length h = n /\
    (forall i pt, nth_error h i = Some pt -> exists row y, pt = row ++ [y] /\ near_tick n i y) /\
    forall ks s, length ks = d - 1 -> (Z.of_nat s + box_count ps ks <= Z.of_nat n)%Z ->
      one_per_box ps ks h s (Z.to_nat (box_count ps ks)) (fun js pt => exists row y, pt = row ++ [y] /\ near_box ps ks js row).
Proof. exact c104_float. Qed.
Print Assumptions C104_float.
(** Three dimensions, forty points. *)
Example C104_float_case : rng_ok O0 G0 /\ skip_counts (mkHalton (-1) (-2) None) /\ in_reach (mkHalton (-1) (-2) None) (3 - 1) 40 /\
  is_box [2; 3] [2; 2] [3; 8]%Z /\ (Z.of_nat 4 + box_count [2; 3]%nat [2; 2]%nat <= Z.of_nat 40)%Z.
Proof. exact c64_float_case. Qed.
