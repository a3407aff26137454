(** C104. *)
From Coq Require Import List ZArith Reals.
From Verif Require Import Base Num Values Dimension Space SpaceProps2 Sampler SamplerSpec HaltonLemmas HammerSpec Hammer.
Import ListNotations.
Open Scope nat_scope.
Open Scope list_scope.

Theorem C104_boxes : forall RNG (G : rng_ops R RNG), rng_ok Rops G -> forall a d n g,
  2 <= d -> match h_primes a with None => True | Some l => length l < d - 1 end -> skip_counts a ->
  exists ps h, first_primes (d - 1) ps /\ hammersly_design Rops G a d n g = Ok h /\ length h = n /\
    (forall i pt, nth_error h i = Some pt -> exists row, pt = row ++ [(INR i / INR n)%R]) /\
    forall ks js s, is_box ps ks js -> (Z.of_nat s + box_count ps ks <= Z.of_nat n)%Z ->
      one_in_stretch h 0 n (in_box_slab ps ks js n s (Z.to_nat (box_count ps ks))).
Proof. exact (@c104_boxes). Qed.
Print Assumptions C104_boxes.
(** Three dimensions, ten points: the box of the upper half and the last third, over six tenths of the last axis from 0.4 on. *)
Example C104_case : is_box [2; 3] [1; 1] [1; 2]%Z /\ (Z.of_nat 4 + box_count [2; 3]%nat [1; 1]%nat <= Z.of_nat 10)%Z /\ skip_counts (mkHalton 0 0 None).
Proof. exact c104_case. Qed.
