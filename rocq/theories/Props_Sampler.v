(** Properties of the initial point generators (C42-C45, C47, C48, C64, C65). The vocabulary is in SamplerSpec.v. *)
From Coq Require Import String List ZArith Bool Reals Permutation Sorted.
From Flocq Require Import IEEE754.BinarySingleNaN.
From Verif Require Import Base Num NumLaws Values Dimension Space SpaceSpec Samples SpaceProps2
  Sampler SamplerSpec HaltonLemmas DesignLemmas GridLemmas SamplerProps SamplerSamples SamplerBest.
Import ListNotations.
Open Scope list_scope.

(** ** C42, in exact arithmetic: n_samples points of the space, for every generator contract-conforming random stream *)
Theorem C42_halton : forall RNG (G : rng_ops R RNG), rng_ok Rops G ->
  forall a dims n g, dims <> [] -> Forall plain dims -> bases_ok a (length dims) -> skips_ok a ->
  exists pts, halton_generate Rops G a dims n g = (dims, Ok pts) /\ length pts = n /\ Forall (in_space Rops dims) pts.
Proof. exact (@halton_generate_ok). Qed.
Print Assumptions C42_halton.
Theorem C42_hammersly : forall RNG (G : rng_ops R RNG), rng_ok Rops G ->
  forall a dims n g, dims <> [] -> Forall plain dims ->
  bases_ok a (if Nat.eqb (length dims) 1 then 1 else length dims - 1) -> skips_ok a ->
  exists pts, hammersly_generate Rops G a dims n g = (dims, Ok pts) /\ length pts = n /\ Forall (in_space Rops dims) pts.
Proof. exact (@hammersly_generate_ok). Qed.
Print Assumptions C42_hammersly.
Theorem C42_lhs : forall RNG (G : rng_ops R RNG), rng_ok Rops G ->
  forall S t c its dims n g, dims <> [] -> Forall plain dims -> lhs_valid t ->
  c = CNone \/ n = 1 \/ stats_ok n S /\ c <> COther ->
  exists pts, lhs_generate Rops G S t c its dims n g = (dims, Ok pts) /\ length pts = n /\ Forall (in_space Rops dims) pts.
Proof. exact (@lhs_generate_ok). Qed.
Print Assumptions C42_lhs.
(** Grid: at least two dimensions, and no layout with more than 10^9 numbers. *)
Theorem C42_grid_partial : forall RNG (G : rng_ops R RNG), rng_ok Rops G ->
  forall a dims n g, 2 <= length dims -> Forall plain dims ->
  valid_border (gr_border a) -> valid_border (gr_append a) -> grid_fits a (length dims) n ->
  exists pts, grid_generate Rops G a dims n g = (dims, Ok pts) /\ length pts = n /\ Forall (in_space Rops dims) pts.
Proof. exact (@grid_generate_ok). Qed.
Print Assumptions C42_grid_partial.
Example C42_example : rng_ok Rops GR /\ spaceR <> [] /\ Forall plain spaceR /\ bases_ok hal (length spaceR) /\ skips_ok hal /\
  grid_fits (mkGrid BExclude false BOnly) (length spaceR) 20.
Proof. exact c42_sample. Qed.
Example C42_float_example :
  show (halton_generate O0 G0 hal space4 3 1) =
  Ok [[VFloat (SpecFloat.S754_finite true 5629499534213120 (-50)); VInt (-3); VStr "a"; VInt 3];
      [VFloat (SpecFloat.S754_finite false 5629499534213120 (-51)); VInt 2; VStr "a"; VInt 3];
      [VFloat (SpecFloat.S754_finite true 5629499534213120 (-52)); VInt 7; VStr "b"; VInt 3]]%string /\
  show (lhs_generate O0 G0 no_stats LCentered CNone 3 [int1 KIdentity; cat3 KOnehot] 4 1) =
  Ok [[VInt 10; VStr "c"]; [VInt 6; VStr "b"]; [VInt 3; VStr "b"]; [VInt (-1); VStr "a"]]%string /\
  show (grid_generate O0 G0 (mkGrid BExclude false BOnly) [int1 KIdentity; cat3 KOnehot] 6 1) =
  Ok [[VInt 8; VStr "c"]; [VInt 8; VStr "b"]; [VInt 8; VStr "a"]; [VInt 4; VStr "c"]; [VInt 4; VStr "b"]; [VInt 4; VStr "a"]]%string.
Proof. exact c42_run. Qed.
(** In one dimension Grid returns 7 points where 10 are asked for. *)
Theorem C42_grid_short_refuted : exists h, grid_design O0 G0 (mkGrid BExclude false BOnly) 1 10 1 = Ok h /\ length h = 7.
Proof. exact c42_short. Qed.
Print Assumptions C42_grid_short_refuted.
(** Four points in 26 dimensions: MemoryError. *)
Theorem C42_grid_memory_refuted : grid_design O0 G0 (mkGrid BExclude false BOnly) 26 4 1 = Raise MemoryError.
Proof. exact c42_memory. Qed.
Print Assumptions C42_grid_memory_refuted.

(** ** C43 *)
Theorem C43_stratified : forall RNG (G : rng_ops R RNG), rng_ok Rops G ->
  forall S t c its d n g h g', lhs_valid t -> lhs_design Rops G S t c its d n g = (Ok h, g') ->
  forall j k, j < d -> k < n ->
    one_in_stretch h 0 n (fun row => exists v, nth_error row j = Some v /\ in_part (Z.of_nat n) (Z.of_nat k) v).
Proof. exact (@lhs_strata). Qed.
Print Assumptions C43_stratified.
Example C43_example : rng_ok Rops GR /\ lhs_valid LClassic /\ lhs_valid LCentered.
Proof. split; [exact GR_ok|]. split; discriminate. Qed.

(** ** C44 *)
Theorem C44_range : forall b n, (2 <= b)%Z -> (0 <= n)%Z -> exists x, vdc Rops b n = Ok x /\ (0 <= x < 1)%R.
Proof. exact vdc_range. Qed.
Print Assumptions C44_range.
Theorem C44_distinct : forall b m n x, (2 <= b)%Z -> (0 <= m)%Z -> (0 <= n)%Z ->
  vdc Rops b m = Ok x -> vdc Rops b n = Ok x -> m = n.
Proof. exact vdc_distinct. Qed.
Print Assumptions C44_distinct.
(** Any b^k consecutive indices, aligned or not. *)
Theorem C44_strata : forall b k s j, (2 <= b)%Z -> (0 <= s)%Z -> (0 <= j < b ^ Z.of_nat k)%Z ->
  exists! n, (s <= n < s + b ^ Z.of_nat k)%Z /\ exists x, vdc Rops b n = Ok x /\ in_part (b ^ Z.of_nat k) j x.
Proof. exact vdc_strata. Qed.
Print Assumptions C44_strata.

(** ** C45 *)
Theorem C45_first_primes : forall n given, match given with None => True | Some l => length l < n end ->
  exists ps, halton_primes given n = Ok ps /\ first_primes n ps.
Proof. exact c45_default. Qed.
Print Assumptions C45_first_primes.
Theorem C45_sieve : forall t, exists ps, create_primes t = Ok ps /\
  (forall n, In n ps <-> is_prime n /\ n <= t) /\ StronglySorted lt ps.
Proof. exact PrimeLemmas.create_primes_spec. Qed.
Print Assumptions C45_sieve.
Example C45_example : halton_primes None 10 = Ok [2; 3; 5; 7; 11; 13; 17; 19; 23; 29].
Proof. exact c45_sample. Qed.
(** More given primes than dimensions are rejected. *)
Example C45_longer_example : halton_primes (Some [2; 3; 5]) 2 = Raise AssertionError.
Proof. exact c45_longer. Qed.

(** ** C47, the default layouts *)
Theorem C47_grid_partial : forall RNG (G : rng_ops R RNG), rng_ok Rops G ->
  forall full d n g h, 2 <= d -> grid_fits (mkGrid BExclude full BOnly) d n ->
  grid_design Rops G (mkGrid BExclude full BOnly) d n g = Ok h ->
  let q := Z.max 1 (if full then Z.sqrt (Z.of_nat n) else Z.sqrt_up (Z.of_nat n)) in
  length h = n /\
  (forall row, In row h -> length row = d /\
     (Forall (fun v => exists z, (1 <= z <= q)%Z /\ v = (IZR z / IZR (q + 1))%R) row \/
      (q ^ Z.of_nat d < Z.of_nat n)%Z /\
      exists m, (1 <= m)%Z /\ Forall (fun v => exists z, (0 <= z <= m)%Z /\ v = (IZR z / IZR m)%R) row)) /\
  ((q ^ Z.of_nat d <= Z.of_nat n)%Z ->
     forall row, length row = d -> Forall (fun v => exists z, (1 <= z <= q)%Z /\ v = (IZR z / IZR (q + 1))%R) row -> In row h).
Proof. exact (@grid_origin). Qed.
Print Assumptions C47_grid_partial.
Theorem C47_no_repetition_partial : forall RNG (G : rng_ops R RNG), rng_ok Rops G ->
  forall full d n g h, 2 <= d -> grid_fits (mkGrid BExclude full BOnly) d n ->
  grid_design Rops G (mkGrid BExclude full BOnly) d n g = Ok h -> NoDup h.
Proof. exact (@grid_nodup). Qed.
Print Assumptions C47_no_repetition_partial.
Example C47_example : rng_ok Rops GR /\ grid_fits (mkGrid BExclude false BOnly) 4 20.
Proof. split; [exact GR_ok|]. exact (proj2 (proj2 (proj2 (proj2 (proj2 c42_sample))))). Qed.
(** With other borders points are repeated. *)
Theorem C47_borders_refuted : exists h r, grid_design O0 G0 (mkGrid BInclude true BInclude) 2 5 1 = Ok h /\ length h = 5 /\
  nth_error h 0 = Some r /\ nth_error h 4 = Some r.
Proof. exact c47_repeats. Qed.
Print Assumptions C47_borders_refuted.

(** ** C48, for every arithmetic, whenever points are returned *)
Theorem C48_halton : forall N RNG (O : numops N) (G : rng_ops N RNG) a dims n g dims' pts,
  Forall (wf_dim O) dims -> halton_generate O G a dims n g = (dims', Ok pts) -> dims' = dims.
Proof. exact (@c48_halton). Qed.
Print Assumptions C48_halton.
Theorem C48_hammersly : forall N RNG (O : numops N) (G : rng_ops N RNG) a dims n g dims' pts,
  Forall (wf_dim O) dims -> hammersly_generate O G a dims n g = (dims', Ok pts) -> dims' = dims.
Proof. exact (@c48_hammersly). Qed.
Print Assumptions C48_hammersly.
Theorem C48_lhs : forall N RNG (O : numops N) (G : rng_ops N RNG) S t c its dims n g dims' pts,
  Forall (wf_dim O) dims -> lhs_generate O G S t c its dims n g = (dims', Ok pts) -> dims' = dims.
Proof. exact (@c48_lhs). Qed.
Print Assumptions C48_lhs.
Theorem C48_grid : forall N RNG (O : numops N) (G : rng_ops N RNG) a dims n g dims' pts,
  Forall (wf_dim O) dims -> grid_generate O G a dims n g = (dims', Ok pts) -> dims' = dims.
Proof. exact (@c48_grid). Qed.
Print Assumptions C48_grid.
(** After an exception the dimension objects stay normalised. *)
Theorem C48_exception_refuted : exists dims' e,
  halton_generate O0 G0 (mkHalton 0 0 (Some [2; 3; 5])) [real1 KIdentity; int1 KIdentity] 3 1 = (dims', Raise e) /\
  get_kinds dims' = [KNormalize; KNormalize] /\ Forall (wf_dim O0) [real1 KIdentity; int1 KIdentity].
Proof. exact c48_exception. Qed.
Print Assumptions C48_exception_refuted.

(** ** C64 *)
Theorem C64_boxes : forall RNG (G : rng_ops R RNG), rng_ok Rops G ->
  forall a d n g, 0 < d -> match h_primes a with None => True | Some l => length l < d end -> skip_counts a ->
  exists ps h, first_primes d ps /\ fst (halton_design Rops G a d n g) = Ok h /\ length h = n /\
    forall ks js s, is_box ps ks js -> (Z.of_nat s + box_count ps ks <= Z.of_nat n)%Z ->
      one_in_stretch h s (Z.to_nat (box_count ps ks)) (in_box ps ks js).
Proof. exact (@c64_boxes). Qed.
Print Assumptions C64_boxes.
(** 2 * 3 boxes: halves in the first dimension, thirds in the second. *)
Example C64_example : is_box [2; 3] [1; 1] [1; 2]%Z /\ box_count [2; 3] [1; 1] = 6%Z /\ skip_counts hal.
Proof. split; [repeat split; now vm_compute|]. split; [reflexivity|]. left; split; reflexivity. Qed.

(** ** C65 *)
Theorem C65_maximin : forall N RNG (O : numops N), order_laws O -> forall (G : rng_ops N RNG) S t its d n g h g',
  n <> 1 -> (forall h x, st_min S h = Ok x -> nleb O (nofZ O 0) x = true) ->
  lhs_design O G S t CMaximin its d n g = (Ok h, g') ->
  exists first rest, plain_designs O G S t d n (Datatypes.S its) g = first :: rest /\ length rest = its /\
    In h (first :: rest) /\
    forall c x y, In c rest -> st_min S h = Ok x -> st_min S c = Ok y -> nleb O y x = true.
Proof. exact (@c65_maximin). Qed.
Print Assumptions C65_maximin.
Theorem C65_ratio : forall N RNG (O : numops N), order_laws O -> forall (G : rng_ops N RNG) S t its d n g h g',
  n <> 1 -> 0 < its -> (forall h x, st_ratio S h = Ok x -> nleb O x x = true) ->
  lhs_design O G S t CRatio its d n g = (Ok h, g') ->
  exists first rest, plain_designs O G S t d n (Datatypes.S its) g = first :: rest /\ length rest = its /\
    In h rest /\
    forall c x y, In c rest -> st_ratio S h = Ok x -> st_ratio S c = Ok y -> nleb O x y = true.
Proof. exact (@c65_ratio). Qed.
Print Assumptions C65_ratio.
