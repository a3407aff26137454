(** The initial point generators in float64 arithmetic (C42), and optimizers that use them (C93). [samplable] and [in_space] are
    in SpaceSpec.v, [bases_ok] and [skips_ok] in DesignLemmas.v, [in_reach] and [stats_okF] in FloatDesign.v, [suited], [uses] and
    [asked] in GeneratorLemmas.v, [generate] and [designer_of] in Generators.v, [spelled] and [generator_words] in CookSpec.v. *)
From Coq Require Import String List ZArith Bool Reals.
From Flocq Require Import IEEE754.BinarySingleNaN.
From Verif Require Import Base Num NumLaws Values Dimension Space SpaceSpec Samples SpaceProps2 Sampler SamplerSpec
  HaltonLemmas DesignLemmas GridLemmas SamplerSamples Sobol SobolState SobolProps Cook CookSpec Optimizer OptSpec OptSamples
  Minimize MinSpec MinLemmas MinDummy MinSamples Generators FloatDesign FloatSobol GeneratorLemmas GeneratorCases.
Import ListNotations.
Open Scope nat_scope.
Open Scope list_scope.

(** ** C42 in float64: n_samples points of the space, whatever the rounding *)
(** The indices times the base stay below 2^45. *)
Theorem C42_halton_float : forall L, pow_ok L -> forall RNG (G : rng_ops float RNG), rng_ok (F64 L) G ->
  forall a dims n g, dims <> [] -> Forall (samplable L) dims -> bases_ok a (length dims) -> skips_ok a -> in_reach a (length dims) n ->
  exists pts, halton_generate (F64 L) G a dims n g = (dims, Ok pts) /\ length pts = n /\ Forall (in_space (F64 L) dims) pts.
Proof. exact (@halton_float). Qed.
Print Assumptions C42_halton_float.
Theorem C42_hammersly_float : forall L, pow_ok L -> forall RNG (G : rng_ops float RNG), rng_ok (F64 L) G ->
  forall a dims n g, dims <> [] -> Forall (samplable L) dims ->
  let d := if Nat.eqb (length dims) 1 then 1 else length dims - 1 in
  bases_ok a d -> skips_ok a -> in_reach a d n ->
  exists pts, hammersly_generate (F64 L) G a dims n g = (dims, Ok pts) /\ length pts = n /\ Forall (in_space (F64 L) dims) pts.
Proof. exact (@hammersly_float). Qed.
Print Assumptions C42_hammersly_float.
(** Up to a hundred dimensions and 2^35 points the indices are small enough for the default bases. *)
Theorem C42_reach : forall d n, d <= 100 -> (Z.of_nat n <= 2 ^ 35)%Z -> in_reach hal d n.
Proof. exact small_reach. Qed.
Print Assumptions C42_reach.
Theorem C42_lhs_float : forall L, pow_ok L -> forall RNG (G : rng_ops float RNG), rng_ok (F64 L) G ->
  forall S t c its dims n g, dims <> [] -> Forall (samplable L) dims -> t <> LOtherType -> (Z.of_nat n <= 2 ^ 45)%Z ->
  c = CNone \/ n = 1 \/ stats_okF n S /\ c <> COther ->
  exists pts, lhs_generate (F64 L) G S t c its dims n g = (dims, Ok pts) /\ length pts = n /\ Forall (in_space (F64 L) dims) pts.
Proof. exact (@lhs_float). Qed.
Print Assumptions C42_lhs_float.
(** Two or more dimensions, as in C42_grid_partial *)
Theorem C42_grid_float_partial : forall L, pow_ok L -> forall RNG (G : rng_ops float RNG), rng_ok (F64 L) G ->
  forall a dims n g, 2 <= length dims -> Forall (samplable L) dims ->
  valid_border (gr_border a) -> valid_border (gr_append a) -> grid_fits a (length dims) n ->
  exists pts, grid_generate (F64 L) G a dims n g = (dims, Ok pts) /\ length pts = n /\ Forall (in_space (F64 L) dims) pts.
Proof. exact (@grid_float). Qed.
Print Assumptions C42_grid_float_partial.
Theorem C42_sobol_float : forall L, pow_ok L -> forall RNG (G : rng_ops float RNG), rng_ok (F64 L) G ->
  forall skip rand s total dims n g, sobol_history (F64 L) G skip rand s total -> 1 <= length dims <= 40 -> Forall (samplable L) dims ->
  (skip + Z.of_nat n < 2 ^ 30)%Z -> room skip total n ->
  exists s' pts, sobol_generate (F64 L) G s dims n g = (s', (dims, Ok pts)) /\ length pts = n /\ Forall (in_space (F64 L) dims) pts.
Proof. exact (@sobol_float). Qed.
Print Assumptions C42_sobol_float.
Example C42_float_case : rng_ok O0 G0 /\ pow_ok L0 /\ space4 <> [] /\ Forall (samplable L0) space4 /\
  bases_ok hal (length space4) /\ bases_ok hal 3 /\ skips_ok hal /\ in_reach hal (length space4) 1000 /\ in_reach hal 3 1000 /\
  stats_okF 10 flat_stats /\ grid_fits exclude (length space4) 20.
Proof. exact float_case. Qed.

(** ** C93 *)
(** Each documented name, in any capitalisation, is a generator that gives n points of any space of samplable dimensions. *)
Theorem C93_named_points : forall L, pow_ok L -> forall RNG (G : rng_ops float RNG), rng_ok (F64 L) G ->
  forall S w c s, In (w, c) generator_words -> spelled s w ->
  exists gen k, cook_generator (GArgName s) [] = Ok (Some gen) /\ designer_of gen = Some k /\
  forall dims n seed, dims <> [] -> Forall (samplable L) dims -> asked S c (length dims) n ->
  exists pts, generate (F64 L) G S k dims n seed = Ok pts /\ length pts = Z.to_nat n /\ Forall (in_space (F64 L) dims) pts.
Proof. exact (@named_points). Qed.
Print Assumptions C93_named_points.
(** The suggestions of an optimizer that uses it are points of its space: nothing is assumed of the generator any more. *)
Theorem C93_named_suggestions : forall L, pow_ok L -> forall RNG (G : rng_ops float RNG), rng_ok (F64 L) G ->
  forall S w c s, In (w, c) generator_words -> spelled s w ->
  exists gen k, cook_generator (GArgName s) [] = Ok (Some gen) /\ designer_of gen = Some k /\
  forall M (W : world float M) o n strategy o' a, uses L G S W k -> reachable (F64 L) G W o ->
  c_dims (o_cfg o) <> [] -> Forall (samplable L) (c_dims (o_cfg o)) -> asked S c (length (c_dims (o_cfg o))) (c_n0 (o_cfg o)) ->
  ask (F64 L) G W n strategy o = (o', Ok a) ->
  match a with
  | A1pt p => member (F64 L) (c_dims (o_cfg o)) p
  | Apts l => Forall (member (F64 L) (c_dims (o_cfg o))) l
  end.
Proof. exact (@named_suggestions). Qed.
Print Assumptions C93_named_suggestions.
(** dummy_minimize succeeds with it. *)
Theorem C93_named_dummy : forall L, pow_ok L -> forall RNG (G : rng_ops float RNG), rng_ok (F64 L) G ->
  forall S w c s, In (w, c) generator_words -> spelled s w ->
  exists gen k, cook_generator (GArgName s) [] = Ok (Some gen) /\ designer_of gen = Some k /\
  forall M (W : world float M) f a g x0, uses L G S W k ->
  a_dims (m_opt a) <> [] -> Forall (samplable L) (a_dims (m_opt a)) ->
  (forall n, (1 <= n <= m_ncalls a + Z.of_nat (length x0))%Z -> asked S c (length (a_dims (m_opt a))) n) ->
  good_input (F64 L) (a_dims (m_opt a)) (m_x0 a) (m_y0 a) x0 -> (0 <= m_ncalls a)%Z -> (x0 = [] -> (0 < m_ncalls a)%Z) ->
  (m_y0 a = Y0None -> (Z.of_nat (length x0) <= m_ncalls a)%Z) ->
  numeric (F64 L) f (a_dims (m_opt a)) -> answers (callbacks_of a) -> match m_callback a with CBOther => False | _ => True end ->
  exists t o r, dummy_minimize (F64 L) G W f a g = (t, Some o, Ok (Some r)).
Proof. exact (@named_dummy). Qed.
Print Assumptions C93_named_dummy.
(** Generator objects with other arguments *)
Theorem C93_given_points : forall L, pow_ok L -> forall RNG (G : rng_ops float RNG), rng_ok (F64 L) G ->
  forall S k dims n seed, dims <> [] -> Forall (samplable L) dims -> suited L G S k (length dims) n ->
  exists pts, generate (F64 L) G S k dims n seed = Ok pts /\ length pts = Z.to_nat n /\ Forall (in_space (F64 L) dims) pts.
Proof. exact (@generate_float). Qed.
Print Assumptions C93_given_points.
Example C93_case : (asked flat_stats GSobol 2 4 /\ asked flat_stats GHalton 2 4 /\ asked flat_stats GHammersly 2 4 /\
    asked flat_stats GLhs 2 4 /\ asked flat_stats GGrid 2 4) /\
  (forall k, uses L0 G0 flat_stats (WN k) k) /\ forallb (fun w => starts (fst w)) words = true.
Proof. exact (conj asked_case (conj WN_uses named_case)). Qed.
