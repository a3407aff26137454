(** C60: the expected minimum. *)
From Coq Require Import String List ZArith Bool Reals.
From Verif Require Import Base Num Values Transformers Dimension Space NumLaws SpaceSpec Optimizer OptSpec Samples SpaceProps2
  Expected ExpectedSpec ExpectedLemmas ExpectedCases.
Import ListNotations.

(** expected_minimum_random_sampling returns a sampled point of the space with its prediction, the least of all. *)
Theorem C60_random_sampling : forall L RNG (G : rng_ops float RNG) predict dims n g x v,
  rng_ok (F64 L) G -> pow_ok L -> dims <> [] -> Forall (samplable L) dims ->
  (forall Xt y, predict Xt = Ok y -> length y = length Xt /\ no_nan (F64 L) y) ->
  expected_minimum_random_sampling (F64 L) G predict dims n g = Ok (x, v) ->
  exists P g' Xt y k, space_rvs (F64 L) G dims n g = (Ok P, g') /\ length P = n /\
    space_transform (F64 L) dims P = Ok Xt /\ predict Xt = Ok y /\
    nth_error P k = Some x /\ in_space (F64 L) dims x /\ nth_error y k = Some v /\ forall w, In w y -> fleb v w = true.
Proof. exact c60_random. Qed.
Print Assumptions C60_random_sampling.
Example C60_random_case : rng_ok O0 G0 /\ pow_ok L0 /\ space5 <> [] /\ Forall (samplable L0) space5 /\
  (forall Xt y, pred0 Xt = Ok y -> length y = length Xt /\ no_nan O0 y) /\
  exists x v, expected_minimum_random_sampling O0 G0 pred0 space5 3%nat 1%nat = Ok (x, v) /\
    map view x = [VFloat (SpecFloat.S754_finite true 5629499534213120 (-50)); VInt 5; VStr "c"]%string.
Proof. exact c60_random_case. Qed.

(** expected_minimum, for spaces of Real dimensions and a minimiser that stays between the bounds and never ends above
    its start: a point of the space, with its prediction, no larger than at any start. Missing: Integer dimensions, for
    which the first part fails (below); the minimiser's contract is assumed. *)
Theorem C60_expected_partial : forall L RNG (G : rng_ops float RNG) predict sp dims x n g p v, real_only dims ->
  descends (F64 L) (surface (F64 L) predict dims) (space_bounds (F64 L) dims) sp ->
  expected_minimum (F64 L) G predict f64_below sp dims x n g = Ok (p, v) ->
  exists starts xs, (if (0 <? n)%Z then fst (space_rvs (F64 L) G dims (Z.to_nat n) g) = Ok starts else starts = []) /\
    p = map (@VFloat float) xs /\ in_space (F64 L) dims p /\ surface (F64 L) predict dims xs = Ok v /\
    forall x0 ys v0, In x0 (x :: starts) -> nums (F64 L) x0 = Ok ys -> surface (F64 L) predict dims ys = Ok v0 -> fleb v v0 = true.
Proof. exact c60_real. Qed.
Print Assumptions C60_expected_partial.
Example C60_expected_case : real_only space6 /\ descends O0 (surface O0 pred0 space6) (space_bounds O0 space6) (stay O0) /\
  exists p v, expected_minimum O0 G0 pred0 f64_below (stay O0) space6 [VFloat fhalf; VFloat fhalf] 2%Z 0%nat = Ok (p, v).
Proof. exact c60_real_case. Qed.

(** With an Integer dimension the point returned need not be one of the space: for a model with prediction (x - 1/2)^2
    it is 1/2. *)
Theorem C60_integer_refuted : exists p v, descends Rops (surface Rops parabola ints3) (space_bounds Rops ints3) centre /\
  (forall RNG (G : rng_ops R RNG) g x, expected_minimum Rops G parabola (fun _ => true) centre ints3 x 0%Z g = Ok (p, v)) /\
  surface Rops parabola ints3 [(/ 2)%R] = Ok v /\ ~ in_space Rops ints3 p.
Proof. exact c60_integer. Qed.
Print Assumptions C60_integer_refuted.
