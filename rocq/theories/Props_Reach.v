(** C66: what a Space can draw. *)
From Coq Require Import String List ZArith Bool Reals.
From Verif Require Import Base Num Values Dimension Space NumLaws SpaceSpec ReachSpec ReachLemmas.
Import ListNotations.
Open Scope R_scope.

(** Every point of the space (Real coordinates below the upper bound, categories of positive probability) is drawn by
    some outcome of the random generator. *)
Theorem C66_drawn : forall dims p, dims <> [] -> Forall2 drawable dims p ->
  exists RNG (G : rng_ops R RNG) g, rng_ok Rops G /\ fst (space_rvs Rops G dims 1 g) = Ok [p].
Proof. exact c66. Qed.
Print Assumptions C66_drawn.
Example C66_case : case_dims <> [] /\ Forall2 drawable case_dims [VFloat 10; VInt 2; VStr "c"%string].
Proof. split; [discriminate|exact case_ok]. Qed.

(** Not all equally often: with transform="normalize" an Integer with a uniform prior gives its lower bound only for an
    interval of the generator's numbers of length 1/(2w), [w] = high - low, *)
Theorem C66_low_bound : forall RNG (G : rng_ops R RNG) g g' i u, rg_random G g = (u, g') ->
  wf_int i -> i_kind i = KNormalize -> i_prior i = PUniform -> 0 <= u < 1 ->
  fst (dim_rvs Rops G (DInt i) 1 g) = Ok [VInt (i_low i)] -> u <= / 2 / IZR (i_high i - i_low i).
Proof. exact c66_low. Qed.
Print Assumptions C66_low_bound.
(** and each value strictly between the bounds for an interval of length 1/w. *)
Theorem C66_inner_value : forall RNG (G : rng_ops R RNG) g g' i u z, rg_random G g = (u, g') ->
  wf_int i -> i_kind i = KNormalize -> i_prior i = PUniform -> (i_low i < z < i_high i)%Z ->
  (IZR (z - i_low i) - / 2) / IZR (i_high i - i_low i) < u < (IZR (z - i_low i) + / 2) / IZR (i_high i - i_low i) ->
  fst (dim_rvs Rops G (DInt i) 1 g) = Ok [VInt z].
Proof. exact c66_inner. Qed.
Print Assumptions C66_inner_value.
Example C66_inner_case : wf_int case_int /\ i_kind case_int = KNormalize /\ i_prior case_int = PUniform /\ (i_low case_int < 1 < i_high case_int)%Z.
Proof. split; [exact case_int_ok|]. cbn. repeat split. Qed.
