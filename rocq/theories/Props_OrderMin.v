(** C102 for the minimisers: the order of x0 and y0 does not matter, over the reals. *)
From Coq Require Import String List ZArith Bool Reals Permutation.
From Verif Require Import Base Num NumLaws Values Dimension Space Optimizer GaussLemmas SpaceSpec OptSpec OptSamples SamplerSamples Kernels KernelPsdSpec Gpr GprSpec Cholesky
  GpWorld CampaignSpec CampaignCases Minimize MinSpec MinTotalSpec MinInstances OrderSpec OrderMinSpec OrderMin OrderMinCases.
Import ListNotations.
Close Scope R_scope.
Open Scope list_scope.

(** gp_minimize, called as documented ([orderly]: MinTotalSpec.v) with points and their values, and again with these in
    another order ([restarted]: OrderMinSpec.v): it evaluates the same points in the same order, and reports the same
    observations and the same least value. Callbacks do not stop it; the hyper-parameters do not depend on the order. *)
Theorem C102_gp_minimize : forall tune cdf pdf e0 xi kappa argsort lbfgs generate logmax,
  let W := gp_world tune cho_inv cho_weights cdf pdf e0 xi kappa argsort lbfgs generate logmax in
  forall RNG (G : rng_ops R RNG), rng_ok Rops G ->
  forall own f a a' g x0 ys x0' ys' acq d, orderly (MGp own) f a x0 acq -> restarted a a' x0 ys x0' ys' -> never_stops (callbacks_of a) ->
  set_kinds_all KNormalize (a_dims (m_opt a)) = Ok d -> Forall workable d ->
  (forall k X y, valid k (t_n_dims d) -> valid (tune k X y) (t_n_dims d)) ->
  (forall k X y X' y', length X = length y -> length X' = length y' -> Permutation (combine X y) (combine X' y') -> tune k X y = tune k X' y') ->
  valid (user_kernel e0) (t_n_dims d) ->
  match e_noise e0 with NoiseOther => False | NoiseLevel v => (0 <= v)%R | _ => True end -> (0 < e_alpha e0)%R -> e_normalize e0 = false ->
  (a_acqopt (m_opt a) = "auto"%string -> forall m q yopt r, In q (cand_acqs acq) -> within (O := Rops) (space_tbounds Rops d) r ->
     exists r' v, lbfgs q m yopt (space_tbounds Rops d) r = Ok (r', v) /\ within (O := Rops) (space_tbounds Rops d) r') ->
  (forall a m m' y b r, same_surrogate m m' -> lbfgs a m y b r = lbfgs a m' y b r) ->
  argsort_ok Rops W ->
  (forall n seed, (0 <= n)%Z -> exists l, generate d n seed = Ok l /\ length l = Z.to_nat n /\ Forall (in_space Rops d) l) ->
  exists t o r t' o' r', minimize Rops G W (MGp own) f a g = (t, Some o, Ok (Some r)) /\ minimize Rops G W (MGp own) f a' g = (t', Some o', Ok (Some r')) /\
    evals t' = evals t /\ same_but_order r r'.
Proof. exact (fun tune cdf pdf e0 xi kappa argsort lbfgs generate logmax RNG G => @c102_gp_min tune cdf pdf e0 xi kappa argsort lbfgs generate logmax RNG G). Qed.
Print Assumptions C102_gp_minimize.

(** The same for base_minimize and its wrappers with components that do their job ([up_to_it]) and any surrogate for which the
    order of its rows does not matter. *)
Theorem C102_minimize_any : forall RNG M (G : rng_ops R RNG) (W : world R M), rng_ok Rops G -> forall alike m f a a' g x0 ys x0' ys' acq,
  m <> MDummy -> orderly m f a x0 acq -> up_to_it W anything m (m_opt a) acq -> (forall d, used m (m_opt a) d -> order_free W d alike) ->
  restarted a a' x0 ys x0' ys' -> never_stops (callbacks_of a) ->
  exists t o r t' o' r', minimize Rops G W m f a g = (t, Some o, Ok (Some r)) /\ minimize Rops G W m f a' g = (t', Some o', Ok (Some r')) /\
    evals t' = evals t /\ same_but_order r r'.
Proof. exact (fun RNG M G W => @c102_min RNG M G W). Qed.
Print Assumptions C102_minimize_any.

(** Two points with values 4 and 7, gp_hedge, seven evaluations *)
Example C102_minimize_case : let a := argsO [pR1; pR2] [YNum 4; YNum 7]%R in let a' := argsO [pR2; pR1] [YNum 7; YNum 4]%R in
  orderly (MGp false) (fR AHedge) a [pR1; pR2] AHedge /\ restarted a a' [pR1; pR2] [YNum 4; YNum 7]%R [pR2; pR1] [YNum 7; YNum 4]%R /\ never_stops (callbacks_of a) /\
  up_to_it (WG Phi phi) anything (MGp false) (m_opt a) AHedge /\ (forall d, used (MGp false) (m_opt a) d -> order_free (WG Phi phi) d same_surrogate) /\
  exists t o r t' o' r', minimize Rops GR (WG Phi phi) (MGp false) (fR AHedge) a 0 = (t, Some o, Ok (Some r)) /\
    minimize Rops GR (WG Phi phi) (MGp false) (fR AHedge) a' 0 = (t', Some o', Ok (Some r')) /\ evals t' = evals t /\ length (evals t) = 7 /\ same_but_order r r'.
Proof. exact c102_min_case. Qed.
