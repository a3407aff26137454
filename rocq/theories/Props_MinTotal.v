(** C91: the minimisers, called as documented, succeed, over the reals. *)
From Coq Require Import String List ZArith Bool Reals.
From Verif Require Import Base Num Values Dimension Space Optimizer Acquisition AcqSpec GaussLemmas SpaceSpec OptSpec OptSamples SamplerSamples
  Kernels KernelPsdSpec Gpr GprSpec Cholesky Forest ForestSpec Gbrt GbrtLemmas GpWorld CampaignSpec CampaignCases TreeWorld TreeCases
  Minimize MinSpec MinTotalSpec MinTotal MinInstances.
Import ListNotations.
Open Scope R_scope.
Open Scope list_scope.

(** base_minimize and its wrappers with a surrogate: called as documented ([orderly]), with components that do their job
    ([up_to_it]; both in MinTotalSpec.v), they return a result, after exactly n_calls evaluations unless a callback stops. *)
Theorem C91 : forall RNG M (G : rng_ops R RNG) (W : world R M), rng_ok Rops G ->
  forall m f a g x0 acq, m <> MDummy -> orderly m f a x0 acq -> up_to_it W anything m (m_opt a) acq ->
  exists t o r, minimize Rops G W m f a g = (t, Some o, Ok (Some r)) /\
    (never_stops (callbacks_of a) -> Z.of_nat (length (evals t)) = m_ncalls a).
Proof. exact @c91. Qed.
Print Assumptions C91.

(** gp_minimize: alpha is positive, the kernel makes sense and the observations are not normalised. *)
Theorem C91_gp : forall cdf pdf xi kappa argsort generate logmax tune e0 lbfgs,
  let W := gp_world tune cho_inv cho_weights cdf pdf e0 xi kappa argsort lbfgs generate logmax in
  forall RNG (G : rng_ops R RNG), rng_ok Rops G ->
  forall own f a g x0 acq d, orderly (MGp own) f a x0 acq ->
  set_kinds_all KNormalize (a_dims (m_opt a)) = Ok d -> Forall workable d ->
  (forall k X y, valid k (t_n_dims d) -> valid (tune k X y) (t_n_dims d)) -> valid (user_kernel e0) (t_n_dims d) ->
  match e_noise e0 with NoiseOther => False | NoiseLevel v => 0 <= v | _ => True end -> 0 < e_alpha e0 -> e_normalize e0 = false ->
  (a_acqopt (m_opt a) = "auto"%string -> forall m q yopt r, In q (cand_acqs acq) -> within (O := Rops) (space_tbounds Rops d) r ->
     exists r' v, lbfgs q m yopt (space_tbounds Rops d) r = Ok (r', v) /\ within (O := Rops) (space_tbounds Rops d) r') ->
  argsort_ok Rops W ->
  (forall n seed, (0 <= n)%Z -> exists l, generate d n seed = Ok l /\ length l = Z.to_nat n /\ Forall (in_space Rops d) l) ->
  exists t o r, minimize Rops G W (MGp own) f a g = (t, Some o, Ok (Some r)) /\
    (never_stops (callbacks_of a) -> Z.of_nat (length (evals t)) = m_ncalls a).
Proof. exact c91_gp. Qed.
Print Assumptions C91_gp.

(** forest_minimize with a forest whose criterion is "mse" *)
Theorem C91_forest : forall cdf pdf xi kappa argsort generate logmax grow criterion minvar,
  let W := tree_world (forest_reg grow criterion minvar) cdf pdf xi kappa argsort generate logmax in
  forall RNG (G : rng_ops R RNG), rng_ok Rops G ->
  forall f a g x0 acq, orderly MForest f a x0 acq -> ~ scales (m_opt a) -> Forall workable (a_dims (m_opt a)) ->
  criterion = "mse"%string -> (forall X y, X <> [] -> length X = length y -> grow X y <> []) ->
  (forall X y x, Forall (sound_tree x) (grow X y)) -> argsort_ok Rops W ->
  (forall n seed, (0 <= n)%Z -> exists l, generate (a_dims (m_opt a)) n seed = Ok l /\ length l = Z.to_nat n /\ Forall (in_space Rops (a_dims (m_opt a))) l) ->
  exists t o r, minimize Rops G W MForest f a g = (t, Some o, Ok (Some r)) /\
    (never_stops (callbacks_of a) -> Z.of_nat (length (evals t)) = m_ncalls a).
Proof. exact c91_forest. Qed.
Print Assumptions C91_forest.

(** gbrt_minimize with quantile regressors for 0.16, 0.5 and 0.84 *)
Theorem C91_gbrt : forall cdf pdf xi kappa argsort generate logmax S gb_fit e0 (rng : S),
  let W := tree_world (gbrt_reg gb_fit e0 rng) cdf pdf xi kappa argsort generate logmax in
  forall RNG (G : rng_ops R RNG), rng_ok Rops G ->
  forall f a g x0 acq, orderly MGbrt f a x0 acq -> ~ scales (m_opt a) -> Forall workable (a_dims (m_opt a)) ->
  match q_base e0 with GBNone => True | GBRegressor loss => loss = "quantile"%string | GBOther => False end ->
  In (16 / 100) (q_quantiles e0) -> In (/ 2) (q_quantiles e0) -> In (84 / 100) (q_quantiles e0) ->
  (forall q X y rows, X <> [] -> length X = length y -> exists p, gb_fit q rng (X, y) rows = Ok p /\ length p = length rows) ->
  argsort_ok Rops W ->
  (forall n seed, (0 <= n)%Z -> exists l, generate (a_dims (m_opt a)) n seed = Ok l /\ length l = Z.to_nat n /\ Forall (in_space Rops (a_dims (m_opt a))) l) ->
  exists t o r, minimize Rops G W MGbrt f a g = (t, Some o, Ok (Some r)) /\
    (never_stops (callbacks_of a) -> Z.of_nat (length (evals t)) = m_ncalls a).
Proof. exact c91_boosted. Qed.
Print Assumptions C91_gbrt.

(** Two points are given, with values or without; there is a callback that may stop, and verbose=True; any acquisition
    function. *)
Example C91_orderly_case : forall M m e s acq (gen : bool), m <> MDummy -> ed_regressor e = true -> acq_of s = Some acq ->
  orderly m (fR acq) (argsM (M := M) e s gen Y0None) [pR1; pR2] acq /\
  orderly m (fR acq) (argsM (M := M) e s gen (Y0Seq [yR acq; yR acq])) [pR1; pR2] acq.
Proof. exact @orderly_case. Qed.
Example C91_case : forall s acq (gen : bool), acq_of s = Some acq ->
  (exists t o r, minimize Rops GR (WG Phi phi) (MGp false) (fR acq) (argsM gp_est s gen Y0None) 0%nat = (t, Some o, Ok (Some r))) /\
  (exists t o r, minimize Rops GR (WF Phi phi) MForest (fR acq) (argsM tree_est s gen Y0None) 0%nat = (t, Some o, Ok (Some r))) /\
  (exists t o r, minimize Rops GR (WB Phi phi) MGbrt (fR acq) (argsM tree_est s gen (Y0Seq [yR acq; yR acq])) 0%nat = (t, Some o, Ok (Some r))).
Proof. exact c91_case. Qed.
