(** C99: continuing a minimisation from the result of an earlier one. *)
From Coq Require Import String List ZArith Bool Reals.
From Flocq Require Import IEEE754.BinarySingleNaN.
From Verif Require Import Base Num Values NumLaws Dimension Space Optimizer Samples SpaceProps2 Acquisition AcqSpec GaussLemmas SpaceSpec OptSpec OptSamples SamplerSamples
  GpWorld CampaignSpec CampaignCases Minimize MinSpec MinTotalSpec MinTotal MinInstances MinSamples ResumeSpec ResumeProps ResumeCases.
Import ListNotations.
Close Scope R_scope.
Open Scope list_scope.

(** Whatever number format, components and minimiser: the new result holds the old history followed by the new
    evaluations, and the objective is called n_calls times more (fewer only if a callback stops). *)
Theorem C99_continues : forall N RNG M (O : numops N) (G : rng_ops N RNG) (W : world N M) RNG' M' (r : result N RNG' M') m f a g t o' res,
  resumes r a -> minimize O G W m f a g = (t, o', Ok res) ->
  exists r' E, res = Some r' /\ evaluated O false f 0 E /\ map fst E = evals t /\
    res_x_iters r' = res_x_iters r ++ map (fun e => X1 (fst e)) E /\
    res_func_vals r' = res_func_vals r ++ map (fun e => y_obj (snd e)) E /\
    (Z.of_nat (length E) <= Z.max (m_ncalls a) 0)%Z /\
    (never_stops (callbacks_of a) -> Z.of_nat (length E) = Z.max (m_ncalls a) 0).
Proof. exact @c99_continues. Qed.
Print Assumptions C99_continues.

(** The best value reported never gets worse. *)
Theorem C99_no_worse : forall N RNG M (O : numops N) (G : rng_ops N RNG) (W : world N M) RNG' M' (G' : rng_ops N RNG') (W' : world N M'), order_laws O ->
  forall m f a g t o r m' f' a' g' t' o' r', minimize O G W m f a g = (t, Some o, Ok (Some r)) -> resumes r a' ->
  minimize O G' W' m' f' a' g' = (t', Some o', Ok (Some r')) -> no_nan O (res_func_vals r') -> nleb O (res_fun r') (res_fun r) = true.
Proof. exact @c99_no_worse. Qed.
Print Assumptions C99_no_worse.

(** Over the reals, after a documented minimisation ([orderly], [up_to_it]: MinTotalSpec.v): a documented call over the same
    space, with x0 and y0 replaced by the history so far, succeeds, unless its acquisition function wants times. *)
Theorem C99_succeeds : forall RNG M (G : rng_ops R RNG) (W : world R M) RNG' M' (G' : rng_ops R RNG') (W' : world R M'), rng_ok Rops G -> rng_ok Rops G' ->
  forall m f (a : margs R RNG M) g x0 acq t o r, m <> MDummy -> orderly m f a x0 acq -> up_to_it W anything m (m_opt a) acq ->
    minimize Rops G W m f a g = (t, Some o, Ok (Some r)) ->
  forall m' f' (a' a1 : margs R RNG' M') g' x1 acq', m' <> MDummy -> orderly m' f' a1 x1 acq' -> up_to_it W' anything m' (m_opt a1) acq' ->
    is_ps acq' = false -> a_dims (m_opt a1) = a_dims (m_opt a) ->
    resumes r a' -> same_but_start a1 a' -> (0 <= n_initial a')%Z -> (n_initial a' <= m_ncalls a')%Z ->
  exists t' o' r', minimize Rops G' W' m' f' a' g' = (t', Some o', Ok (Some r')) /\
    (never_stops (callbacks_of a') -> Z.of_nat (length (evals t')) = m_ncalls a').
Proof. exact @c99_succeeds. Qed.
Print Assumptions C99_succeeds.

(** With a per-second acquisition function this way of continuing fails: func_vals holds no times. A minimisation that
    succeeds, and the same call continued from its result, which raises before it evaluates anything. *)
Theorem C99_per_second_refuted : exists (f : objective float) (a : margs float nat nat) t o r a' t' o' x,
  a_acq (m_opt a) = "EIps"%string /\ minimize O1 G0 W0 MBase f a 7 = (t, Some o, Ok (Some r)) /\ resumes r a' /\ same_but_start a a' /\
  minimize O1 G0 W0 MBase f a' 7 = (t', o', Raise x) /\ evals t' = [].
Proof. exact per_second_refuted. Qed.
Print Assumptions C99_per_second_refuted.

(** Five calls of base_minimize with two given points, then four of gp_minimize from its result, in float64. *)
Example C99_case : exists t o r t' o' r', let a := margs0 5 2 pts0 Y0None CBNone in let a' := margs0 4 2 X0None Y0None CBNone in
  minimize O0 G0 W0 MBase fm a 7 = (t, Some o, Ok (Some r)) /\ resumes r (resumed r a') /\
  minimize O0 G0 W0 (MGp true) fm (resumed r a') 8 = (t', Some o', Ok (Some r')) /\
  length (evals t) = 5 /\ length (evals t') = 4 /\ length (res_func_vals r') = 9.
Proof. exact continues_case. Qed.
(** gp_minimize, then gp_minimize again, over the reals with the Gaussian process surrogate of C91. *)
Example C99_case_gp : forall s acq s' acq' (gen gen' : bool), acq_of s = Some acq -> acq_of s' = Some acq' -> is_ps acq' = false ->
  exists t o r t' o' r', minimize Rops GR (WG Phi phi) (MGp false) (fR acq) (argsM gp_est s gen Y0None) 0%nat = (t, Some o, Ok (Some r)) /\
    minimize Rops GR (WG Phi phi) (MGp true) (fR acq') (resumed r (argsM (M := surrogate) gp_est s' gen' Y0None)) 0%nat = (t', Some o', Ok (Some r')).
Proof. exact succeeds_case. Qed.
