(** C92: with a surrogate that needs observations that differ (normalize_y=True, the default of gp_minimize and of
    base_estimator "GP"), over the reals. *)
From Coq Require Import String List ZArith Bool Reals.
From Verif Require Import Base Num Values Dimension Space Optimizer Acquisition AcqSpec GaussLemmas SpaceSpec OptSpec OptSamples SamplerSamples
  Kernels KernelPsdSpec Gpr GprSpec Cholesky GpWorld CampaignSpec Campaign GpDependable CampaignCases Minimize MinSpec MinTotalSpec MinTotal MinInstances Normalised.
Import ListNotations.
Open Scope R_scope.
Open Scope list_scope.

(** Let [need] be what the surrogate needs of the observations, kept when more are added. In a campaign of calls made as
    documented, every further such call is answered, or the observations, which are never lost, are not as needed. *)
Theorem C92 : forall RNG M (G : rng_ops R RNG) (W : world R M) (need : list (yval R) -> Prop), rng_ok Rops G ->
  (forall l l', need l -> need (l ++ l')) ->
  forall o c, campaign G W need o -> fine o c -> exists o' r, do_call Rops G W c o = (o', r) /\ (exists l, o_yi o' = o_yi o ++ l) /\
    match r with
    | Ok a => answered o c a /\ (open o \/ (exists x y, c = CTell x y true) -> (forall x y, c <> CTell x y false) -> open o')
    | Raise _ => ~ need (o_yi o')
    end.
Proof. exact @c92. Qed.
Print Assumptions C92.
Theorem C92_copy : forall RNG M (G : rng_ops R RNG) (W : world R M) (need : list (yval R) -> Prop), rng_ok Rops G ->
  (forall l l', need l -> need (l ++ l')) ->
  forall o g, campaign G W need o -> exists g' r, copy Rops G W o g = (g', r) /\
    match r with Ok o' => o_yi o' = o_yi o /\ (open o -> open o') | Raise _ => ~ need (o_yi o) end.
Proof. exact @c92_copy. Qed.
Print Assumptions C92_copy.

(** A Gaussian process regressor, whether it normalises the observations or not, needs no more than two different values,
    and two different times with a per-second acquisition function. *)
Theorem C92_gaussian_process : forall tune cdf pdf e0 xi kappa argsort lbfgs generate logmax dims acq lb,
  let W := gp_world tune cho_inv cho_weights cdf pdf e0 xi kappa argsort lbfgs generate logmax in
  let d := t_n_dims dims in
  (forall k X y, valid k d -> valid (tune k X y) d) -> valid (user_kernel e0) d ->
  match e_noise e0 with NoiseOther => False | NoiseLevel v => 0 <= v | _ => True end -> 0 < e_alpha e0 ->
  (lb = true -> forall m a yopt r, In a (cand_acqs acq) -> within (O := Rops) (space_tbounds Rops dims) r ->
     exists r' v, lbfgs a m yopt (space_tbounds Rops dims) r = Ok (r', v) /\ within (O := Rops) (space_tbounds Rops dims) r') ->
  argsort_ok Rops W ->
  (forall n seed, (0 <= n)%Z -> exists l, generate dims n seed = Ok l /\ length l = Z.to_nat n /\ Forall (in_space Rops dims) l) ->
  dependable W (varied (is_ps acq)) dims acq lb.
Proof. exact gp_dependable_varied. Qed.
Print Assumptions C92_gaussian_process.
Theorem C92_kept : forall ps l l', varied ps l -> varied ps (l ++ l').
Proof. exact varied_mono. Qed.
Print Assumptions C92_kept.

(** The minimisers: a result, after n_calls evaluations unless a callback stops, or the observations are not as needed;
    these begin with the values given as y0. *)
Theorem C92_minimize : forall RNG M (G : rng_ops R RNG) (W : world R M) (need : list (yval R) -> Prop), rng_ok Rops G ->
  forall m f a g x0 acq, m <> MDummy -> orderly m f a x0 acq -> up_to_it W need m (m_opt a) acq ->
  exists t o r, minimize Rops G W m f a g = (t, Some o, r) /\ match r with
    | Ok r => r <> None /\ (never_stops (callbacks_of a) -> Z.of_nat (length (evals t)) = m_ncalls a)
    | Raise _ => ~ need (o_yi o) /\
        forall ys, values_of (m_y0 a) = Some ys -> exists vs l, Forall2 (observation Rops (is_ps acq)) ys vs /\ o_yi o = vs ++ l
    end.
Proof. exact @c92_min. Qed.
Print Assumptions C92_minimize.

(** gp_minimize, with normalize_y or without: a result, unless all observations so far agree; so a result whenever two
    of the values given as y0 differ (and two of the times). *)
Theorem C92_gp : forall cdf pdf xi kappa argsort generate logmax tune e0 lbfgs,
  let W := gp_world tune cho_inv cho_weights cdf pdf e0 xi kappa argsort lbfgs generate logmax in
  forall RNG (G : rng_ops R RNG), rng_ok Rops G ->
  forall own f a g x0 acq d, orderly (MGp own) f a x0 acq ->
  set_kinds_all KNormalize (a_dims (m_opt a)) = Ok d -> Forall workable d ->
  (forall k X y, valid k (t_n_dims d) -> valid (tune k X y) (t_n_dims d)) -> valid (user_kernel e0) (t_n_dims d) ->
  match e_noise e0 with NoiseOther => False | NoiseLevel v => 0 <= v | _ => True end -> 0 < e_alpha e0 ->
  (a_acqopt (m_opt a) = "auto"%string -> forall m q yopt r, In q (cand_acqs acq) -> within (O := Rops) (space_tbounds Rops d) r ->
     exists r' v, lbfgs q m yopt (space_tbounds Rops d) r = Ok (r', v) /\ within (O := Rops) (space_tbounds Rops d) r') ->
  argsort_ok Rops W ->
  (forall n seed, (0 <= n)%Z -> exists l, generate d n seed = Ok l /\ length l = Z.to_nat n /\ Forall (in_space Rops d) l) ->
  exists t o r, minimize Rops G W (MGp own) f a g = (t, Some o, r) /\ match r with
    | Ok r => r <> None /\ (never_stops (callbacks_of a) -> Z.of_nat (length (evals t)) = m_ncalls a)
    | Raise _ => ~ varied (is_ps acq) (o_yi o) /\ forall ys, values_of (m_y0 a) = Some ys -> ~ differing (is_ps acq) ys
    end.
Proof. exact c92_gp. Qed.
Print Assumptions C92_gp.

(** normalize_y=True, a mixed space, any acquisition function: two observations that differ use up the design; then
    everything works. *)
Example C92_case : forall s acq (gen : bool), acq_of s = Some acq -> let W := WN Phi phi in let need := varied (is_ps acq) in
  rng_ok Rops GR /\ exists o, campaign GR W need o /\ open o /\ fine o (CTell (X2 [pR1; pR2]) (YLst [zR acq 4; zR acq 5]) true) /\
    exists o' r, tell Rops GR W (X2 [pR1; pR2]) (YLst [zR acq 4; zR acq 5]) true o = (o', Ok r) /\ campaign GR W need o' /\ open o' /\ need (o_yi o') /\
    (c_n0 (o_cfg o') <= Z.of_nat (length (o_yi o')))%Z /\ c_est (o_cfg o') <> None /\ c_acq (o_cfg o') = acq /\ fine o' (CAsk (NPInt 3) "cl_mean").
Proof. intros s acq gen E. exact (conj GR_ok (@camp_normalised Phi phi s acq gen E)). Qed.
Example C92_gp_case : forall s acq (gen : bool), acq_of s = Some acq -> differing (is_ps acq) [zR acq 4; zR acq 5] /\ e_normalize gpN = true /\
  exists t o r, minimize Rops GR (WN Phi phi) (MGp false) (fR acq) (argsM gp_est s gen (Y0Seq [zR acq 4; zR acq 5])) 0%nat = (t, Some o, Ok (Some r)).
Proof. intros s acq gen E. exact (conj (zR_differ acq) (conj eq_refl (@c92_case s acq gen E))). Qed.
