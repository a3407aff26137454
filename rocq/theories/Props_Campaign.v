(** C82 and C83: an optimizer with a Gaussian process as surrogate, and campaigns of documented calls, over the reals. *)
From Coq Require Import String List ZArith Bool Reals.
From Verif Require Import Base Num NumLaws Values Dimension Space Optimizer Acquisition AcqSpec GaussLemmas SpaceSpec OptSpec OptSamples SamplerSamples Kernels KernelPsdSpec Gpr GprSpec Cholesky
  GpWorld WorthSpec PaceSpec GpWorldProps PsWorldProps CampaignSpec Campaign GpDependable CampaignCases PsCases.
Import ListNotations.
Open Scope R_scope.
Open Scope list_scope.

(** Once the initial design is used up, the next suggestion is the most worthwhile of the candidates drawn. The regressor
    is fitted to all observations, it predicts a normal distribution of the objective at each candidate, and none has a
    greater expected improvement over the least observation, probability of an improvement, or lower confidence
    bound turned round ([worth] in WorthSpec.v). *)
Theorem C82 : forall tune linv solve cdf pdf e0 xi kappa argsort lbfgs generate logmax,
  let W := gp_world tune linv solve cdf pdf e0 xi kappa argsort lbfgs generate logmax in
  forall RNG (G : rng_ops R RNG), std_normal cdf pdf ->
  forall x y o o' r a, reachable Rops G W o -> tell Rops G W x y true o = (o', Ok r) ->
  (c_n0 (o_cfg o') <= Z.of_nat (length (o_yi o')))%Z -> c_est (o_cfg o') <> None ->
  c_lbfgs (o_cfg o') = false -> c_acq (o_cfg o') = AOne a -> ps_of o' = false ->
  let dims := c_dims (o_cfg o') in
  exists ms e D Dt Dn g P X rows yopt mus stds i mu s x0 nx p rest,
    o_models o' = ms ++ [One e] /\
    (o_Xi o' = map (@X1 R) D /\ space_transform Rops dims D = Ok Dt /\ mapM num_row Dt = Ok Dn /\
     Gpr.fit tune linv solve e0 Dn (map y_obj (o_yi o')) = Ok e) /\
    (fst (space_rvs Rops G dims (c_npoints (o_cfg o')) g) = Ok P /\ space_transform Rops dims P = Ok X /\ mapM num_row X = Ok rows /\
     Gpr.predict e rows true false false false = Ok (mkAnswer mus (Some stds) None None)) /\
    (In yopt (map y_obj (o_yi o')) /\ forall v, In v (map y_obj (o_yi o')) -> yopt <= v) /\
    (nth_error X i = Some x0 /\ nth_error mus i = Some mu /\ nth_error stds i = Some s) /\
    (exists v, worth yopt xi kappa a mu s v /\
       forall j mu' s', nth_error mus j = Some mu' -> nth_error stds j = Some s' -> exists v', worth yopt xi kappa a mu' s' v' /\ v' <= v) /\
    (if is_categorical dims then nx = x0 else clipped_row Rops (space_tbounds Rops dims) x0 nx) /\
    space_inverse Rops dims [nx] = Ok (p :: rest) /\ o_next o' = Some p.
Proof. exact c82. Qed.
Print Assumptions C82.
Example C82_case : let W := WG Phi phi in std_normal Phi phi /\
  exists o o' r, reachable Rops GR W o /\ tell Rops GR W (X1 pR2) (YNum 4) true o = (o', Ok r) /\
  (c_n0 (o_cfg o') <= Z.of_nat (length (o_yi o')))%Z /\ c_est (o_cfg o') <> None /\
  c_lbfgs (o_cfg o') = false /\ c_acq (o_cfg o') = AOne EI /\ ps_of o' = false.
Proof. exact c82_case. Qed.

(** The same when the time counts ("EIps", "PIps"): one regressor is fitted to the values and one to the logarithms of the
    times, and no candidate has a greater expected improvement, or probability of one, times the expectation of the
    reciprocal of its time ([worth_ps] in PaceSpec.v). What has to be improved upon is the least of the values and the
    logarithms of the times taken together (see C26_incumbent_refuted). *)
Theorem C82_per_second : forall tune linv solve cdf pdf e0 xi kappa argsort lbfgs generate logmax,
  let W := gp_world tune linv solve cdf pdf e0 xi kappa argsort lbfgs generate logmax in
  forall RNG (G : rng_ops R RNG), std_normal cdf pdf ->
  forall x y o o' r a, reachable Rops G W o -> tell Rops G W x y true o = (o', Ok r) ->
  (c_n0 (o_cfg o') <= Z.of_nat (length (o_yi o')))%Z -> c_est (o_cfg o') <> None ->
  c_lbfgs (o_cfg o') = false -> c_acq (o_cfg o') = AOne a -> ps_of o' = true ->
  let dims := c_dims (o_cfg o') in
  exists T ms e t D Dt Dn g P X rows yopt mus stds mts sts i mu s mt st x0 nx p rest,
    o_yi o' = map (fun q => YP (fst q) (snd q)) T /\
    o_models o' = ms ++ [Two e t] /\
    (o_Xi o' = map (@X1 R) D /\ space_transform Rops dims D = Ok Dt /\ mapM num_row Dt = Ok Dn /\
     Gpr.fit tune linv solve e0 Dn (map fst T) = Ok e /\ Gpr.fit tune linv solve e0 Dn (map snd T) = Ok t) /\
    (fst (space_rvs Rops G dims (c_npoints (o_cfg o')) g) = Ok P /\ space_transform Rops dims P = Ok X /\ mapM num_row X = Ok rows /\
     Gpr.predict e rows true false false false = Ok (mkAnswer mus (Some stds) None None) /\
     Gpr.predict t rows true false false false = Ok (mkAnswer mts (Some sts) None None)) /\
    (In yopt (map fst T ++ map snd T) /\ forall v, In v (map fst T ++ map snd T) -> yopt <= v) /\
    (nth_error X i = Some x0 /\ nth_error mus i = Some mu /\ nth_error stds i = Some s /\ nth_error mts i = Some mt /\ nth_error sts i = Some st) /\
    (exists v, worth_ps yopt xi kappa a mu s mt st v /\
       forall j mu' s' mt' st', nth_error mus j = Some mu' -> nth_error stds j = Some s' -> nth_error mts j = Some mt' -> nth_error sts j = Some st' ->
       exists v', worth_ps yopt xi kappa a mu' s' mt' st' v' /\ v' <= v) /\
    (if is_categorical dims then nx = x0 else clipped_row Rops (space_tbounds Rops dims) x0 nx) /\
    space_inverse Rops dims [nx] = Ok (p :: rest) /\ o_next o' = Some p.
Proof. exact c82_ps. Qed.
Print Assumptions C82_per_second.
Example C82_per_second_case : let W := WG Phi phi in std_normal Phi phi /\
  exists o o' r, reachable Rops GR W o /\ tell Rops GR W (X1 pR2) (YLst [YNum 4; YNum 1]) true o = (o', Ok r) /\
  (c_n0 (o_cfg o') <= Z.of_nat (length (o_yi o')))%Z /\ c_est (o_cfg o') <> None /\
  c_lbfgs (o_cfg o') = false /\ c_acq (o_cfg o') = AOne EIps /\ ps_of o' = true.
Proof. exact c82_ps_case. Qed.

(** C62 when the time counts: the candidate with the least acquisition value, where the surrogate is told the least of
    the values and the logarithms of the times taken together. *)
Theorem C62_per_second : forall N RNG M (O : numops N) (G : rng_ops N RNG) (W : world N M),
  order_laws O -> forall x y o o' r a, reachable O G W o -> tell O G W x y true o = (o', Ok r) ->
  (c_n0 (o_cfg o') <= Z.of_nat (length (o_yi o')))%Z -> c_est (o_cfg o') <> None ->
  c_lbfgs (o_cfg o') = false -> c_acq (o_cfg o') = AOne a ->
  let observed := flat_map (fun v => match v with YS y => [y] | YP y t => [y; t] end) (o_yi o') in
  no_nan O observed ->
  exists ms m g P X yopt vals i x0 nx p rest,
    o_models o' = ms ++ [m] /\
    fst (space_rvs O G (c_dims (o_cfg o')) (c_npoints (o_cfg o')) g) = Ok P /\
    space_transform O (c_dims (o_cfg o')) P = Ok X /\
    (In yopt observed /\ forall v, In v observed -> nleb O yopt v = true) /\
    w_acq W a m yopt X = Ok vals /\ nth_error X i = Some x0 /\
    (no_nan O vals -> exists v, nth_error vals i = Some v /\ forall v', In v' vals -> nleb O v v' = true) /\
    (if is_categorical (c_dims (o_cfg o')) then nx = x0
     else clipped_row O (space_tbounds O (c_dims (o_cfg o'))) x0 nx) /\
    space_inverse O (c_dims (o_cfg o')) [nx] = Ok (p :: rest) /\ o_next o' = Some p.
Proof. exact (@pick_last). Qed.
Print Assumptions C62_per_second.
Example C62_per_second_case : let W := WG Phi phi in order_laws Rops /\
  exists o o' r, reachable Rops GR W o /\ tell Rops GR W (X1 pR2) (YLst [YNum 4; YNum 1]) true o = (o', Ok r) /\
  (c_n0 (o_cfg o') <= Z.of_nat (length (o_yi o')))%Z /\ c_est (o_cfg o') <> None /\
  c_lbfgs (o_cfg o') = false /\ c_acq (o_cfg o') = AOne EIps /\ ps_of o' = true.
Proof. split; [exact Rops_order|exact (proj2 c82_ps_case)]. Qed.

(** ** C83 *)
(** With sensible settings and components that do their job ([sensible], [dependable] in CampaignSpec.v), a campaign of
    calls made as documented ([fine]) never raises: every such call is answered. *)
Theorem C83 : forall RNG M (G : rng_ops R RNG) (W : world R M), rng_ok Rops G ->
  forall o c, campaign G W anything o -> fine o c -> exists o' a, do_call Rops G W c o = (o', Ok a) /\ answered o c a.
Proof. exact @c83. Qed.
Print Assumptions C83.
(** There remains something to ask for, as long as observations are not recorded with fit=False, *)
Theorem C83_open : forall RNG M (G : rng_ops R RNG) (W : world R M), rng_ok Rops G ->
  forall o c, campaign G W anything o -> fine o c -> open o \/ (exists x y, c = CTell x y true) -> (forall x y, c <> CTell x y false) ->
  open (fst (do_call Rops G W c o)).
Proof. exact @c83_open. Qed.
Print Assumptions C83_open.
(** the optimizer can be copied at any time, *)
Theorem C83_copy : forall RNG M (G : rng_ops R RNG) (W : world R M), rng_ok Rops G ->
  forall o g, campaign G W anything o -> exists g' o', copy Rops G W o g = (g', Ok o') /\ (open o -> open o').
Proof. exact @c83_copy. Qed.
Print Assumptions C83_copy.
(** and it can be made from documented arguments. *)
Theorem C83_make : forall RNG M (G : rng_ops R RNG) (W : world R M),
  forall a acq g, acq_of (a_acq a) = Some acq -> (0 <= a_n0 a)%Z ->
  match a_est a with Some e => ed_regressor e = true | None => is_ps acq = false end ->
  In (a_acqopt a) ["auto"; "sampling"]%string ->
  (forall d n seed, (d = a_dims a \/ scales a /\ set_kinds_all KNormalize (a_dims a) = Ok d) -> (0 <= n)%Z -> exists l, w_generate W d n seed = Ok l) ->
  exists g' o, make_optimizer Rops G W a g = (g', Ok o) /\ c_acq (o_cfg o) = acq /\ o_left o = a_n0 a /\
    (c_dims (o_cfg o) = a_dims a \/ scales a /\ set_kinds_all KNormalize (a_dims a) = Ok (c_dims (o_cfg o))).
Proof. exact @c83_make. Qed.
Print Assumptions C83_make.

(** A Gaussian process regressor is dependable, with any acquisition function, when alpha is positive, the kernel makes
    sense and the observations are not normalised, if the minimizer and the generator are. *)
Theorem C83_gaussian_process : forall tune cdf pdf e0 xi kappa argsort lbfgs generate logmax dims acq lb,
  let W := gp_world tune cho_inv cho_weights cdf pdf e0 xi kappa argsort lbfgs generate logmax in
  let d := t_n_dims dims in
  (forall k X y, valid k d -> valid (tune k X y) d) -> valid (user_kernel e0) d ->
  match e_noise e0 with NoiseOther => False | NoiseLevel v => 0 <= v | _ => True end -> 0 < e_alpha e0 ->
  e_normalize e0 = false ->
  (lb = true -> forall m a yopt r, In a (cand_acqs acq) -> within (O := Rops) (space_tbounds Rops dims) r ->
     exists r' v, lbfgs a m yopt (space_tbounds Rops dims) r = Ok (r', v) /\ within (O := Rops) (space_tbounds Rops dims) r') ->
  argsort_ok Rops W ->
  (forall n seed, (0 <= n)%Z -> exists l, generate dims n seed = Ok l /\ length l = Z.to_nat n /\ Forall (in_space Rops dims) l) ->
  dependable W anything dims acq lb.
Proof. exact gp_dependable. Qed.
Print Assumptions C83_gaussian_process.

(** A mixed space, any acquisition function, with or without a generator: the calls below are all answered. *)
Example C83_case : forall s acq (gen : bool), acq_of s = Some acq -> let W := WG Phi phi in
  rng_ok Rops GR /\
  exists o, campaign GR W anything o /\ open o /\ fine o (CTell (X1 pR2) (yR acq) true) /\
    exists o' r, tell Rops GR W (X1 pR2) (yR acq) true o = (o', Ok r) /\ campaign GR W anything o' /\ open o' /\ (c_n0 (o_cfg o') <= Z.of_nat (length (o_yi o')))%Z /\
    c_est (o_cfg o') <> None /\ c_lbfgs (o_cfg o') = false /\ c_acq (o_cfg o') = acq /\
    fine o' (CAsk (NPInt 3) "cl_mean") /\ fine o' (CTell (X2 [pR1; pR2; pR1]) (YLst [yR acq; yR acq; yR acq]) true) /\
    fine o' (CRun (fun _ _ => Ok (yR acq)) 4).
Proof. intros s acq gen E. exact (conj GR_ok (camp_case Phi phi s acq gen E)). Qed.
Example C83_gaussian_process_case : forall acq lb, dependable (WG Phi phi) anything mixR acq lb.
Proof. exact (WG_dependable Phi phi). Qed.
Example C83_make_case : exists acq, acq_of (a_acq (argsG "EIps" true)) = Some acq /\ forall d n seed, exists l, w_generate (WG Phi phi) d n seed = Ok l.
Proof. eexists. split; [reflexivity|]. intros d n seed. eexists. reflexivity. Qed.

(** Without a surrogate (base_estimator "dummy") an initial point generator makes ask fail once its points are used up:
    [sensible] has to exclude this. *)
Theorem C83_dummy_refuted : exists o, reachable Rops GR WR o /\ open o /\ Forall workable (c_dims (o_cfg o)) /\
  c_gen (o_cfg o) = true /\ c_est (o_cfg o) = None /\ exists o', ask Rops GR WR NPNone "cl_min" o = (o', Raise IndexError).
Proof. exact dummy_design. Qed.
Print Assumptions C83_dummy_refuted.
