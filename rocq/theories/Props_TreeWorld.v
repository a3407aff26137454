(** C90 and C83: an optimizer with a forest or boosted trees as surrogate, over the reals. *)
From Coq Require Import String List ZArith Bool Reals.
From Verif Require Import Base Num Values Dimension Space Optimizer Acquisition AcqSpec GaussLemmas SpaceSpec OptSpec OptSamples SamplerSamples
  Forest ForestSpec Gbrt GbrtLemmas GpWorld WorthSpec CampaignSpec CampaignCases TreeWorld TreeInstances TreeCases.
Import ListNotations.
Open Scope R_scope.
Open Scope list_scope.

(** A forest as surrogate: once the initial design is used up, the next suggestion is the most worthwhile of the
    candidates drawn ([worth] in WorthSpec.v), where the trees grown on all observations give the mean of their answers
    and the deviation that the law of total variance prescribes ([trees_mean], [trees_std] in ForestSpec.v). *)
Theorem C90_forest : forall cdf pdf xi kappa argsort generate logmax grow criterion minvar,
  let W := tree_world (forest_reg grow criterion minvar) cdf pdf xi kappa argsort generate logmax in
  forall RNG (G : rng_ops R RNG), std_normal cdf pdf -> (forall X y x, Forall (sound_tree x) (grow X y)) ->
  forall x y o o' r a, reachable Rops G W o -> tell Rops G W x y true o = (o', Ok r) ->
  (c_n0 (o_cfg o') <= Z.of_nat (length (o_yi o')))%Z -> c_est (o_cfg o') <> None ->
  c_lbfgs (o_cfg o') = false -> c_acq (o_cfg o') = AOne a -> ps_of o' = false ->
  let dims := c_dims (o_cfg o') in
  exists D Dt Dn g P X rows yopt i x0 row v nx p rest,
    let trees := grow Dn (map y_obj (o_yi o')) in
    let value row := worth yopt xi kappa a (trees_mean trees row) (trees_std minvar trees row) in
    (o_Xi o' = map (@X1 R) D /\ space_transform Rops dims D = Ok Dt /\ mapM num_row Dt = Ok Dn) /\
    (fst (space_rvs Rops G dims (c_npoints (o_cfg o')) g) = Ok P /\ space_transform Rops dims P = Ok X /\ mapM num_row X = Ok rows) /\
    (In yopt (map y_obj (o_yi o')) /\ forall w, In w (map y_obj (o_yi o')) -> yopt <= w) /\
    (nth_error X i = Some x0 /\ nth_error rows i = Some row) /\
    (value row v /\ forall row', In row' rows -> exists v', value row' v' /\ v' <= v) /\
    (if is_categorical dims then nx = x0 else clipped_row Rops (space_tbounds Rops dims) x0 nx) /\
    space_inverse Rops dims [nx] = Ok (p :: rest) /\ o_next o' = Some p.
Proof. exact c90_forest. Qed.
Print Assumptions C90_forest.
Example C90_forest_case : let W := WF Phi phi in std_normal Phi phi /\ (forall X y x, Forall (sound_tree x) (growR X y)) /\
  exists o o' r, reachable Rops GR W o /\ tell Rops GR W (X1 pR2) (YNum 4) true o = (o', Ok r) /\
  (c_n0 (o_cfg o') <= Z.of_nat (length (o_yi o')))%Z /\ c_est (o_cfg o') <> None /\
  c_lbfgs (o_cfg o') = false /\ c_acq (o_cfg o') = AOne EI /\ ps_of o' = false.
Proof. exact (conj AcqLemmas.std_normal_exists (conj grow_sound (c90_setting _ (WF Phi phi) eq_refl (WF_dependable Phi phi (AOne EI))))). Qed.

(** Boosted trees as surrogate: the mean is the median regressor's answer, the deviation half the distance from the
    answer of the regressor for the quantile 0.16 to that for 0.84; all three are fitted to all observations. *)
Theorem C90_boosted : forall cdf pdf xi kappa argsort generate logmax S gb_fit e0 (rng : S),
  let W := tree_world (gbrt_reg gb_fit e0 rng) cdf pdf xi kappa argsort generate logmax in
  forall RNG (G : rng_ops R RNG), std_normal cdf pdf ->
  (forall q data rows p, gb_fit q rng data rows = Ok p -> length p = length rows) ->
  forall x y o o' r a, reachable Rops G W o -> tell Rops G W x y true o = (o', Ok r) ->
  (c_n0 (o_cfg o') <= Z.of_nat (length (o_yi o')))%Z -> c_est (o_cfg o') <> None ->
  c_lbfgs (o_cfg o') = false -> c_acq (o_cfg o') = AOne a -> ps_of o' = false ->
  let dims := c_dims (o_cfg o') in
  exists D Dt Dn g P X rows yopt i x0 v nx p rest low mid high,
    let data := (Dn, map y_obj (o_yi o')) in
    let value j w := exists l m h, nth_error low j = Some l /\ nth_error mid j = Some m /\ nth_error high j = Some h /\
      worth yopt xi kappa a m ((h - l) / 2) w in
    (o_Xi o' = map (@X1 R) D /\ space_transform Rops dims D = Ok Dt /\ mapM num_row Dt = Ok Dn) /\
    (fst (space_rvs Rops G dims (c_npoints (o_cfg o')) g) = Ok P /\ space_transform Rops dims P = Ok X /\ mapM num_row X = Ok rows) /\
    (gb_fit (16 / 100) rng data rows = Ok low /\ gb_fit (/ 2) rng data rows = Ok mid /\ gb_fit (84 / 100) rng data rows = Ok high) /\
    (In yopt (map y_obj (o_yi o')) /\ forall w, In w (map y_obj (o_yi o')) -> yopt <= w) /\
    nth_error X i = Some x0 /\
    (value i v /\ forall j, (j < length X)%nat -> exists v', value j v' /\ v' <= v) /\
    (if is_categorical dims then nx = x0 else clipped_row Rops (space_tbounds Rops dims) x0 nx) /\
    space_inverse Rops dims [nx] = Ok (p :: rest) /\ o_next o' = Some p.
Proof. exact @c90_boosted. Qed.
Print Assumptions C90_boosted.
Example C90_boosted_case : let W := WB Phi phi in std_normal Phi phi /\
  (forall q data rows p, boostR q tt data rows = Ok p -> length p = length rows) /\
  exists o o' r, reachable Rops GR W o /\ tell Rops GR W (X1 pR2) (YNum 4) true o = (o', Ok r) /\
  (c_n0 (o_cfg o') <= Z.of_nat (length (o_yi o')))%Z /\ c_est (o_cfg o') <> None /\
  c_lbfgs (o_cfg o') = false /\ c_acq (o_cfg o') = AOne EI /\ ps_of o' = false.
Proof. exact (conj AcqLemmas.std_normal_exists (conj boost_rows (c90_setting _ (WB Phi phi) eq_refl (WB_dependable Phi phi (AOne EI))))). Qed.

(** ** C83 for trees *)
(** A forest with the criterion "mse" is dependable without the minimizer, with any acquisition function, *)
Theorem C83_forest : forall cdf pdf xi kappa argsort generate logmax grow criterion minvar dims acq,
  let W := tree_world (forest_reg grow criterion minvar) cdf pdf xi kappa argsort generate logmax in
  criterion = "mse"%string -> (forall X y, X <> [] -> length X = length y -> grow X y <> []) ->
  (forall X y x, Forall (sound_tree x) (grow X y)) -> argsort_ok Rops W ->
  (forall n seed, (0 <= n)%Z -> exists l, generate dims n seed = Ok l /\ length l = Z.to_nat n /\ Forall (in_space Rops dims) l) ->
  dependable W anything dims acq false.
Proof. exact forest_dependable. Qed.
Print Assumptions C83_forest.
(** and so are boosted trees, if no base estimator is given or one with the loss "quantile", and the quantiles include
    0.16, 0.5 and 0.84. *)
Theorem C83_boosted : forall cdf pdf xi kappa argsort generate logmax S gb_fit e0 (rng : S) dims acq,
  let W := tree_world (gbrt_reg gb_fit e0 rng) cdf pdf xi kappa argsort generate logmax in
  match q_base e0 with GBNone => True | GBRegressor loss => loss = "quantile"%string | GBOther => False end ->
  In (16 / 100) (q_quantiles e0) -> In (/ 2) (q_quantiles e0) -> In (84 / 100) (q_quantiles e0) ->
  (forall q X y rows, X <> [] -> length X = length y -> exists p, gb_fit q rng (X, y) rows = Ok p /\ length p = length rows) ->
  argsort_ok Rops W ->
  (forall n seed, (0 <= n)%Z -> exists l, generate dims n seed = Ok l /\ length l = Z.to_nat n /\ Forall (in_space Rops dims) l) ->
  dependable W anything dims acq false.
Proof. exact @boosted_dependable. Qed.
Print Assumptions C83_boosted.
Example C83_trees_case : forall s acq (gen : bool), acq_of s = Some acq ->
  (exists o, campaign GR (WF Phi phi) anything o /\ open o /\ fine o (CTell (X1 pR2) (yR acq) true) /\ c_acq (o_cfg o) = acq) /\
  (exists o, campaign GR (WB Phi phi) anything o /\ open o /\ fine o (CTell (X1 pR2) (yR acq) true) /\ c_acq (o_cfg o) = acq).
Proof. exact trees_case. Qed.

(** The acquisition functions per second and acq_optimizer "auto" do not go together with trees: "auto" picks the
    minimizer, which asks for gradients that trees do not have, so the first observation past the initial design
    raises TypeError. The space, the point and the observation are in order. *)
Theorem C83_trees_per_second_refuted : exists o, reachable Rops GR (WF Phi phi) o /\ Forall workable (c_dims (o_cfg o)) /\ open o /\
  is_ps (c_acq (o_cfg o)) = true /\ in_space Rops (c_dims (o_cfg o)) [VInt 7] /\
  exists o', tell Rops GR (WF Phi phi) (X1 [VInt 7]) (YLst [YNum 4; YNum 1]) true o = (o', Raise TypeError).
Proof. exact (trees_per_second Phi phi). Qed.
Print Assumptions C83_trees_per_second_refuted.
