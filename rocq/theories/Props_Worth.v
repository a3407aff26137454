(** C100: what the next suggestion of an optimizer with a Gaussian process is worth, with every acquisition optimizer, and
    with gp_hedge. *)
From Coq Require Import String List ZArith Bool Reals.
From Verif Require Import Base Num Values Dimension Space Optimizer SpaceSpec OptSpec OptSamples SamplerSamples
  Acquisition AcqSpec GaussLemmas Kernels Gpr GpWorld WorthSpec CampaignSpec CampaignCases WorthSearchSpec WorthSearch WorthCases.
Import ListNotations.
Open Scope R_scope.
Open Scope list_scope.

(** The suggestion comes from a point of the warped space ([x0]) within the bounds at which the prediction of the newest
    surrogate is worth at least as much as at every candidate, in the sense of the chosen acquisition function ([worth] in
    WorthSpec.v), for gp_hedge of one of its three. With sampling the point is one of the candidates. With lbfgs the
    searches are assumed to descend ([descends] in WorthSearchSpec.v). *)
Theorem C100 : forall tune linv solve cdf pdf e0 xi kappa argsort lbfgs generate logmax,
  let W := gp_world tune linv solve cdf pdf e0 xi kappa argsort lbfgs generate logmax in
  forall RNG (G : rng_ops R RNG), rng_ok Rops G -> std_normal cdf pdf -> forall x y o o' r,
  reachable Rops G W o -> tell Rops G W x y true o = (o', Ok r) ->
    (c_n0 (o_cfg o') <= Z.of_nat (length (o_yi o')))%Z -> c_est (o_cfg o') <> None -> ps_of o' = false ->
    let dims := c_dims (o_cfg o') in
    dims <> [] -> Forall workable dims -> argsort_ok Rops W -> (c_lbfgs (o_cfg o') = true -> descends W (space_tbounds Rops dims)) ->
    exists ms e D Dt Dn g P X rows yopt mus stds a x0 row mu s v nx p rest,
      o_models o' = ms ++ [One e] /\
      (o_Xi o' = map (@X1 R) D /\ space_transform Rops dims D = Ok Dt /\ mapM num_row Dt = Ok Dn /\
       Gpr.fit tune linv solve e0 Dn (map y_obj (o_yi o')) = Ok e) /\
      (fst (space_rvs Rops G dims (c_npoints (o_cfg o')) g) = Ok P /\ space_transform Rops dims P = Ok X /\ mapM num_row X = Ok rows /\
       Gpr.predict e rows true false false false = Ok (mkAnswer mus (Some stds) None None)) /\
      (In yopt (map y_obj (o_yi o')) /\ forall v, In v (map y_obj (o_yi o')) -> yopt <= v) /\
      match c_acq (o_cfg o') with AOne b => a = b | AHedge => In a [EI; LCB; PI] end /\
      (within (O := Rops) (space_tbounds Rops dims) x0 /\ (c_lbfgs (o_cfg o') = false -> In x0 X)) /\
      (num_row x0 = Ok row /\ Gpr.predict e [row] true false false false = Ok (mkAnswer [mu] (Some [s]) None None) /\ worth yopt xi kappa a mu s v) /\
      (forall j mu' s', nth_error mus j = Some mu' -> nth_error stds j = Some s' -> exists v', worth yopt xi kappa a mu' s' v' /\ v' <= v) /\
      num_row nx = Ok row /\ space_inverse Rops dims [nx] = Ok (p :: rest) /\ o_next o' = Some p.
Proof. exact c100. Qed.
Print Assumptions C100.

(** With each acquisition function, gp_hedge among them, such an optimizer: it searches the acquisition function from two
    candidates, each search taking the better of its start and a corner of the space. *)
Example C100_case : forall s acq (gen : bool), acq_of s = Some acq -> is_ps acq = false ->
  rng_ok Rops GR /\ std_normal Phi phi /\ exists o o' r, reachable Rops GR WL o /\ tell Rops GR WL (X1 pR2) (YNum 4%R) true o = (o', Ok r) /\
  (c_n0 (o_cfg o') <= Z.of_nat (length (o_yi o')))%Z /\ c_est (o_cfg o') <> None /\ ps_of o' = false /\ c_acq (o_cfg o') = acq /\ c_lbfgs (o_cfg o') = true /\
  c_dims (o_cfg o') <> [] /\ Forall workable (c_dims (o_cfg o')) /\ argsort_ok Rops WL /\ descends WL (space_tbounds Rops (c_dims (o_cfg o'))).
Proof. exact c100_case. Qed.
Example C100_hedge : acq_of "gp_hedge" = Some AHedge /\ is_ps AHedge = false.
Proof. split; reflexivity. Qed.
