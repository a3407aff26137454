(** C98: the units of the parameters. *)
From Coq Require Import String List ZArith Bool Reals.
From Verif Require Import Base Num Values Dimension Space Optimizer OptSpec Acquisition GaussLemmas Kernels Gpr GprSamples OptSamples SamplerSamples GpWorld PickCases Cholesky CampaignSpec CampaignCases Sampler Generators ScaleSpec ScaleOpt ScaleGen ScaleCases.
Import ListNotations.
Open Scope R_scope.
Open Scope list_scope.

(** Two optimizers made from the same arguments and called in the same way, but real parameters are measured in other
    units. Wherever the unit changes the dimension is normalised. All answers agree, for any surrogate, acquisition
    function and optimiser of it. *)
Theorem C98 : forall RNG M (G : rng_ops R RNG) (W : world R M) gen fs, gen_alike fs W gen ->
  forall c c' o o', pair_of G fs W gen o o' -> same_call fs c c' ->
  snd (do_call Rops G (with_gen W gen) c' o') = rmap (conv_answer fs (c_dims (o_cfg o'))) (snd (do_call Rops G W c o)).
Proof. exact @c98. Qed.
Print Assumptions C98.

(** Making them: both are made or both constructors raise the same exception. With a Gaussian process the space is
    normalised, unless it is an instance that is wrapped for an acquisition function per second. *)
Theorem C98_make : forall RNG M (G : rng_ops R RNG) (W : world R M) gen fs, gen_alike fs W gen ->
  forall a ds' g, spaces (a_dims a) ds' fs ->
  match make_optimizer Rops G W a g, make_optimizer Rops G (with_gen W gen) (with_dims ds' a) g with
  | (g1, Ok o), (g1', Ok o') => g1' = g1 /\ spaces (c_dims (o_cfg o)) (c_dims (o_cfg o')) fs /\
      ((match a_est a with Some e => ed_gp e = true /\ (a_est_str a = true \/ is_ps (c_acq (o_cfg o)) = false) | None => False end) \/
         Forall3 normal (a_dims a) ds' fs ->
       Forall3 normal (c_dims (o_cfg o)) (c_dims (o_cfg o')) fs)
  | (g1, Raise e), (g1', Raise e') => g1' = g1 /\ e' = e
  | _, _ => False
  end.
Proof. exact @c98_make. Qed.
Print Assumptions C98_make.

(** The generators of initial points return the same points in the other units, with or without normalisation. *)
Theorem C98_generators : forall RNG M (G : rng_ops R RNG) S k fs (W : world R M),
  (forall ds n seed, w_generate W ds n seed = generate Rops G S k ds n seed) -> gen_alike fs W (generate Rops G S k).
Proof. exact @generate_alike. Qed.
Print Assumptions C98_generators.

(** A Gaussian process, a Latin hypercube; after the observation the regressor chooses what is suggested. *)
Example C98_case : forall s acq (gen : bool), acq_of s = Some acq -> let W := WS Phi phi in
  exists o o', pair_of GR fsS W genS o o' /\ c_dims (o_cfg o) = mixR /\ c_dims (o_cfg o') <> mixR /\
    same_call fsS (CTell (X1 pR2) (yR acq) true) (CTell (X1 [VFloat (1000 * 2 + 7); VStr "red"]) (yR acq) true) /\
    exists o1 r, tell Rops GR W (X1 pR2) (yR acq) true o = (o1, Ok r) /\ open o1 /\
      (c_n0 (o_cfg o1) <= Z.of_nat (length (o_yi o1)))%Z /\ c_est (o_cfg o1) <> None.
Proof. exact (c98_case Phi phi). Qed.
Example C98_case_gen : gen_alike fsS (WS Phi phi) genS /\ spaces (a_dims (argsG "EI" true)) [milliR; colorR KOnehot] fsS.
Proof. exact (conj (WS_alike Phi phi) spacesS). Qed.
Example C98_case_log : rescaled (DReal (mkReal 1 1000 PLogUniform 10 KNormalize None DT64))
  (DReal (mkReal (/ 1000 * 1) (/ 1000 * 1000) PLogUniform 10 KNormalize None DT64)) (measured (fun x => / 1000 * x)).
Proof. exact c98_log. Qed.

(** A surrogate that does not normalise the space: after the same observation other points are suggested. *)
Theorem C98_raw_refuted : exists (W : world R nat) gen fs a ds' g g1 g1' o o' c c' d x y,
  gen_alike fs W gen /\ spaces (a_dims a) ds' fs /\ make_optimizer Rops GR W a g = (g1, Ok o) /\
  make_optimizer Rops GR (with_gen W gen) (with_dims ds' a) g = (g1', Ok o') /\ same_call fs c c' /\ same_call fs d d /\
  snd (do_call Rops GR W d (fst (do_call Rops GR W c o))) = Ok (RAsked (A1pt x)) /\
  snd (do_call Rops GR (with_gen W gen) d (fst (do_call Rops GR (with_gen W gen) c' o'))) = Ok (RAsked (A1pt y)) /\ y <> conv fs x.
Proof. exact c98_raw. Qed.
Print Assumptions C98_raw_refuted.
