(** C97: the unit of the objective. *)
From Coq Require Import String List ZArith Bool Reals.
From Verif Require Import Base Num Values Dimension Space Optimizer OptSpec Acquisition AcqSpec GaussLemmas Kernels Gpr GprSamples OptSamples SamplerSamples GpWorld WorthSpec PickCases Cholesky CampaignSpec CampaignCases TreeCases Normalised UnitSpec UnitSim UnitGp UnitCases.
Import ListNotations.
Open Scope R_scope.
Open Scope list_scope.

(** Two optimizers made from the same arguments with a regressor that normalises the observations, candidates compared
    by sampling, and EI, PI or LCB. They are called in the same way, but the second is told [a * v + b] where the first
    is told [v], and its xi is [a] times that of the first. All their answers agree. *)
Theorem C97 : forall tune linv solve cdf pdf e0 xi kappa argsort argsort' lbfgs lbfgs' generate logmax logmax' (a b : R),
  0 < a -> e_normalize e0 = true ->
  let W := gp_world tune linv solve cdf pdf e0 xi kappa argsort lbfgs generate logmax in
  let W' := gp_world tune linv solve cdf pdf e0 (Some (a * margin xi)) kappa argsort' lbfgs' generate logmax' in
  forall RNG (G : rng_ops R RNG) acq c o o', is_ps (AOne acq) = false -> twins G W W' a b acq o o' -> settled b o c ->
  same_answer a b (snd (do_call Rops G W c o)) (snd (do_call Rops G W' (call_in_unit a b c) o')).
Proof. exact @c97. Qed.
Print Assumptions C97.

(** The same with any surrogate that is fitted to the same data in the two units and any acquisition function that puts
    the candidates in the same order in both. *)
Theorem C97_any : forall RNG M (G : rng_ops R RNG) (W W' : world R M) (a b : R) alike acq,
  0 < a -> unit_free W W' a b alike acq -> is_ps (AOne acq) = false ->
  forall c o o', twins G W W' a b acq o o' -> settled b o c ->
  same_answer a b (snd (do_call Rops G W c o)) (snd (do_call Rops G W' (call_in_unit a b c) o')).
Proof. exact @twins_step. Qed.
Print Assumptions C97_any.

(** A mixed space; after the second observation the regressor chooses what is suggested. *)
Example C97_case : forall s a (gen : bool), acq_of s = Some (AOne a) -> is_ps (AOne a) = false -> let W := WN Phi phi in let W' := WN2 Phi phi in
  exists o o', twins GR W W' 2 3 a o o' /\ settled 3 o (CTell (X2 [pR1; pR2]) (YLst [YNum 4; YNum 5]) true) /\
    exists o1 r, tell Rops GR W (X2 [pR1; pR2]) (YLst [YNum 4; YNum 5]) true o = (o1, Ok r) /\ open o1 /\
      (c_n0 (o_cfg o1) <= Z.of_nat (length (o_yi o1)))%Z /\ settled 3 o1 (CAsk (NPInt 3) "cl_mean").
Proof. exact (c97_case Phi phi). Qed.
Example C97_case_unit : e_normalize gpN = true /\ WN2 Phi phi =
  gp_world GprSamples.keep cho_inv cho_weights Phi phi gpN (Some (2 * margin None)) None (arg_sort Rops) (fun _ _ _ _ x => Ok (x, 0)) genR 709.
Proof. exact (conj eq_refl eq_refl). Qed.

(** With the default xi in both units, PI puts two candidates in different orders: predicted means -1 and -4 with
    standard deviations 1 and 8, and the same in a unit a hundred times as large. The least observation is 0. *)
Theorem C97_margin_refuted : exists v1 v2 w1 w2,
  gaussian_acquisition Rops Phi phi [[0]; [1]] (Single two_rows) (Some 0) "PI" None None false = Ok ([v1; v2], None) /\ v1 < v2 /\
  gaussian_acquisition Rops Phi phi [[0]; [1]] (Single two_rows_small) (Some 0) "PI" None None false = Ok ([w1; w2], None) /\ w2 < w1.
Proof. exact c97_margin. Qed.
Print Assumptions C97_margin_refuted.

(** The probabilities with which gp_hedge chooses depend on the unit: gains of 0, -1 and -1 and twice these. *)
Theorem C97_hedge_refuted : exists p q, hedge_weights Rops 1 [0; -1; -1] = Ok p /\ hedge_weights Rops 1 [0; -2; -2] = Ok q /\ nth 0 p 0 < nth 0 q 0.
Proof. exact c97_hedge. Qed.
Print Assumptions C97_hedge_refuted.
