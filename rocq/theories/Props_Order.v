(** C102: the order in which observations are told does not matter for what is suggested, over the reals. *)
From Coq Require Import String List ZArith Bool Reals Permutation.
From Verif Require Import Base Num NumLaws Values Dimension Space Optimizer GaussLemmas SpaceSpec OptSpec OptSamples SamplerSamples Kernels KernelPsdSpec Gpr GprSpec Cholesky
  GpWorld CampaignSpec CampaignCases BatchSpec OrderSpec OrderSim OrderGp OrderCases.
Import ListNotations.
Close Scope R_scope.
Open Scope list_scope.

(** With a Gaussian process whose hyper-parameters are chosen without regard to the order of the observations: two
    optimizers that are told the same observations in a different order, and are otherwise called alike, answer alike. They
    suggest the same points, one or several at a time, and report the same observations and the same least value. *)
Theorem C102 : forall tune cdf pdf e0 xi kappa argsort lbfgs generate logmax,
  let W := gp_world tune cho_inv cho_weights cdf pdf e0 xi kappa argsort lbfgs generate logmax in
  forall RNG (G : rng_ops R RNG), rng_ok Rops G -> forall o o' c c', let d := t_n_dims (c_dims (o_cfg o)) in
  (forall k X y, valid k d -> valid (tune k X y) d) ->
  (forall k X y X' y', length X = length y -> length X' = length y' -> Permutation (combine X y) (combine X' y') -> tune k X y = tune k X' y') ->
  valid (user_kernel e0) d -> match e_noise e0 with NoiseLevel v => (0 <= v)%R | _ => True end -> (0 <= e_alpha e0)%R ->
  (forall a m m' y b r, same_surrogate m m' -> lbfgs a m y b r = lbfgs a m' y b r) ->
  shuffled G W anything o o' -> fine o c -> fine o' c' -> reordered_call c c' ->
  exists o1 o1' a a', do_call Rops G W c o = (o1, Ok a) /\ do_call Rops G W c' o' = (o1', Ok a') /\ same_reply a a' /\ shuffled G W anything o1 o1'.
Proof. exact (fun tune cdf pdf e0 xi kappa argsort lbfgs generate logmax RNG G Gok => @c102 tune cdf pdf e0 xi kappa argsort lbfgs generate logmax RNG G Gok). Qed.
Print Assumptions C102.

(** Observations that are told one by one before the first surrogate is fitted may come in any order. *)
Theorem C102_singly : forall RNG M (G : rng_ops R RNG) (W : world R M) (need : list (yval R) -> Prop) l l' o o1 o2, rng_ok Rops G ->
  (forall ys ys', need ys -> need (ys ++ ys')) -> campaign G W need o -> o_models o = [] -> Permutation l l' ->
  (Z.of_nat (length l) < o_left o)%Z \/ Forall (fun q => snd q = false) l -> Forall (fun q => in_space Rops (c_dims (o_cfg o)) (fst (fst q))) l ->
  told_singly Rops G W l o o1 -> told_singly Rops G W l' o o2 -> shuffled G W need o1 o2.
Proof. exact (fun RNG M G W => @c102_singly RNG M G W). Qed.
Print Assumptions C102_singly.
Example C102_singly_case : let W := WG Phi phi in exists o o1 o2, campaign GR W anything o /\ o_models o = [] /\ c_dims (o_cfg o) = mixR /\
  let l := [(pR1, YNum 4, false); (pR2, YNum 7, false)]%R in let l' := [(pR2, YNum 7, false); (pR1, YNum 4, false)]%R in
  Permutation l l' /\ ((Z.of_nat (length l) < o_left o)%Z \/ Forall (fun q => snd q = false) l) /\
  Forall (fun q => in_space Rops (c_dims (o_cfg o)) (fst (fst q))) l /\ told_singly Rops GR W l o o1 /\ told_singly Rops GR W l' o o2 /\ o_Xi o1 <> o_Xi o2.
Proof. exact c102_singly_case. Qed.

(** The same for any surrogate for which the order of the rows it is fitted to does not matter, also if it cannot be fitted to
    all observations: whenever both calls succeed. *)
Theorem C102_any : forall RNG M (G : rng_ops R RNG) (W : world R M) (need : list (yval R) -> Prop) alike, rng_ok Rops G -> (forall l l', need l -> need (l ++ l')) ->
  forall c c' o o' o1 o1' a a', shuffled G W need o o' -> order_free W (c_dims (o_cfg o)) alike -> fine o c -> fine o' c' -> reordered_call c c' ->
  do_call Rops G W c o = (o1, Ok a) -> do_call Rops G W c' o' = (o1', Ok a') -> same_reply a a'.
Proof. exact (fun RNG M G W need alike => @c102_any RNG M G W need alike). Qed.
Print Assumptions C102_any.
Example C102_case : let W := WG Phi phi in order_free W mixR same_surrogate /\
  exists o, campaign GR W anything o /\ c_dims (o_cfg o) = mixR /\ o_models o = [] /\ shuffled GR W anything o o /\
    fine o (CTell (X2 [pR1; pR2]) (YLst [YNum 4; YNum 7]%R) true) /\ fine o (CTell (X2 [pR2; pR1]) (YLst [YNum 7; YNum 4]%R) true) /\
    reordered_call (CTell (X2 [pR1; pR2]) (YLst [YNum 4; YNum 7]%R) true) (CTell (X2 [pR2; pR1]) (YLst [YNum 7; YNum 4]%R) true) /\
    exists o1 o1' r r', tell Rops GR W (X2 [pR1; pR2]) (YLst [YNum 4; YNum 7]%R) true o = (o1, Ok r) /\ tell Rops GR W (X2 [pR2; pR1]) (YLst [YNum 7; YNum 4]%R) true o = (o1', Ok r') /\
      o_models o1 <> [] /\ o_Xi o1 <> o_Xi o1' /\ shuffled GR W anything o1 o1' /\
      exists o2 o2' X, ask Rops GR W (NPInt 3) "cl_mean" o1 = (o2, Ok (Apts X)) /\ ask Rops GR W (NPInt 3) "cl_mean" o1' = (o2', Ok (Apts X)) /\ length X = 3.
Proof. exact c102_case. Qed.
