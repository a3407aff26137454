(** C54, C55, C67, C68: the Gaussian process regressor, over the reals. [tune] is sklearn's choice of hyper-parameters;
    [linv] and [solve] stand for the Cholesky factorisation, of which [lin_ok] says that it solves the linear systems. *)
From Coq Require Import String List ZArith Reals.
From Verif Require Import Base Num Acquisition AcqSpec AcqProps Kernels KernelSpec Gpr GprSpec GprProps GprPosterior GprFit GprAcq GprAcqProps GprSamples.
Import ListNotations.
Open Scope R_scope.

(** The gradient of the mean is the gradient of the mean that predict returns without gradients, and the gradient of
    the deviation that of the deviation, at points where the kernel is differentiable and, for the deviation, with
    kernels other than DotProduct and where the deviation exceeds 1e-8. *)
Theorem C54_gradients_partial : forall e g x ans, e_fitted e = Some g -> predict e [x] true false true true = Ok ans ->
  Forall (fun t => length x = length t /\ smooth (g_kernel g) x t) (g_X g) ->
  exists m s gm gs, ans = mkAnswer [m] (Some [s]) (Some gm) (Some gs) /\
    gradient (fun x => first (means (predict e [x] false false false false))) x gm /\
    (no_dot (g_kernel g) -> / 100000000 < s -> gradient (fun x => first (stds (predict e [x] true false false false))) x gs).
Proof. intros e g x ans Hg. exact (c54 e g Hg x ans). Qed.
Print Assumptions C54_gradients_partial.
(** predict answers for the kernels whose gradient is computed. *)
Theorem C54_total : forall e g x, e_fitted e = Some g -> computable (g_kernel g) (length x) ->
  Forall (fun t => length x = length t) (g_X g) -> exists ans, predict e [x] true false true true = Ok ans.
Proof. exact c54_total. Qed.
Print Assumptions C54_total.
(** Gradients are refused for several points, whatever else is asked for. *)
Theorem C54_single : forall e X rs rc mg sg, length X <> 1%nat -> mg = true \/ sg = true ->
  predict e X rs rc mg sg = Raise (if (rs && rc)%bool then RuntimeError else ValueError).
Proof. exact c54_single. Qed.
Print Assumptions C54_single.
(** The prior variance of DotProduct depends on the point, which the gradient of the deviation leaves out. *)
Theorem C54_dot_product_refuted : exists e X y e' x m s gm gs, fit keep linv1 solve1 e X y = Ok e' /\
  predict e' [x] true false true true = Ok (mkAnswer [m] (Some [s]) (Some gm) (Some gs)) /\ 0 < s /\
  (forall t, In t X -> smooth (user_kernel e) x t) /\
  ~ gradient (fun x => first (stds (predict e' [x] true false false false))) x gs.
Proof. exact dot_refuted. Qed.
Print Assumptions C54_dot_product_refuted.
Example C54_case : exists m s gm gs, predict exact1' [[1]] true false true true = Ok (mkAnswer [m] (Some [s]) (Some gm) (Some gs)) /\
  / 100000000 < s /\ Forall (fun t => length [1] = length t /\ smooth rbf1 [1] t) [[0]] /\ no_dot rbf1.
Proof. exact exact_at_1. Qed.

(** A fit of a kernel without noise term: one noise level [v] is found and reported, it enters the matrix that is
    inverted, on the diagonal, next to alpha, and the predictions are those of the kernel without it. *)
Theorem C55_first_fit_partial : forall tune linv solve, (forall k X y, same_shape k (tune k X y)) ->
  forall e X y e', fit tune linv solve e X y = Ok e' -> e_noise e <> NoNoise -> no_white (user_kernel e) ->
  exists g k1 v K, e_fitted e' = Some g /\ same_shape (user_kernel e) k1 /\ g_noise g = Some v /\ linv K = Some (g_Linv g) /\
    g_alpha g = solve K (map (fun w => (w - g_ymean g) / g_ystd g) y) /\
    (forall i j x t, nth_error X i = Some x -> nth_error X j = Some t -> exists c, kcall k1 2 x t = Ok c /\
      entry K i j = c + (if Nat.eqb i j then v + e_alpha e else 0)) /\
    (forall X' rs, predict e' X' rs false false false = predict (with_kernel e' k1) X' rs false false false).
Proof. exact c55. Qed.
Print Assumptions C55_first_fit_partial.
Theorem C55_no_noise : forall tune linv solve, (forall k X y, same_shape k (tune k X y)) ->
  forall e X y e', fit tune linv solve e X y = Ok e' -> e_noise e = NoNoise ->
  exists g, e_fitted e' = Some g /\ same_shape (user_kernel e) (g_kernel g) /\ g_noise g = None.
Proof. exact c55_none. Qed.
Print Assumptions C55_no_noise.
(** fit appends a second noise term to the kernel attribute when it is called again, and only one is removed from the
    predictions: after the second fit the deviation at a training point is above that of the prior. *)
Theorem C55_refit_refuted : exists e X y e1 e2 x m1 s1 m2 s2,
  no_white (user_kernel e) /\ fit keep linv1 solve1 e X y = Ok e1 /\ fit keep linv1 solve1 e1 X y = Ok e2 /\
  predict (prior e (user_kernel e)) [x] true false false false = Ok (mkAnswer [0] (Some [1]) None None) /\
  predict e1 [x] true false false false = Ok (mkAnswer [m1] (Some [s1]) None None) /\ s1 < 1 /\
  predict e2 [x] true false false false = Ok (mkAnswer [m2] (Some [s2]) None None) /\ 1 < s2.
Proof. exact refit_refuted. Qed.
Print Assumptions C55_refit_refuted.
Example C55_case : (forall k X y, same_shape k (keep k X y)) /\ lin_ok linv1 solve1 /\ no_white (user_kernel noisy1) /\
  fit keep linv1 solve1 noisy1 [[0]] [3] = Ok noisy1' /\
  predict noisy1' [[0]] true false false false = Ok (mkAnswer [3 / 2] (Some [sqrt (/ 2)]) None None).
Proof. exact (conj keep_shape (conj lin1 (conj I (conj noisy_fit noisy_std1)))). Qed.

(** The predicted deviation is at most that of the prior with the same kernel, in units of the scale of y. *)
Theorem C67_prior : forall e g x ans, e_fitted e = Some g -> predict e [x] true false false false = Ok ans ->
  exists m s p, ans = mkAnswer [m] (Some [s]) None None /\
    predict (prior e (g_kernel g)) [x] true false false false = Ok (mkAnswer [0] (Some [p]) None None) /\
    0 <= s <= Rabs (g_ystd g) * p.
Proof. exact c67_prior. Qed.
Print Assumptions C67_prior.
(** At a training point the deviation is at most that of the noise (alpha included), and the mean misses the observed
    value by the noise variance times a weight; without noise the observation is reproduced with deviation 0. *)
Theorem C67_training : forall tune linv solve, (forall k X y, same_shape k (tune k X y)) -> lin_ok linv solve ->
  forall e X y e' i x yi, fit tune linv solve e X y = Ok e' -> no_white (user_kernel e) -> length y = length X ->
  nth_error X i = Some x -> nth_error y i = Some yi ->
  exists g m s, e_fitted e' = Some g /\ predict e' [x] true false false false = Ok (mkAnswer [m] (Some [s]) None None) /\
    let sigma2 := e_alpha e + match g_noise g with Some v => v | None => 0 end in
    m = yi - g_ystd g * sigma2 * nth i (g_alpha g) 0 /\
    (0 <= sigma2 -> 0 <= s <= Rabs (g_ystd g) * sqrt sigma2) /\ (sigma2 = 0 -> m = yi /\ s = 0).
Proof. exact c67_training. Qed.
Print Assumptions C67_training.
Example C67_case : lin_ok linv1 solve1 /\ no_white (user_kernel exact1) /\ fit keep linv1 solve1 exact1 [[0]] [3] = Ok exact1'.
Proof. exact (conj lin1 (conj I exact_fit)). Qed.

(** The gradients that the "lbfgs" search follows: those of the acquisition functions of the regressor. *)
Theorem C68_lcb : forall cdf pdf e g, e_fitted e = Some g -> forall x m s gm gs,
  predict e [x] true false true true = Ok (mkAnswer [m] (Some [s]) (Some gm) (Some gs)) ->
  Forall (fun t => length x = length t /\ smooth (g_kernel g) x t) (g_X g) -> no_dot (g_kernel g) -> / 100000000 < s ->
  forall y xi k, exists v gd,
    gaussian_acquisition_1D Rops cdf pdf x (Single (gp_predictor e true)) y "LCB" xi k true = Ok ([v], Some gd) /\
    gradient (fun x => value_of (gaussian_acquisition_1D Rops cdf pdf x (Single (gp_predictor e false)) y "LCB" xi k false)) x gd.
Proof. exact gp_lcb. Qed.
Print Assumptions C68_lcb.
Theorem C68_ei : forall cdf pdf, std_normal cdf pdf -> forall e g, e_fitted e = Some g -> forall x m s gm gs,
  predict e [x] true false true true = Ok (mkAnswer [m] (Some [s]) (Some gm) (Some gs)) ->
  Forall (fun t => length x = length t /\ smooth (g_kernel g) x t) (g_X g) -> no_dot (g_kernel g) -> / 100000000 < s ->
  forall y xi k, exists v gd,
    gaussian_acquisition_1D Rops cdf pdf x (Single (gp_predictor e true)) (Some y) "EI" xi k true = Ok ([v], Some gd) /\
    gradient (fun x => value_of (gaussian_acquisition_1D Rops cdf pdf x (Single (gp_predictor e false)) (Some y) "EI" xi k false)) x gd.
Proof. exact gp_ei. Qed.
Print Assumptions C68_ei.
Theorem C68_pi : forall cdf pdf, std_normal cdf pdf -> forall e g, e_fitted e = Some g -> forall x m s gm gs,
  predict e [x] true false true true = Ok (mkAnswer [m] (Some [s]) (Some gm) (Some gs)) ->
  Forall (fun t => length x = length t /\ smooth (g_kernel g) x t) (g_X g) -> no_dot (g_kernel g) -> / 100000000 < s ->
  forall y xi k, exists v gd,
    gaussian_acquisition_1D Rops cdf pdf x (Single (gp_predictor e true)) (Some y) "PI" xi k true = Ok ([v], Some gd) /\
    gradient (fun x => value_of (gaussian_acquisition_1D Rops cdf pdf x (Single (gp_predictor e false)) (Some y) "PI" xi k false)) x gd.
Proof. exact gp_pi. Qed.
Print Assumptions C68_pi.
(** The point of [C54_case] meets the hypotheses. *)
Example C68_case : exists m s gm gs, predict exact1' [[1]] true false true true = Ok (mkAnswer [m] (Some [s]) (Some gm) (Some gs)) /\
  / 100000000 < s /\ Forall (fun t => length [1] = length t /\ smooth rbf1 [1] t) [[0]] /\ no_dot rbf1.
Proof. exact exact_at_1. Qed.
