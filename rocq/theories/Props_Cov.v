(** C78, C79: kernel matrices and predicted covariances, over the reals. [covariance K] says that K is square, symmetric
    and that c' K c is never negative; [valid k d] that the hyper-parameters of k are in range for d features. *)
From Coq Require Import List ZArith Reals Lra.
From Verif Require Import Base Kernels KernelPsdSpec Gpr GprSpec GprSamples GprCov GprCov2 CovSamples.
Import ListNotations.
Open Scope R_scope.

(** The matrix that fit factorises, for any number of points, repeated ones included: it has a value and is a
    covariance; with a positive alpha it is positive definite, so that its Cholesky factor exists. *)
Theorem C78_kernel_partial : forall k d X alpha, valid k d -> Forall (fun x => length x = d) X -> 0 <= alpha ->
  exists K, train_matrix k alpha X = Ok K /\ length K = length X /\ covariance K /\ (0 < alpha -> positive_definite K).
Proof. exact c78. Qed.
Print Assumptions C78_kernel_partial.
(** The default kernel of the optimizer with its noise term, on two features *)
Example C78_case : valid (Sum (Prod (Const 1) (Matern Nu5Half (Aniso [1; 2]))) (White 1)) 2 /\ Forall (fun x : list R => length x = 2%nat) [[0; 1]; [3; 4]; [0; 1]].
Proof. repeat constructor; lra. Qed.
(** What is missing. ExpSineSquared on several features is no covariance, *)
Theorem C78_periodic_refuted : exists l p X K, 0 < l /\ 0 < p /\ Forall (fun x => length x = 2%nat) X /\
  train_matrix (ExpSine l p) 0 X = Ok K /\ ~ covariance K.
Proof. exact periodic_refuted. Qed.
Print Assumptions C78_periodic_refuted.
(** nor is Exponentiation with a fractional exponent. *)
Theorem C78_exponent_refuted : exists s p X K, Forall (fun x => length x = 1%nat) X /\
  train_matrix (Expo (Dot s) (EReal p)) 0 X = Ok K /\ ~ covariance K.
Proof. exact exponent_refuted. Qed.
Print Assumptions C78_exponent_refuted.

(** predict with return_cov=True after fit: the means are those that come with the deviations; the matrix is a
    covariance whose diagonal holds the squared deviations; it is bounded by the prior covariance, which is what
    predict returns before fit with the same kernel. *)
Theorem C79_covariance : forall tune linv solve d, (forall k X y, valid k d -> valid (tune k X y) d) -> lin_ok linv solve ->
  forall e X y e' X', fit tune linv solve e X y = Ok e' -> valid (user_kernel e) d ->
  match e_noise e with NoiseLevel v => 0 <= v | _ => True end -> 0 <= e_alpha e ->
  Forall (fun x => length x = d) X -> Forall (fun x => length x = d) X' -> X' <> [] ->
  exists g m s C P, e_fitted e' = Some g /\ predict_cov e' X' false false = Ok (m, C) /\
    predict e' X' true false false false = Ok (mkAnswer m (Some s) None None) /\
    predict_cov (prior e' (g_kernel g)) X' false false = Ok (map (fun _ => 0) X', P) /\
    length C = length X' /\ length s = length X' /\ covariance C /\
    (forall i, (i < length X')%nat -> 0 <= nth i s 0 /\ nth i s 0 * nth i s 0 = entry C i i) /\
    (forall c, length c = length X' -> dot c (map (dot c) C) <= g_ystd g * g_ystd g * dot c (map (dot c) P)).
Proof. exact c79. Qed.
Print Assumptions C79_covariance.
Example C79_case : (forall k X y, valid k 1 -> valid (keep k X y) 1) /\ lin_ok linv1 solve1 /\ valid (user_kernel exact1) 1 /\
  0 <= e_alpha exact1 /\ fit keep linv1 solve1 exact1 [[0]] [3] = Ok exact1'.
Proof. split; [intros k X y H; exact H|]. split; [exact lin1|]. split; [exact Rlt_0_1|]. split; [exact (Rle_refl 0)|exact exact_fit]. Qed.
