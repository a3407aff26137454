(** C81: the factorisation behind the Gaussian process regressor, over the reals, and that fit therefore succeeds.
    [cho_inv] and [cho_weights] are scipy's Cholesky routines as fit uses them. *)
From Coq Require Import List ZArith Reals Lra.
From Verif Require Import Base Kernels KernelPsdSpec Gpr GprSpec GprSamples Cholesky CholTotal.
Import ListNotations.
Open Scope R_scope.

(** The factorisation exists exactly for the positive definite matrices, *)
Theorem C81_exists : forall K, symmetric K -> ((exists A, cho_inv K = Some A) <-> positive_definite K).
Proof. exact cho_iff. Qed.
Print Assumptions C81_exists.
(** and gives the inverse of the matrix and the solution of the linear system: what the theorems about fitted
    regressors (C55, C67, C79) assume of these routines. *)
Theorem C81_solves : lin_ok cho_inv cho_weights.
Proof. exact cho_ok. Qed.
Print Assumptions C81_solves.
(** A two by two matrix that can be factorised *)
Example C81_case : symmetric [[2; 1]; [1; 2]] /\ positive_definite [[2; 1]; [1; 2]].
Proof.
  assert (S : symmetric [[2; 1]; [1; 2]]).
  { split; [repeat constructor|]. intros [|[|[|i]]] [|[|[|j]]]; reflexivity. }
  split; [exact S|]. apply C81_exists; [exact S|]. cbn -[sqrt]. destruct (Rlt_dec 0 2) as [_|]; [|lra].
  unfold cho_inv, cholesky. cbn -[sqrt]. destruct (Rlt_dec 0 2) as [_|]; [|lra]. cbn -[sqrt].
  destruct (Rlt_dec 0 (2 - 1 / sqrt 2 * (1 / sqrt 2))) as [_|N]; [eexists; reflexivity|]. exfalso. apply N.
  assert (sqrt 2 * sqrt 2 = 2) by (apply sqrt_sqrt; lra). assert (0 < sqrt 2) by (apply sqrt_lt_R0; lra).
  replace (1 / sqrt 2 * (1 / sqrt 2)) with (/ (sqrt 2 * sqrt 2)) by (field; lra). rewrite H. lra.
Qed.

(** With a positive alpha, however many points and however often repeated, fit succeeds, and so do the predictions. *)
Theorem C81_fit : forall tune d, (forall k X y, valid k d -> valid (tune k X y) d) ->
  forall e X y, valid (user_kernel e) d ->
  match e_noise e with NoiseOther => False | NoiseLevel v => 0 <= v | _ => True end -> 0 < e_alpha e ->
  Forall (fun x => length x = d) X -> (e_normalize e = true -> exists a b, In a y /\ In b y /\ a <> b) ->
  exists e', fit tune cho_inv cho_weights e X y = Ok e' /\
    forall X', Forall (fun x => length x = d) X' -> X' <> [] -> exists m s C,
      predict e' X' true false false false = Ok (mkAnswer m (Some s) None None) /\
      predict_cov e' X' false false = Ok (m, C) /\ length m = length X' /\ length s = length X' /\ length C = length X'.
Proof. exact c81. Qed.
Print Assumptions C81_fit.
Example C81_fit_case : (forall k X y, valid k 2 -> valid (keep k X y) 2) /\
  let e := mkGpr (Some (Prod (Const 1) (Matern Nu5Half (Aniso [1; 2])))) NoiseGaussian (/ 100) true None in
  valid (user_kernel e) 2 /\ 0 < e_alpha e /\ Forall (fun x : list R => length x = 2%nat) [[0; 1]; [3; 4]; [0; 1]] /\
  exists a b, In a [1; 2; 3] /\ In b [1; 2; 3] /\ a <> b.
Proof.
  split; [intros k X y H; exact H|]. cbv zeta. split; [repeat constructor; lra|]. split; [cbn; lra|]. split; [repeat constructor|].
  exists 1, 2. cbn. repeat split; auto. lra.
Qed.
(** Without it, a repeated point is enough for LinAlgError. *)
Theorem C81_repeated : forall tune, (forall k X y, tune k X y = k) -> exists e X y, valid (user_kernel e) 1 /\ noise_fits (e_noise e) /\
  e_alpha e = 0 /\ Forall (fun x => length x = 1%nat) X /\ e_normalize e = false /\
  fit tune cho_inv cho_weights e X y = Raise LinAlgError.
Proof. exact c81_repeated. Qed.
Print Assumptions C81_repeated.
