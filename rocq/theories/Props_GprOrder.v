(** C94: what a Gaussian process regressor does not depend on, in exact arithmetic: the order of the observations and,
    when it normalises them, the unit and the zero of their scale. *)
From Coq Require Import List ZArith Reals Lra Permutation.
From Verif Require Import Base Kernels KernelPsdSpec Gpr GprSpec GprSamples Cholesky CholTotal GprOrder GprAffine.
Import ListNotations.
Open Scope R_scope.

(** Hyper-parameters chosen without regard to the order of the observations: fitting the same observations in another
    order succeeds, too, and every prediction (means, standard deviations, gradients, covariances) is the same. *)
Theorem C94_order : forall tune d, (forall k X y, valid k d -> valid (tune k X y) d) ->
  (forall k X y X' y', length X = length y -> length X' = length y' -> Permutation (combine X y) (combine X' y') -> tune k X y = tune k X' y') ->
  forall e X y X' y' e1, valid (user_kernel e) d -> match e_noise e with NoiseLevel v => 0 <= v | _ => True end -> 0 <= e_alpha e ->
  Forall (fun x => length x = d) X -> length X = length y -> length X' = length y' -> Permutation (combine X y) (combine X' y') ->
  fit tune cho_inv cho_weights e X y = Ok e1 ->
  exists e2, fit tune cho_inv cho_weights e X' y' = Ok e2 /\
    (forall Xs rs rc mg sg ans, predict e1 Xs rs rc mg sg = Ok ans <-> predict e2 Xs rs rc mg sg = Ok ans) /\
    (forall Xs mg sg ans, predict_cov e1 Xs mg sg = Ok ans <-> predict_cov e2 Xs mg sg = Ok ans).
Proof. exact c94_order. Qed.
Print Assumptions C94_order.

(** Observations in another unit, y -> a y + b: means move along, standard deviations and gradients scale with a,
    covariances with its square. *)
Theorem C94_unit : forall tune linv solve a b e X y e1, 0 < a -> e_normalize e = true -> fit tune linv solve e X y = Ok e1 ->
  exists e2, fit tune linv solve e X (map (fun v => a * v + b) y) = Ok e2 /\
    (forall Xs rs mg m s gm sd, predict e1 Xs rs false mg false = Ok (mkAnswer m s gm sd) ->
       predict e2 Xs rs false mg false =
       Ok (mkAnswer (map (fun v => a * v + b) m) (option_map (map (fun v => a * v)) s) (option_map (map (fun v => a * v)) gm) sd)) /\
    (forall Xs m C, predict_cov e1 Xs false false = Ok (m, C) ->
       predict_cov e2 Xs false false = Ok (map (fun v => a * v + b) m, map (map (fun c => a * a * c)) C)).
Proof. exact c94_unit. Qed.
Print Assumptions C94_unit.

(** Three observations, one of them repeated with another value, fitted with normalisation and a noise term, and read
    backwards *)
Example C94_case :
  (forall k X y, valid k 2 -> valid (keep k X y) 2) /\
  (forall k X y X' y', length X = length y -> length X' = length y' -> Permutation (combine X y) (combine X' y') -> keep k X y = keep k X' y') /\
  let e := mkGpr (Some (Prod (Const 1) (Matern Nu5Half (Aniso [1; 2])))) NoiseGaussian (/ 100) true None in
  let X := [[0; 1]; [3; 4]; [0; 1]] in let y := [1; 2; 3] in
  valid (user_kernel e) 2 /\ 0 <= e_alpha e /\ Forall (fun x => length x = 2%nat) X /\ Permutation (combine X y) (combine (rev X) (rev y)) /\
  exists e1, fit keep cho_inv cho_weights e X y = Ok e1 /\
    exists m s, predict e1 [[1; 1]; [0; 1]] true false false false = Ok (mkAnswer m (Some s) None None).
Proof.
  split; [intros k X y H; exact H|]. split; [reflexivity|]. cbv zeta.
  set (e := mkGpr (Some (Prod (Const 1) (Matern Nu5Half (Aniso [1; 2])))) NoiseGaussian (/ 100) true None).
  assert (V : valid (user_kernel e) 2) by (repeat constructor; lra). assert (FX : Forall (fun x : list R => length x = 2%nat) [[0; 1]; [3; 4]; [0; 1]]) by (repeat constructor).
  split; [exact V|]. split; [cbn; lra|]. split; [exact FX|]. split; [exact (Permutation_rev (combine [[0; 1]; [3; 4]; [0; 1]] [1; 2; 3]))|].
  destruct (c81 keep 2 (fun k X y H => H) e _ [1; 2; 3] V I ltac:(cbn; lra) FX) as (e1 & He & HP).
  { intros _. exists 1, 2. cbn. repeat split; auto. lra. }
  exists e1. split; [exact He|]. destruct (HP [[1; 1]; [0; 1]]) as (m & s & _ & Hm & _); [repeat constructor|discriminate|]. now exists m, s.
Qed.
