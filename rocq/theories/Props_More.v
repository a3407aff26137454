(** C101: what further observations do to the deviations a Gaussian process predicts, over the reals. [linv] and [solve]
    are scipy's Cholesky routines (C81), [tune] sklearn's choice of hyper-parameters, here one that does not depend on
    the observations, as with optimizer=None or fixed bounds. *)
From Coq Require Import List ZArith Reals Lra.
From Verif Require Import Base Kernels KernelPsdSpec Gpr GprSpec GprSamples Cholesky CholTotal GprMore MoreCases.
Import ListNotations.
Open Scope R_scope.

(** Fitting to further points, whatever was observed at them and at the first ones, makes the deviation at no point
    larger; with normalize_y deviations are compared in the unit they have, the spread of the observations. *)
Theorem C101_certain : forall tune linv solve, (forall k X y X' y', tune k X y = tune k X' y') -> lin_ok linv solve ->
  forall e X y X2 y' e1 e2 x m1 s1 m2 s2,
  fit tune linv solve e X y = Ok e1 -> fit tune linv solve e (X ++ X2) y' = Ok e2 ->
  predict e1 [x] true false false false = Ok (mkAnswer [m1] (Some [s1]) None None) ->
  predict e2 [x] true false false false = Ok (mkAnswer [m2] (Some [s2]) None None) ->
  if e_normalize e then s2 * std y <= s1 * std y' else s2 <= s1.
Proof. exact c101. Qed.
Print Assumptions C101_certain.
Example C101_case : (forall k X y X' y', keep k X y = keep k X' y') /\ lin_ok cho_inv cho_weights /\
  exists e1 e2 m1 s1 m2 s2, fit keep cho_inv cho_weights more_e [[0]] [3] = Ok e1 /\
  fit keep cho_inv cho_weights more_e ([[0]] ++ [[1]; [0]]) [3; 5; 4] = Ok e2 /\
  predict e1 [[2]] true false false false = Ok (mkAnswer [m1] (Some [s1]) None None) /\
  predict e2 [[2]] true false false false = Ok (mkAnswer [m2] (Some [s2]) None None).
Proof. exact (conj (fun _ _ _ _ _ => eq_refl) (conj cho_ok more_case)). Qed.

(** What was observed does not matter to the deviations, only where. *)
Theorem C101_values : forall tune linv solve, (forall k X y X' y', tune k X y = tune k X' y') -> lin_ok linv solve ->
  forall e X y y' e1 e2 x m1 s1 m2 s2,
  fit tune linv solve e X y = Ok e1 -> fit tune linv solve e X y' = Ok e2 ->
  predict e1 [x] true false false false = Ok (mkAnswer [m1] (Some [s1]) None None) ->
  predict e2 [x] true false false false = Ok (mkAnswer [m2] (Some [s2]) None None) ->
  if e_normalize e then s2 * std y = s1 * std y' else s2 = s1.
Proof. exact c101_values. Qed.
Print Assumptions C101_values.

(** With normalize_y, as in gp_minimize, the deviation itself can grow: an outlier widens the spread. *)
Theorem C101_spread_refuted : exists e X y X2 y2 e1 e2 m1 s1 m2 s2, e_normalize e = true /\
  fit keep cho_inv cho_weights e X y = Ok e1 /\ fit keep cho_inv cho_weights e (X ++ X2) (y ++ y2) = Ok e2 /\
  predict e1 [[0]] true false false false = Ok (mkAnswer [m1] (Some [s1]) None None) /\
  predict e2 [[0]] true false false false = Ok (mkAnswer [m2] (Some [s2]) None None) /\ s1 < s2.
Proof. exact spread_refuted. Qed.
Print Assumptions C101_spread_refuted.
