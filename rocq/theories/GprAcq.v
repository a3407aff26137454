(** acquisition.py with a Gaussian process regressor as the model: what model.predict(X, return_std=True) and, with
    gradients, model.predict(X, return_std=True, return_mean_grad=True, return_std_grad=True) return (130-137, 196-204,
    279-287). *)
From Coq Require Import List Reals.
From Verif Require Import Base Num Acquisition Kernels Gpr.
Import ListNotations.

Definition gp_predictor (e : gpr) (grad : bool) : @predictor R := fun X =>
  match Gpr.predict e X true false grad grad with
  | Ok (mkAnswer m (Some s) (Some gm) (Some gs)) => Ok (mkPred true m s gm gs)
  | Ok (mkAnswer m (Some s) _ _) => if grad then Raise ValueError else Ok (mkPred true m s [] [])
  | Ok (mkAnswer _ None _ _) => Raise ValueError
  | Raise x => Raise x
  end.
