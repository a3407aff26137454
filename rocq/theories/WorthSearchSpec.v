(** What is assumed of the minimizer of the acquisition function (C100). *)
From Coq Require Import List ZArith Reals.
From Verif Require Import Base Num Values Optimizer SpaceSpec.
Import ListNotations.
Open Scope list_scope.
Set Implicit Arguments.

(** scipy's fmin_l_bfgs_b, started within the bounds: it ends within them, at a point where the function has the value
    returned, and this is not above the value at the start. *)
Definition descends {M : Type} (W : world R M) (b : list (R * R)) : Prop :=
  forall a m yopt s s' v v0, within (O := Rops) b s -> w_acq W a m yopt [s] = Ok [v0] -> w_lbfgs W a m yopt b s = Ok (s', v) ->
    within (O := Rops) b s' /\ w_acq W a m yopt [s'] = Ok [v] /\ (v <= v0)%R.
