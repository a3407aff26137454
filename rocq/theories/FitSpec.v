(** Vocabulary of C74: what a model was fitted to. *)
From Coq Require Import String List ZArith Bool.
From Verif Require Import Base Num Values Transformers Dimension Space Optimizer.
Import ListNotations.
Open Scope list_scope.
Set Implicit Arguments.

Section FitSpec.
  Context {N M : Type} (O : numops N) (W : world N M).
  (** [m] is what the estimator learns from the points [xs], warped, and the observations [ys]. *)
  Definition fitted_to (dims : list (dim N)) (xs : list (xarg N)) (ys : list (yval N)) (m : M) : Prop :=
    exists P Xt, xs = map (@X1 N) P /\ space_transform O dims P = Ok Xt /\ w_fit W Xt ys = Ok m.
  (** The same in terms of a result, which keeps only the objective values. *)
  Definition fitted_on (dims : list (dim N)) (xs : list (xarg N)) (vals : list N) (m : M) : Prop :=
    exists ys, vals = map y_obj ys /\ fitted_to dims xs ys m.
End FitSpec.
