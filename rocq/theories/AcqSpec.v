(** What acquisition values mean, stated with integrals and derivatives. *)
From Coq Require Import List Reals.
From Coquelicot Require Import Coquelicot.
From Verif Require Import Base Acquisition.
Import ListNotations.
Open Scope R_scope.

(** The density of the normal distribution with mean [m] and standard deviation [s]. *)
Definition density (m s y : R) : R := exp (- (((y - m) / s) * ((y - m) / s)) / 2) / (s * sqrt (2 * PI)).

(** [cdf] and [pdf] are the distribution function and density of the standard normal distribution. *)
Definition std_normal (cdf pdf : R -> R) : Prop :=
  (forall x, pdf x = density 0 1 x) /\
  (forall x, is_RInt_gen (density 0 1) (Rbar_locally m_infty) (at_point x) (cdf x)).

(** [v] is the expectation of [u Y] for a normal [Y]. *)
Definition expectation (m s : R) (u : R -> R) (v : R) : Prop :=
  is_RInt_gen (fun y => u y * density m s y) (Rbar_locally m_infty) (Rbar_locally p_infty) v.

(** [v] is the probability that a normal [Y] is below [c]. *)
Definition probability_below (m s c v : R) : Prop :=
  is_RInt_gen (density m s) (Rbar_locally m_infty) (at_point c) v.

(** The model predicts the means [mus] and standard deviations [stds] for the rows [X]. *)
Definition predicts (m : @acq_model R) (X : list (list R)) (mus stds : list R) : Prop :=
  exists r, predict m X = Ok r /\ p_1d r = true /\ p_mu r = mus /\ p_std r = stds.

(** [x] with its i-th coordinate replaced. *)
Fixpoint put (x : list R) (i : nat) (t : R) : list R :=
  match x, i with
  | [], _ => []
  | _ :: l, 0%nat => t :: l
  | a :: l, S i' => a :: put l i' t
  end.
(** [g] is the gradient of [f] at [x]. *)
Definition gradient (f : list R -> R) (x g : list R) : Prop :=
  length g = length x /\
  forall i a d, nth_error x i = Some a -> nth_error g i = Some d -> is_derive (fun t => f (put x i t)) a d.

(** A regressor whose predicted mean and deviation at a point are [m] and [s], with the gradients [gm] and [gs]. *)
Definition regressor (m s : list R -> R) (gm gs : list R -> list R) : @predictor R :=
  fun X => match X with
           | [x] => Ok (mkPred true [m x] [s x] (gm x) (gs x))
           | _ => Ok (mkPred true (map m X) (map s X) [] [])
           end.
