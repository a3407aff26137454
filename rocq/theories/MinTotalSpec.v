(** Minimisers called as documented (C91), over the reals. *)
From Coq Require Import String List ZArith Bool Reals.
From Verif Require Import Base Num Values Dimension Space Optimizer SpaceSpec OptSpec CampaignSpec Minimize MinSpec.
Import ListNotations.
Open Scope list_scope.
Set Implicit Arguments.

Section MinTotalSpec.
  Context {RNG M : Type} (W : world R M) (need : list (yval R) -> Prop).

  (** The space in use: gp_minimize and every optimizer with a Gaussian process scale all dimensions to [0, 1]. *)
  Definition used (m : minimizer) (a : oargs R) (d : list (dim R)) : Prop :=
    match m with
    | MGp _ => set_kinds_all KNormalize (a_dims a) = Ok d
    | _ => d = a_dims a \/ scales a /\ set_kinds_all KNormalize (a_dims a) = Ok d
    end.
  (** forest_minimize and gbrt_minimize take no acq_optimizer. *)
  Definition acqopt_for (m : minimizer) (a : oargs R) : string := match m with MForest | MGbrt => "sampling" | _ => a_acqopt a end.

  (** acq_optimizer "auto" is the minimizer for an estimator that has gradients or is wrapped for observations with times. *)
  Definition may_lbfgs (m : minimizer) (a : oargs R) (acq : acqf) : Prop :=
    acqopt_for m a = "auto"%string /\ exists e, a_est a = Some e /\ (ed_grad e = true \/ is_ps acq = true).

  (** Documented arguments: a known acquisition function, a regressor (or none), positive numbers where these count
      something; the given points lie in the space, with a value for each or none; the objective has a value of the right
      kind everywhere in the space; callbacks do not raise. *)
  Record orderly (m : minimizer) (f : objective R) (a : margs R RNG M) (x0 : list (point R)) (acq : acqf) : Prop := {
    or_acq : acq_of (a_acq (m_opt a)) = Some acq;
    or_est : match a_est (m_opt a) with Some e => ed_regressor e = true | None => is_ps acq = false /\ a_gen (m_opt a) = false end;
    or_opt : In (acqopt_for m (m_opt a)) ["auto"; "sampling"]%string;
    or_dims : a_dims (m_opt a) <> [] /\ a_npoints (m_opt a) <> 0 /\ a_restarts (m_opt a) <> 0 /\
              match a_queue (m_opt a) with None => True | Some q => (0 < q)%Z end;
    or_given : given (m_x0 a) x0 /\ Forall (in_space Rops (a_dims (m_opt a))) x0;
    or_values : match values_of (m_y0 a) with
                | Some ys => length ys = length x0 /\ Forall (valid_y1 Rops (is_ps acq)) ys
                | None => m_y0 a = Y0None
                end;
    or_calls : (0 <= n_initial a)%Z /\ (x0 = [] -> 0 < n_initial a)%Z /\
               (n_initial a + match values_of (m_y0 a) with Some _ => 0 | None => Z.of_nat (length x0) end <= m_ncalls a)%Z;
    or_fun : forall k p, in_space Rops (a_dims (m_opt a)) p -> exists y, f k p = Ok y /\ valid_y1 Rops (is_ps acq) y;
    or_callbacks : match m_callback a with CBOther => False | _ => True end /\
                   forall c seen, In c (callbacks_of a) -> exists d, c seen = Ok d }.
  (** The space in use, and the components where they are used, are up to it ([workable], [dependable]: CampaignSpec.v). *)
  Definition up_to_it (m : minimizer) (a : oargs R) (acq : acqf) : Prop :=
    forall d lb, used m a d -> (lb = true -> may_lbfgs m a acq) -> Forall workable d /\ dependable W need d acq lb.
End MinTotalSpec.

(** Two of the given values differ, and two of the times if there are times. *)
Definition differing (ps : bool) (ys : list (yarg R)) : Prop :=
  if ps then
    (exists v t v' t', In (YLst [YNum v; YNum t]) ys /\ In (YLst [YNum v'; YNum t']) ys /\ v <> v') /\
    (exists v t v' t', In (YLst [YNum v; YNum t]) ys /\ In (YLst [YNum v'; YNum t']) ys /\ t <> t')
  else exists a b, In (YNum a) ys /\ In (YNum b) ys /\ a <> b.
