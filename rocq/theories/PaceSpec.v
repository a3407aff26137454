(** What a candidate is worth per second, given the normal distributions predicted for its objective value and for the
    logarithm of its computation time. *)
From Coq Require Import List Reals.
From Verif Require Import Base Acquisition AcqSpec Optimizer WorthSpec.
Open Scope R_scope.
Set Implicit Arguments.

(** [pace mt st e]: the reciprocal of the time is expected to be [e]. *)
Inductive pace (mt : R) : R -> R -> Prop :=
| pace_noisy st e : 0 < st -> expectation mt st (fun t => exp (- t)) e -> pace mt st e
| pace_sure : pace mt 0 (/ exp mt).

(** The acquisition functions that count the time, and what they count per second. *)
Inductive per_second_of : acq1 -> acq1 -> Prop := ps_ei : per_second_of EIps EI | ps_pi : per_second_of PIps PI.

Definition worth_ps (y : R) (xi : option R) (k : option (@kappa_arg R)) (a : acq1) (mu s mt st v : R) : Prop :=
  exists b w e, per_second_of a b /\ worth y xi k b mu s w /\ pace mt st e /\ v = w * e.
