(** Vocabulary for telling observations at once and one after the other (C96). *)
From Coq Require Import String List ZArith Bool.
From Verif Require Import Base Num Values Dimension Space Optimizer.
Import ListNotations.
Open Scope list_scope.
Set Implicit Arguments.

Section BatchSpec.
  Context {N RNG M : Type} (O : numops N) (G : rng_ops N RNG) (W : world N M).
  Notation state := (opt N RNG M).
  (** The observations told one after the other, with fit=False for all but the last. *)
  Fixpoint one_by_one (pts : list (point N)) (ys : list (yarg N)) (fit : bool) (o : state) : state * res (result N RNG M) :=
    match pts, ys with
    | [p], [y] => tell O G W (X1 p) y fit o
    | p :: pts', y :: ys' =>
      match tell O G W (X1 p) y false o with
      | (o', Ok _) => one_by_one pts' ys' fit o'
      | (o', Raise e) => (o', Raise e)
      end
    | _, _ => (o, Raise ValueError)
    end.
  (** Points told one by one, successfully, each with or without a fit. *)
  Inductive told_singly : list (point N * yarg N * bool) -> state -> state -> Prop :=
  | ts_nil o : told_singly [] o o
  | ts_cons p y fit l o o1 o2 r : tell O G W (X1 p) y fit o = (o1, Ok r) -> told_singly l o1 o2 -> told_singly ((p, y, fit) :: l) o o2.
End BatchSpec.
