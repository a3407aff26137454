(** Vocabulary for what verbose=True prints (C95). *)
From Coq Require Import String List ZArith Bool.
From Verif Require Import Base Num Values Dimension Space Optimizer OptSpec Minimize MinSpec CbSpec Verbose.
Import ListNotations.
Open Scope list_scope.
Set Implicit Arguments.

Section VerboseSpec.
  Context {N : Type}.
  (** Iterations numbered from [k]: for each the points evaluated, then the report (time taken, value, minimum), then the
      announcement of the next iteration if there is to be one. [kd] says how an iteration is described. *)
  Fixpoint chronicle (kd : Z -> kind) (n_total k : Z) (data : list (list (point N) * (N * N * N))) : list (shown N) :=
    match data with
    | [] => []
    | (pts, (tm, v, w)) :: rest =>
      map (@Evaluated N) pts ++
      [Line (Status k false (kd k)); Line (TimeTaken tm); Line (Value v); Line (Minimum w)] ++
      (if (k <? n_total)%Z then [Line (Status (k + 1) true (kd (k + 1)))] else []) ++
      chronicle kd n_total (k + 1) rest
    end%Z.
  Definition announces (kd : Z -> kind) (n_total : Z) (data : list (list (point N) * (N * N * N))) : list (shown N) :=
    Line (Status 1 true (kd 1%Z)) :: chronicle kd n_total 1 data.
  (** [v] is the newest of [seen], [w] the least. *)
  Definition reports (O : numops N) (seen : list N) (v w : N) : Prop :=
    (exists l, seen = l ++ [v]) /\ (no_nan O seen -> least O seen w).
End VerboseSpec.
