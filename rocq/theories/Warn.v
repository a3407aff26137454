(** Model of the warning of Optimizer.ask, skopt/optimizer/optimizer.py 441-450. *)
From Coq Require Import String List ZArith Bool.
From Verif Require Import Base Num Values Dimension Space Optimizer.
Import ListNotations.
Open Scope list_scope.
Set Implicit Arguments.

Section Warn.
  Context {N RNG M : Type} (O : numops N).

  (** Python's min of a list: the first of the least elements, None for an empty list (ValueError) *)
  Definition py_min (l : list N) : option N :=
    match l with [] => None | a :: l' => Some (fold_left (fun m x => if nltb O x m then x else m) l' a) end.

  (** optimizer.py 441-450: does _ask, called now, warn that the objective has been evaluated at this point before? False
      where _ask does not come that far: for initial points (430-439), and where it raises ([ask1] in Optimizer.v). Filters on
      warnings are not modelled. *)
  Definition ask_warns (o : opt N RNG M) : bool :=
    if (0 <? o_left o)%Z || negb (has_est o) then false
    else
      match o_models o, o_next o with
      | _ :: _, Some p =>
        match mapM (fun xi => q <- plain xi ;; space_distance O (c_dims (o_cfg o)) p q) (o_Xi o) with
        | Ok ds => match py_min ds with Some m => nleb O (nabs O m) (neps O) | None => false end
        | Raise _ => false
        end
      | _, _ => false
      end.
End Warn.
