(** skopt/space/space.py 43-136: check_dimension, and Space.__init__ (770-771). *)
From Coq Require Import String List ZArith Bool.
From Verif Require Import Base Num Values Dimension.
Import ListNotations.
Open Scope list_scope.
Set Implicit Arguments.

Section CheckDim.
  Context {N : Type} (O : numops N).
  Notation val := (pyval N).

  (** The argument of check_dimension: a Dimension, a list/tuple/array of plain values, or
      something else. Numbers are Python ints and floats; numpy integers, which are
      [numbers.Integral] but not [int], are not modelled. *)
  Inductive darg := CDim (d : dim N) | CSeq (l : list val) | COther.

  (** [isinstance] tests used by the code; [bool] is a subclass of [int]. *)
  Definition is_str_bool (v : val) : bool := match v with VStr _ | VBool _ => true | _ => false end.
  Definition is_int (v : val) : bool := match v with VInt _ | VBool _ => true | _ => false end.
  Definition is_real (v : val) : bool := match v with VInt _ | VBool _ | VFloat _ => true | _ => false end.

  (** [v in ["uniform", "log-uniform"]] and the prior it names. *)
  Definition prior_of (v : val) : option prior :=
    match v with
    | VStr s => if String.eqb s "uniform" then Some PUniform
                else if String.eqb s "log-uniform" then Some PLogUniform else None
    | _ => None
    end.

  (** Integer(low, high, prior, base, transform=k) and Real(...) applied to plain values. Comparing
      a str or None with a number raises TypeError. An Integer with a float bound is built by
      Python but has no counterpart here. *)
  Definition call_integer (a b : val) (p : prior) (base : N) (k : option tkind) : res (dim N) :=
    match a, b with
    | (VInt _ | VBool _), (VInt _ | VBool _) =>
      let z v := match v with VInt z => z | VBool b => b2z b | _ => 0%Z end in
      make_int (z a) (z b) p base k None int64
    | (VStr _ | VNone), _ | _, (VStr _ | VNone) => Raise TypeError
    | _, _ => Raise NotModelled
    end.
  Definition call_real (a b : val) (p : prior) (base : N) (k : option tkind) : res (dim N) :=
    match to_num O a, to_num O b with
    | Some x, Some y => make_real O x y p base k None DT64
    | _, _ => Raise TypeError
    end.
  Definition ten : N := nofZ O 10.

  (** check_dimension, space.py 87-136. *)
  Definition check_dimension (k : option tkind) (d : darg) : res (dim N) :=
    match d with
    | CDim d => Ok d
    | COther => Raise ValueError
    | CSeq l =>
      match l with
      | [] => Raise ValueError
      | [_] => make_cat l None k None
      | [a; b] =>
        if existsb is_str_bool l then make_cat l None k None
        else if forallb is_int l then call_integer a b PUniform ten k
        else if existsb is_real l then call_real a b PUniform ten k
        else Raise ValueError
      | [a; b; p] =>
        match prior_of p with
        | Some pr =>
          if existsb is_int [a; b] then call_integer a b pr ten k
          else if existsb is_real [a; b] then call_real a b pr ten k
          else make_cat l None k None
        | None => make_cat l None k None
        end
      | [a; b; p; base] =>
        match prior_of p, is_int base, to_num O base with
        | Some PLogUniform, true, Some bs =>
          if existsb is_int [a; b] then call_integer a b PLogUniform bs k
          else if existsb is_real [a; b] then call_real a b PLogUniform bs k
          else make_cat l None k None
        | _, _, _ => make_cat l None k None
        end
      | _ => make_cat l None k None
      end
    end.

  (** Space.__init__, space.py 770-771. *)
  Definition make_space (ds : list darg) : res (list (dim N)) := mapM (check_dimension None) ds.
End CheckDim.
Arguments CDim {N} d.
Arguments CSeq {N} l.
Arguments COther {N}.
