(** skopt/utils.py: search spaces given as dicts and points with named coordinates (453-566), and the
    decorator use_named_args (610-795). *)
From Coq Require Import String List ZArith Bool.
From Verif Require Import Base Num Values Transformers Dimension.
Import ListNotations.
Open Scope list_scope.
Set Implicit Arguments.

(** [sorted(keys)] for keys that are strings; Python compares strings by code points. *)
Fixpoint key_insert (k : string) (l : list string) : list string :=
  match l with
  | [] => [k]
  | k' :: l' => if String.leb k k' then k :: l else k' :: key_insert k l'
  end.
Definition sorted_keys (l : list string) : list string := fold_right key_insert [] l.

(** [d[k]] *)
Definition dict_item {V} (d : list (string * V)) (k : string) : res V :=
  match dict_get String.eqb d k with Some v => Ok v | None => Raise KeyError end.

Section Named.
  Context {D V : Type}.
  (** A dict is the list of its items in insertion order. *)
  Definition sdict := list (string * D).

  (** dimensions_aslist, 453-486 *)
  Definition dimensions_aslist (sp : sdict) : res (list D) :=
    mapM (dict_item sp) (sorted_keys (map fst sp)).
  (** point_asdict, 489-526: an OrderedDict filled from a zip. *)
  Definition point_asdict (sp : sdict) (x : list V) : list (string * V) :=
    dict_of String.eqb (combine (sorted_keys (map fst sp)) x).
  (** point_aslist, 529-566 *)
  Definition point_aslist (sp : sdict) (d : list (string * V)) : res (list V) :=
    mapM (dict_item d) (sorted_keys (map fst sp)).
End Named.

Section NamedArgs.
  Context {V Y : Type}.
  (** An element of the list handed to use_named_args: a Dimension with its name, or anything else. *)
  Inductive named_elem := NDim (name : option string) | NOther.
  Definition is_dim (d : named_elem) : bool := match d with NDim _ => true | NOther => false end.
  Definition has_name (d : named_elem) : bool := match d with NDim (Some _) => true | _ => false end.
  (** check_list_types, 610-638 and check_dimension_names, 641-660. [name] is read only on dimensions. *)
  Definition check_list_types (ds : list named_elem) : res unit :=
    if forallb is_dim ds then Ok tt else Raise ValueError.
  Definition check_dimension_names (ds : list named_elem) : res unit :=
    if forallb has_name ds then Ok tt else Raise ValueError.
  (** [func] is called with keyword arguments: a dict. The wrapped function is returned as a value: decorating
      raises before any point is seen. *)
  Definition names_of (ds : list named_elem) : list string :=
    flat_map (fun d => match d with NDim (Some n) => [n] | _ => [] end) ds.
  (** use_named_args, 663-795 *)
  Definition use_named_args (ds : list named_elem) (func : list (string * V) -> res Y)
    : res (list V -> res Y) :=
    _ <- check_list_types ds ;;
    _ <- check_dimension_names ds ;;
    Ok (fun x => if negb (Nat.eqb (length x) (length ds)) then Raise ValueError
                 else func (dict_of String.eqb (combine (names_of ds) x))).
End NamedArgs.
