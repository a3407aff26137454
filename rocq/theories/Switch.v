(** skopt/space/space.py: changing the transformers of Dimension objects and of a Space, 284-324, 475-511, 623-659,
    905-940, as objects that are changed in place. *)
From Coq Require Import String List ZArith Bool.
From Verif Require Import Base Num Values Transformers Dimension Space.
Import ListNotations.
Open Scope list_scope.
Set Implicit Arguments.

(** The names of the transformers. *)
Definition kind_of (s : string) : option tkind :=
  if String.eqb s "identity" then Some KIdentity
  else if String.eqb s "normalize" then Some KNormalize
  else if String.eqb s "onehot" then Some KOnehot
  else if String.eqb s "string" then Some KString
  else if String.eqb s "label" then Some KLabel
  else None.
Definition kind_name (k : tkind) : string :=
  (match k with KIdentity => "identity" | KNormalize => "normalize" | KOnehot => "onehot" | KString => "string"
   | KLabel => "label" end)%string.

(** A Dimension object: the attribute [transform_], which is assigned before it is checked, and the rest, with the
    transformer that is in place. *)
Record dobj (N : Type) := mkObj { ob_label : string; ob_dim : dim N }.

Section Switch.
  Context {N : Type} (O : numops N).
  Notation obj := (dobj N).

  (** An object as its constructor leaves it, 252-282, 437-473, 604-621 *)
  Definition new_obj (d : dim N) : obj := mkObj (kind_name (dim_kind d)) d.

  (** set_transformer of Real, Integer and Categorical: [transform_] is assigned (293, 484, 632), then checked. *)
  Definition set_transformer (s : string) (o : obj) : obj * res unit :=
    match kind_of s with
    | None => (mkObj s (ob_dim o), Raise ValueError)
    | Some k =>
      match set_kind k (ob_dim o) with
      | Ok d => (mkObj s d, Ok tt)
      | Raise e => (mkObj s (ob_dim o), Raise e)
      end
    end.

  (** What an object shows: transform and inverse_transform use the transformer in place ... *)
  Definition obj_transform (o : obj) : list (pyval N) -> res (arr (pyval N)) := dim_transform O (ob_dim o).
  Definition obj_inverse (o : obj) : arr (pyval N) -> res (list (pyval N)) := dim_inverse O (ob_dim o).
  (** ... while transformed_size and transformed_bounds look at [transform_] (366-374, 553-558, 702-709, 722-727). *)
  Definition labelled (o : obj) : dim N :=
    let k := if String.eqb (ob_label o) "normalize" then KNormalize
             else if String.eqb (ob_label o) "onehot" then KOnehot else KIdentity in
    match ob_dim o with
    | DReal r => DReal (mkReal (r_low r) (r_high r) (r_prior r) (r_base r) k (r_name r) (r_dtype r))
    | DInt i => DInt (mkInt (i_low i) (i_high i) (i_prior i) (i_base i) k (i_name i) (i_dtype i))
    | DCat c => DCat (mkCat (c_cats c) (c_prior c) k (c_name c))
    end.
  Definition obj_tsize (o : obj) : nat := tsize (labelled o).
  Definition obj_tbounds (o : obj) : list (N * N) := tbounds O (labelled o).

  (** Space.set_transformer, 905-920: a name for all, or a list of names; the loop stops at the first exception. *)
  Inductive targ := TOne (s : string) | TList (l : list string).
  Fixpoint space_set (t : targ) (ds : list obj) : list obj * res unit :=
    match ds with
    | [] => ([], Ok tt)
    | d :: ds' =>
      match (match t with TOne s => Some (s, t) | TList [] => None | TList (s :: l) => Some (s, TList l) end) with
      | None => (d :: ds', Raise IndexError)
      | Some (s, t') =>
        match set_transformer s d with
        | (d', Ok _) => let '(r, e) := space_set t' ds' in (d' :: r, e)
        | (d', Raise e) => (d' :: ds', Raise e)
        end
      end
    end.
  (** Space.set_transformer_by_type, 922-936 *)
  Inductive dtype := TyReal | TyInteger | TyCategorical.
  Definition has_type (t : dtype) (d : dim N) : bool :=
    match t, d with TyReal, DReal _ | TyInteger, DInt _ | TyCategorical, DCat _ => true | _, _ => false end.
  Fixpoint set_by_type (s : string) (t : dtype) (ds : list obj) : list obj * res unit :=
    match ds with
    | [] => ([], Ok tt)
    | d :: ds' =>
      if has_type t (ob_dim d) then
        match set_transformer s d with
        | (d', Ok _) => let '(r, e) := set_by_type s t ds' in (d' :: r, e)
        | (d', Raise e) => (d' :: ds', Raise e)
        end
      else let '(r, e) := set_by_type s t ds' in (d :: r, e)
    end.
  (** Space.get_transformer, 938-940 *)
  Definition get_transformer (ds : list obj) : list string := map (@ob_label N) ds.
End Switch.
