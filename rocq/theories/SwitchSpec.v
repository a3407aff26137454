(** Vocabulary for changing transformers (C87). *)
From Coq Require Import String List ZArith Bool.
From Verif Require Import Base Num Values Dimension Switch.
Import ListNotations.
Open Scope list_scope.
Set Implicit Arguments.

Section SwitchSpec.
  Context {N : Type}.
  (** Two dimensions that differ in the way they are warped only *)
  Definition alike (d d' : dim N) : Prop :=
    match d, d' with
    | DReal a, DReal b => r_low a = r_low b /\ r_high a = r_high b /\ r_prior a = r_prior b /\ r_base a = r_base b /\
                          r_name a = r_name b /\ r_dtype a = r_dtype b
    | DInt a, DInt b => i_low a = i_low b /\ i_high a = i_high b /\ i_prior a = i_prior b /\ i_base a = i_base b /\
                        i_name a = i_name b /\ i_dtype a = i_dtype b
    | DCat a, DCat b => c_cats a = c_cats b /\ c_prior a = c_prior b /\ c_name a = c_name b
    | _, _ => False
    end.
  (** The transformers the documentation offers for a dimension *)
  Definition offered (d : dim N) : list string :=
    (match d with
     | DCat _ => ["identity"; "onehot"; "string"; "normalize"; "label"]
     | _ => ["normalize"; "identity"]
     end)%string.
  (** The transformer in place is the one the object says it has, and one that is offered: objects as their constructors
      leave them. *)
  Definition honest (o : dobj N) : Prop := In (ob_label o) (offered (ob_dim o)) /\ ob_label o = kind_name (dim_kind (ob_dim o)).
  (** Of the type asked for *)
  Inductive of_type : dtype -> dim N -> Prop :=
  | of_real r : of_type TyReal (DReal r)
  | of_integer i : of_type TyInteger (DInt i)
  | of_categorical c : of_type TyCategorical (DCat c).
End SwitchSpec.
