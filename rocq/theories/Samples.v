(** Concrete inputs used by the non-vacuity examples that accompany the theorems. *)
From Coq Require Import String List ZArith.
From Flocq Require Import IEEE754.BinarySingleNaN.
From Verif Require Import Base Num Values Dimension.
Import ListNotations.
Open Scope list_scope.

(** Some library of elementary functions; the examples do not depend on which. *)
Definition L0 : libm := {|
  l_log10 := fun x => x; l_pow := fun b _ => b; l_exp := fun x => x; l_log := fun x => x;
  l_str := fun _ => EmptyString; l_parse := fun _ => None |}.
Definition O0 := F64 L0.

Definition real1 (k : tkind) : dim float :=
  DReal (mkReal (fofZ (-5)) (fofZ 10) PUniform (fofZ 10) k (Some "x"%string) DT64).
Definition int1 (k : tkind) : dim float :=
  DInt (mkInt (-3) 12 PUniform (fofZ 10) k (Some "n"%string) int64).
Definition cat3 (k : tkind) : dim float :=
  DCat (mkCat [VStr "b"; VStr "a"; VStr "c"]%string None k (Some "c"%string)).
Definition cat2 (k : tkind) : dim float := DCat (mkCat [VInt 7; VInt 3] None k None).
Definition space4 : list (dim float) :=
  [real1 KIdentity; int1 KNormalize; cat3 KOnehot; cat2 KNormalize].

(** Values with floats shown by sign, mantissa and exponent. *)
Definition view (v : pyval float) : pyval SpecFloat.spec_float :=
  match v with
  | VInt z => VInt z | VFloat x => VFloat (BinarySingleNaN.B2SF x) | VBool b => VBool b
  | VStr s => VStr s | VNone => VNone
  end.
