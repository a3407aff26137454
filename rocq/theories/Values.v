(** Python values that occur as coordinates, categories and warped entries, with the
    parts of Python/numpy semantics the code relies on. *)
From Coq Require Import String List ZArith Bool Ascii Decimal DecimalString.
From Coq Require DecimalZ.
From Verif Require Import Base Num.
Import ListNotations.
Open Scope list_scope.
Set Implicit Arguments.

Inductive pyval (N : Type) :=
| VInt (z : Z)          (* int, np.int64 *)
| VFloat (x : N)        (* float, np.float64 *)
| VBool (b : bool)      (* bool, np.bool_ *)
| VStr (s : string)     (* str, np.str_ *)
| VNone.
Arguments VInt {N} z.
Arguments VFloat {N} x.
Arguments VBool {N} b.
Arguments VStr {N} s.
Arguments VNone {N}.

(** [type(v)], as far as the code looks at it. *)
Inductive pytype := TyInt | TyFloat | TyBool | TyStr | TyNone.
Definition type_of {N} (v : pyval N) : pytype :=
  match v with
  | VInt _ => TyInt | VFloat _ => TyFloat | VBool _ => TyBool | VStr _ => TyStr | VNone => TyNone
  end.

Definition pytype_eqb (a b : pytype) : bool :=
  match a, b with
  | TyInt, TyInt | TyFloat, TyFloat | TyBool, TyBool | TyStr, TyStr | TyNone, TyNone => true
  | _, _ => false
  end.

Section Values.
  Context {N : Type} (O : numops N).
  Notation val := (pyval N).

  Definition b2z (b : bool) : Z := if b then 1%Z else 0%Z.

  (** Numeric reading of a value (numpy conversion to float64). Comparison of an int with a
      float goes through this conversion; Python compares them exactly, which differs
      only for ints beyond 2^53. *)
  Definition to_num (v : val) : option N :=
    match v with
    | VInt z => Some (nofZ O z)
    | VFloat x => Some x
    | VBool b => Some (nofZ O (b2z b))
    | _ => None
    end.

  (** [a == b] *)
  Definition py_eqb (a b : val) : bool :=
    match a, b with
    | VStr s, VStr t => String.eqb s t
    | VNone, VNone => true
    | VInt x, VInt y => Z.eqb x y
    | VBool x, VBool y => Bool.eqb x y
    | VInt x, VBool y => Z.eqb x (b2z y)
    | VBool x, VInt y => Z.eqb (b2z x) y
    | VStr _, _ | _, VStr _ | VNone, _ | _, VNone => false
    | _, _ =>
      match to_num a, to_num b with
      | Some x, Some y => neqb O x y
      | _, _ => false
      end
    end.

  (** [a <= b]; None = TypeError *)
  Definition py_leb (a b : val) : option bool :=
    match a, b with
    | VInt x, VInt y => Some (Z.leb x y)
    | VStr s, VStr t => Some (match String.compare s t with Gt => false | _ => true end)
    | _, _ =>
      match to_num a, to_num b with
      | Some x, Some y => Some (nleb O x y)
      | _, _ => None
      end
    end.

  (** [str(v)] *)
  Definition py_str (v : val) : string :=
    match v with
    | VInt z => NilZero.string_of_int (Z.to_int z)
    | VFloat x => nstr O x
    | VBool b => if b then "True"%string else "False"%string
    | VStr s => s
    | VNone => "None"%string
    end.

  (** [dtype(s)] for a string [s]. [int(s)] is modelled on plain decimal notation only
      (Python also accepts blanks and underscores). [bool(s)] is true for every non-empty string. *)
  Definition py_construct (ty : pytype) (s : string) : res val :=
    match ty with
    | TyStr => Ok (VStr s)
    | TyInt => match NilZero.int_of_string s with
               | Some i => Ok (VInt (Z.of_int i))
               | None => Raise ValueError
               end
    | TyFloat => match nparse O s with Some x => Ok (VFloat x) | None => Raise ValueError end
    | TyBool => Ok (VBool (negb (String.eqb s "")))
    | TyNone => Raise TypeError
    end.

  (** Element type of [np.asarray(l)] and the converted elements: bool < int < float; numbers
      next to strings become strings; None makes an object array. The empty list is float. *)
  Definition has_ty (t : pytype) (l : list val) : bool := existsb (fun v => pytype_eqb (type_of v) t) l.
  Inductive npdtype := NBool | NInt | NFloat | NStr | NObject.
  Definition np_dtype (l : list val) : npdtype :=
    match l with
    | [] => NFloat
    | _ => if has_ty TyNone l then NObject
           else if has_ty TyStr l then NStr
           else if has_ty TyFloat l then NFloat
           else if has_ty TyInt l then NInt
           else NBool
    end.
  Definition np_convert (d : npdtype) (v : val) : val :=
    match d with
    | NObject => v
    | NStr => VStr (py_str v)
    | NFloat => match to_num v with Some x => VFloat x | None => v end
    | NInt => match v with VBool b => VInt (b2z b) | _ => v end
    | NBool => v
    end.
  Definition np_asarray (l : list val) : list val := map (np_convert (np_dtype l)) l.

  (** [np.unique(a)] of a homogeneous array: sorted without repetitions. NaN is not
      considered (it sorts last in numpy). *)
  Definition val_ltb (a b : val) : bool :=
    match a, b with
    | VInt x, VInt y => Z.ltb x y
    | VFloat x, VFloat y => nltb O x y
    | VBool x, VBool y => negb x && y
    | VStr s, VStr t => match String.compare s t with Lt => true | _ => false end
    | _, _ => false
    end.
  Fixpoint uniq_insert (v : val) (l : list val) : list val :=
    match l with
    | [] => [v]
    | w :: l' => if py_eqb w v then l
                 else if val_ltb v w then v :: l
                 else w :: uniq_insert v l'
    end.
  Definition np_unique (l : list val) : list val := fold_left (fun acc v => uniq_insert v acc) l [].

  (** [v in l] *)
  Definition py_in (v : val) (l : list val) : bool := existsb (fun w => py_eqb w v) l.
End Values.
