(** Number systems: the operations the Python code applies to numbers, as a record with two
    instances, IEEE binary64 ([F64]) and exact reals ([Rops]). *)
From Coq Require Import String List ZArith Bool Lia Reals Lra Psatz.
From Flocq Require Import Core.Core IEEE754.BinarySingleNaN.
Set Implicit Arguments.
Local Open Scope Z_scope.

(** Float dtypes accepted by [Real(..., dtype=)] (space.py 270-278). *)
Inductive fdtype := DT64 | DT32 | DT16.

Record numops (N : Type) := mkNum {
  nadd : N -> N -> N;
  nsub : N -> N -> N;
  nmul : N -> N -> N;
  ndiv : N -> N -> N;
  nabs : N -> N;
  nltb : N -> N -> bool;              (* a <  b, False on NaN *)
  nleb : N -> N -> bool;              (* a <= b, False on NaN *)
  nofZ : Z -> N;                      (* float(int) *)
  nround : N -> N;                    (* np.round, half to even *)
  ntoint : N -> Z;                    (* .astype(int64) *)
  nlog10 : N -> N;                    (* np.log10 *)
  npow : N -> N -> N;                 (* base ** x *)
  nexp : N -> N;                      (* np.exp *)
  nlog : N -> N;                      (* math.log *)
  nsucc : N -> N;                     (* np.nextafter(x, x + 1.) *)
  ncast : fdtype -> N -> N;           (* .astype(dtype) and back *)
  neps : N;                           (* 1e-8 *)
  nhalf : N;                          (* 0.5 *)
  nstr : N -> string;                 (* str(x) *)
  nparse : string -> option N         (* float(s), None = ValueError *)
}.

(** ** IEEE binary64 *)

Definition float := binary_float 53 1024.

Definition prec64 : Prec_gt_0 53 := eq_refl.
Definition emax64 : Prec_lt_emax 53 1024 := eq_refl.
Definition prec32 : Prec_gt_0 24 := eq_refl.
Definition emax32 : Prec_lt_emax 24 128 := eq_refl.
Definition prec16 : Prec_gt_0 11 := eq_refl.
Definition emax16 : Prec_lt_emax 11 16 := eq_refl.
#[global] Existing Instances prec64 emax64.

Definition fadd : float -> float -> float := @Bplus 53 1024 prec64 emax64 mode_NE.
Definition fsub : float -> float -> float := @Bminus 53 1024 prec64 emax64 mode_NE.
Definition fmul : float -> float -> float := @Bmult 53 1024 prec64 emax64 mode_NE.
Definition fdiv : float -> float -> float := @Bdiv 53 1024 prec64 emax64 mode_NE.
Definition fabs : float -> float := @Babs 53 1024.
Definition fround : float -> float := @Bnearbyint 53 1024 emax64 mode_NE.
Definition fofZ (z : Z) : float := @binary_normalize 53 1024 prec64 emax64 mode_NE z 0 false.

Definition fltb (x y : float) : bool :=
  match Bcompare x y with Some Lt => true | _ => false end.
Definition fleb (x y : float) : bool :=
  match Bcompare x y with Some Lt => true | Some Eq => true | _ => false end.

(** [astype(np.int64)] on x86-64: truncation; NaN, infinities and values out of range give
    -2^63. *)
Definition ftoint (x : float) : Z :=
  if is_finite x then
    let t := Btrunc x in
    if (Z.abs t <? 2 ^ 63)%Z then t else - 2 ^ 63
  else - 2 ^ 63.

(** [np.nextafter(x, x + 1.)] *)
Definition fnext (x : float) : float :=
  let y := fadd x (fofZ 1) in
  if fltb x y then @Bsucc 53 1024 prec64 emax64 x else if fleb x y then x else y.

(** Rounding to a narrower format and reading the value back as binary64. *)
Definition fcast_to (p e : Z) (Hp : Prec_gt_0 p) (He : Prec_lt_emax p e) (x : float) : float :=
  match x with
  | B754_finite s m ex _ =>
    match @binary_normalize p e Hp He mode_NE (cond_Zopp s (Zpos m)) ex s with
    | B754_finite s' m' ex' _ =>
      @binary_normalize 53 1024 prec64 emax64 mode_NE (cond_Zopp s' (Zpos m')) ex' s'
    | B754_zero s' => B754_zero s'
    | B754_infinity s' => B754_infinity s'
    | B754_nan => B754_nan
    end
  | _ => x
  end.

Definition fcast (d : fdtype) (x : float) : float :=
  match d with
  | DT64 => x
  | DT32 => fcast_to prec32 emax32 x
  | DT16 => fcast_to prec16 emax16 x
  end.

(** 1e-8 and 0.5 correctly rounded. *)
Definition feps : float := fdiv (fofZ 1) (fofZ 100000000).
Definition fhalf : float := fdiv (fofZ 1) (fofZ 2).

(** What libm and the float printer contribute: arbitrary functions. *)
Record libm := {
  l_log10 : float -> float;
  l_pow : float -> float -> float;
  l_exp : float -> float;
  l_log : float -> float;
  l_str : float -> string;
  l_parse : string -> option float
}.

Definition F64 (L : libm) : numops float := {|
  nadd := fadd; nsub := fsub; nmul := fmul; ndiv := fdiv; nabs := fabs;
  nltb := fltb; nleb := fleb; nofZ := fofZ; nround := fround; ntoint := ftoint;
  nlog10 := l_log10 L; npow := l_pow L; nexp := l_exp L; nlog := l_log L;
  nsucc := fnext; ncast := fcast; neps := feps; nhalf := fhalf;
  nstr := l_str L; nparse := l_parse L |}.

(** ** Exact reals *)

Definition Rltb (x y : R) : bool := if Rlt_dec x y then true else false.
Definition Rleb' (x y : R) : bool := if Rle_dec x y then true else false.

(** Exact-arithmetic idealisation: [nsucc] is the identity and [ncast] does not round. *)
Definition Rops : numops R := {|
  nadd := Rplus; nsub := Rminus; nmul := Rmult; ndiv := Rdiv; nabs := Rabs;
  nltb := Rltb; nleb := Rleb'; nofZ := IZR;
  nround := fun x => IZR (ZnearestE x); ntoint := Ztrunc;
  nlog10 := fun x => (ln x / ln 10)%R; npow := Rpower; nexp := exp; nlog := ln;
  nsucc := fun x => x; ncast := fun _ x => x; neps := (/ 100000000)%R; nhalf := (/ 2)%R;
  nstr := fun _ => EmptyString; nparse := fun _ => None |}.

(** ** Derived comparisons *)
Section Derived.
  Context {N : Type} (O : numops N).
  Definition nisnan (x : N) : bool := negb (nleb O x x).
  Definition neqb (x y : N) : bool := nleb O x y && nleb O y x.
  (** np.clip on one element: minimum(maximum(x, lo), hi); NaN propagates. *)
  Definition nclip (lo hi x : N) : N :=
    if nltb O x lo then (if nltb O hi lo then hi else lo)
    else if nltb O hi x then hi else x.
End Derived.
