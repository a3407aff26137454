(** Vocabulary of the space properties (C01-C12): what it means for a value to belong to a
    dimension, which dimensions are considered, and the textbook un-warping formula. Nothing here
    uses the transformer objects of the model. *)
From Coq Require Import String List ZArith Bool Reals.
From Flocq Require IEEE754.BinarySingleNaN.
From Verif Require Import Base Num Values Transformers Dimension.
Import ListNotations.
Open Scope list_scope.
Set Implicit Arguments.

Section SpaceSpec.
  Context {N : Type} (O : numops N).
  Notation val := (pyval N).

  (** Membership. *)
  Inductive in_dim : dim N -> val -> Prop :=
  | in_real r x : nleb O (r_low r) x = true -> nleb O x (r_high r) = true -> in_dim (DReal r) (VFloat x)
  | in_int i z : (i_low i <= z <= i_high i)%Z -> in_dim (DInt i) (VInt z)
  | in_cat c v : In v (c_cats c) -> in_dim (DCat c) v.

  (** One coordinate per dimension, each in its dimension. *)
  Definition in_space (dims : list (dim N)) (p : list val) : Prop := Forall2 in_dim dims p.

  (** What the constructors guarantee, plus: bounds are not NaN, Real dtype is float64, Integer
      bounds are exactly representable floats and fit the dtype. *)
  Definition wf_real (r : real_dim N) : Prop :=
    nltb O (r_low r) (r_high r) = true /\ r_dtype r = DT64 /\ (r_kind r = KIdentity \/ r_kind r = KNormalize).
  Definition wf_int (i : int_dim N) : Prop :=
    (i_low i < i_high i)%Z /\ (Z.abs (i_low i) <= 2 ^ 53)%Z /\ (Z.abs (i_high i) <= 2 ^ 53)%Z /\
    (forall z, (i_low i <= z <= i_high i)%Z -> int_cast (i_dtype i) z = z) /\
    (i_kind i = KIdentity \/ i_kind i = KNormalize).

  (** Categories of one Python type. *)
  Definition homogeneous (l : list val) : Prop := exists t, Forall (fun v => type_of v = t) l.
  (** Distinct categories: each equal (Python ==) to itself and to no other one. *)
  Definition distinct (l : list val) : Prop :=
    Forall (fun v => py_eqb O v v = true) l /\ ForallOrdPairs (fun a b => py_eqb O a b = false) l.
  Definition wf_cat (c : cat_dim N) : Prop :=
    c_cats c <> [] /\ homogeneous (c_cats c) /\ distinct (c_cats c).

  Definition wf_dim (d : dim N) : Prop :=
    match d with DReal r => wf_real r | DInt i => wf_int i | DCat c => wf_cat c end.

  (** The documented un-warping: undo the scaling to [0, 1], then undo the logarithm. *)
  Definition unwarp (low high base : N) (p : prior) (k : tkind) (z : N) : N :=
    let warp1 x := match p with PUniform => x | PLogUniform => ndiv O (nlog10 O x) (nlog10 O base) end in
    let lo := warp1 low in
    let hi := warp1 high in
    let y := match k with KNormalize => nadd O (nmul O z (nsub O hi lo)) lo | _ => z end in
    match p with PUniform => y | PLogUniform => npow O base y end.

  Definition unwarp_dim (d : dim N) (z : N) : option N :=
    match d with
    | DReal r => Some (unwarp (r_low r) (r_high r) (r_base r) (r_prior r) (r_kind r) z)
    | DInt i => Some (unwarp (nofZ O (i_low i)) (nofZ O (i_high i)) (i_base i) (i_prior i) (i_kind i) z)
    | DCat _ => None
    end.
End SpaceSpec.

Section SpaceSpec2.
  Context {N : Type} (O : numops N).
  Notation val := (pyval N).

  (** A value as the float numpy reads it as. *)
  Definition as_float (v : val) : val := match to_num O v with Some x => VFloat x | None => v end.

  (** Dimensions for which un-warping a warped value is exact in float64 arithmetic: Integer with
      uniform prior (bounds up to 2^50 when normalised), Real with uniform prior and no scaling,
      Categorical with a numeric encoding. *)
  Definition exact_dim (d : dim N) : Prop :=
    wf_dim O d /\
    match d with
    | DReal r => r_prior r = PUniform /\ r_kind r = KIdentity
    | DInt i => i_prior i = PUniform /\
        (i_kind i = KNormalize ->
          (Z.abs (i_low i) <= 2 ^ 50 /\ Z.abs (i_high i) <= 2 ^ 50 /\ i_high i - i_low i <= 2 ^ 50)%Z)
    | DCat c => (c_kind c = KOnehot \/ c_kind c = KLabel \/ c_kind c = KNormalize) /\
        (Z.of_nat (length (c_cats c)) <= 2 ^ 50)%Z
    end.

  (** Categories whose text form reads back as the same value. *)
  Definition str_ok (v : val) : Prop :=
    match v with
    | VStr _ | VInt _ => True
    | VFloat x => nparse O (nstr O x) = Some x
    | VBool _ | VNone => False
    end.

  (** Every entry of a warped value lies within the declared bounds. *)
  Definition within (bs : list (N * N)) (row : list val) : Prop :=
    Forall2 (fun b x => exists y, to_num O x = Some y /\ nleb O (fst b) y = true /\ nleb O y (snd b) = true) bs row.

  (** [row] is the warped form of the single coordinate [v], as floats. *)
  Definition warped_by (d : dim N) (v : val) (row : list val) : Prop :=
    exists a r, dim_transform O d [v] = Ok a /\ rows_of a = [r] /\ row = map as_float r.
End SpaceSpec2.
Arguments str_ok {N O} v.
Arguments within {N O} bs row.
Arguments warped_by {N O} d v row.

(** Float64 dimensions from which sampling is defined: the interval drawn from has a finite end and
    a finite width (a base-[b] logarithm for log-uniform priors), the category weights have one
    entry per category. *)
Section SpaceSpecF64.
  Context (L : libm).
  Definition fin_interval (lo hi : float) : Prop :=
    BinarySingleNaN.is_finite lo = true /\ BinarySingleNaN.is_finite (fsub hi lo) = true /\
    BinarySingleNaN.is_finite (fnext (fsub hi lo)) = true.
  Definition warp_end (p : prior) (base x : float) : float :=
    match p with PUniform => x | PLogUniform => fdiv (l_log10 L x) (l_log10 L base) end.
  Definition samplable (d : dim float) : Prop :=
    wf_dim (F64 L) d /\
    match d with
    | DReal r =>
      fin_interval (warp_end (r_prior r) (r_base r) (r_low r)) (warp_end (r_prior r) (r_base r) (r_high r)) /\
      (r_prior r = PLogUniform -> fltb (fofZ 0) (r_base r) = true)
    | DInt i =>
      fin_interval (warp_end (i_prior i) (i_base i) (fofZ (i_low i)))
                   (warp_end (i_prior i) (i_base i) (fofZ (i_high i))) /\
      (i_prior i = PLogUniform -> fltb (fofZ 0) (i_base i) = true)
    | DCat c =>
      (Z.of_nat (length (c_cats c)) <= 2 ^ 50)%Z /\
      match c_prior c with None => True | Some p => length p = length (c_cats c) end
    end.
  (** [base ** y] is a number for a positive base. *)
  Definition pow_ok : Prop :=
    forall b y, fltb (fofZ 0) b = true -> BinarySingleNaN.is_nan y = false ->
                BinarySingleNaN.is_nan (l_pow L b y) = false.
End SpaceSpecF64.

(** Dimensions whose documented warping is invertible over the reals: logarithms need positive
    bounds and a positive base other than 1; scaling to [0, 1] needs an increasing logarithm. *)
Definition log_ok (p : prior) (k : tkind) (base low : Rdefinitions.R) : Prop :=
  p = PLogUniform ->
  (0 < low)%R /\ (0 < base)%R /\ base <> 1%R /\ (k = KNormalize -> (1 < base)%R).
Definition ideal_dim (d : dim Rdefinitions.R) : Prop :=
  match d with
  | DReal r => wf_real Rops r /\ log_ok (r_prior r) (r_kind r) (r_base r) (r_low r)
  | DInt i => (i_prior i = PUniform -> exact_dim Rops d) /\ wf_int i /\
              log_ok (i_prior i) (i_kind i) (i_base i) (IZR (i_low i))
  | DCat c => exact_dim Rops d
  end.

(** Dimensions whose declared warped bounds are right. In float64: exact dimensions other than
    label-encoded ones, and Real dimensions with uniform prior scaled to [0, 1] whose width is
    finite. *)
Definition bounded64 (L : libm) (d : dim float) : Prop :=
  match d with
  | DReal r =>
    exact_dim (F64 L) d \/
    (wf_real (F64 L) r /\ r_prior r = PUniform /\ r_kind r = KNormalize /\
     BinarySingleNaN.is_finite (r_low r) = true /\ BinarySingleNaN.is_finite (r_high r) = true /\
     BinarySingleNaN.is_finite (fsub (r_high r) (r_low r)) = true)
  | DInt _ => exact_dim (F64 L) d
  | DCat c => exact_dim (F64 L) d /\ c_kind c <> KLabel
  end.
(** Over the reals also logarithmic dimensions when scaled to [0, 1], and Real ones in base 10. *)
Definition boundedR (d : dim Rdefinitions.R) : Prop :=
  ideal_dim d /\
  match d with
  | DReal r => r_prior r = PLogUniform -> r_kind r = KNormalize \/ r_base r = 10%R
  | DInt i => i_prior i = PLogUniform -> i_kind i = KNormalize
  | DCat c => c_kind c <> KLabel
  end.

(** *** C09-C12 *)
Section SpaceSpec3.
  Context {N : Type} (O : numops N).
  Notation val := (pyval N).

  (** The numbers and labels a dimension accepts: a number between the bounds (compared as
      integers when both are), or a value equal to a category. *)
  Inductive accepts : dim N -> val -> Prop :=
  | acc_real r v x : to_num O v = Some x -> nleb O (r_low r) x = true -> nleb O x (r_high r) = true ->
      accepts (DReal r) v
  | acc_int i z : (i_low i <= z <= i_high i)%Z -> accepts (DInt i) (VInt z)
  | acc_int_num i v x : (forall z, v <> VInt z) -> to_num O v = Some x ->
      nleb O (nofZ O (i_low i)) x = true -> nleb O x (nofZ O (i_high i)) = true -> accepts (DInt i) v
  | acc_cat c v w : In w (c_cats c) -> py_eqb O w v = true -> accepts (DCat c) v.
  (** Values that can be compared with the bounds of the dimension at all. *)
  Definition comparable (d : dim N) (v : val) : Prop :=
    match d with DCat _ => True | _ => to_num O v <> None end.

  (** The shorthands read as a numeric dimension: two numbers, two values of which one is a number
      followed by the name of a prior, the same with the log-uniform prior and an int base. *)
  Definition num_like (v : val) : bool := match v with VInt _ | VFloat _ | VBool _ => true | _ => false end.
  Definition prior_named (v : val) (p : prior) : Prop :=
    v = VStr (match p with PUniform => "uniform" | PLogUniform => "log-uniform" end)%string.
  Inductive numeric_shorthand : list val -> Prop :=
  | ns2 a b : (forall s, a <> VStr s) -> (forall s, b <> VStr s) -> (forall x, a <> VBool x) ->
      (forall x, b <> VBool x) -> numeric_shorthand [a; b]
  | ns3 a b v p : num_like a = true \/ num_like b = true -> prior_named v p -> numeric_shorthand [a; b; v]
  | ns4 a b v base : num_like a = true \/ num_like b = true -> prior_named v PLogUniform ->
      (exists z, base = VInt z) \/ (exists t, base = VBool t) -> numeric_shorthand [a; b; v; base].
End SpaceSpec3.

(** What equality of dimensions does guarantee: the same class; for Real the same prior and transform
    and bounds up to the tolerance; for Integer the same bounds below 10^5 in size; for
    Categorical equal categories in the same order. *)
Definition close (x y : Rdefinitions.R) : Prop := (Rabs (x - y) <= / 100000000 + / 100000 * Rabs y)%R.
Inductive same_dim : dim Rdefinitions.R -> dim Rdefinitions.R -> Prop :=
| same_real x y : close (r_low x) (r_low y) -> close (r_high x) (r_high y) -> r_prior x = r_prior y ->
    r_kind x = r_kind y -> same_dim (DReal x) (DReal y)
| same_int x y : ((Z.abs (i_low y) < 99999)%Z -> i_low x = i_low y) ->
    ((Z.abs (i_high y) < 99999)%Z -> i_high x = i_high y) -> same_dim (DInt x) (DInt y)
| same_cat x y : Forall2 (fun v w => py_eqb Rops v w = true) (c_cats x) (c_cats y) ->
    same_dim (DCat x) (DCat y).
