(** skopt/space/space.py: Real, Integer, Categorical *)
From Coq Require Import String List ZArith Bool.
From Verif Require Import Base Num Values Transformers.
Import ListNotations.
Open Scope list_scope.
Set Implicit Arguments.

Inductive prior := PUniform | PLogUniform.

(** The value of [transform_]. *)
Inductive tkind := KIdentity | KNormalize | KOnehot | KString | KLabel.

Definition tkind_eqb (a b : tkind) : bool :=
  match a, b with
  | KIdentity, KIdentity | KNormalize, KNormalize | KOnehot, KOnehot
  | KString, KString | KLabel, KLabel => true
  | _, _ => false
  end.
Definition prior_eqb (a b : prior) : bool :=
  match a, b with PUniform, PUniform | PLogUniform, PLogUniform => true | _, _ => false end.

(** Integer dtypes (space.py 456-469): signedness and width. *)
Record idtype := { id_signed : bool; id_bits : Z }.
Definition int64 : idtype := {| id_signed := true; id_bits := 64 |}.
Definition int8 : idtype := {| id_signed := true; id_bits := 8 |}.

(** [astype] between integer types: reduction modulo 2^bits. *)
Definition int_cast (d : idtype) (z : Z) : Z :=
  let m := (2 ^ id_bits d)%Z in
  let u := (z mod m)%Z in
  if id_signed d && (2 ^ (id_bits d - 1) <=? u)%Z then (u - m)%Z else u.

(** Real (space.py 252-282). Bounds are floats: an int bound is read as its float value.
    The base is a number. *)
Record real_dim (N : Type) := mkReal {
  r_low : N; r_high : N; r_prior : prior; r_base : N; r_kind : tkind;
  r_name : option string; r_dtype : fdtype }.

(** Integer (space.py 437-473). *)
Record int_dim (N : Type) := mkInt {
  i_low : Z; i_high : Z; i_prior : prior; i_base : N; i_kind : tkind;
  i_name : option string; i_dtype : idtype }.

(** Categorical (space.py 604-621): [prior=None] is stored as [c_prior = None], [prior_] is
    computed by [cat_prior]. *)
Record cat_dim (N : Type) := mkCat {
  c_cats : list (pyval N); c_prior : option (list N); c_kind : tkind; c_name : option string }.

Inductive dim (N : Type) := DReal (d : real_dim N) | DInt (d : int_dim N) | DCat (d : cat_dim N).

Section Dimension.
  Context {N : Type} (O : numops N).
  Notation val := (pyval N).

  (** log_base and [np.log10(b) / self.log_base] *)
  Definition logb (base x : N) : N := ndiv O (nlog10 O x) (nlog10 O base).

  (** *** Transformers: set_transformer, space.py 284-324, 475-511, 623-659 *)
  Definition real_transformer (d : real_dim N) : transformer N :=
    match r_kind d with
    | KNormalize =>
      match r_prior d with
      | PUniform => TPipeline [TIdentity; TNormalize (r_low d) (r_high d) false]
      | PLogUniform =>
        TPipeline [TLogN (r_base d);
                   TNormalize (logb (r_base d) (r_low d)) (logb (r_base d) (r_high d)) false]
      end
    | _ =>
      match r_prior d with
      | PUniform => TIdentity
      | PLogUniform => TLogN (r_base d)
      end
    end.

  Definition int_transformer (d : int_dim N) : transformer N :=
    match i_kind d with
    | KNormalize =>
      match i_prior d with
      | PUniform => TPipeline [TIdentity; TNormalize (nofZ O (i_low d)) (nofZ O (i_high d)) true]
      | PLogUniform =>
        TPipeline [TLogN (i_base d);
                   TNormalize (logb (i_base d) (nofZ O (i_low d)))
                              (logb (i_base d) (nofZ O (i_high d))) false]
      end
    | _ =>
      match i_prior d with
      | PUniform => TIdentity
      | PLogUniform => TLogN (i_base d)
      end
    end.

  Definition cat_transformer (d : cat_dim N) : transformer N :=
    match c_kind d with
    | KOnehot => TCatEnc (c_cats d)
    | KString => TString (match c_cats d with [] => TyStr | v :: _ => type_of v end)
    | KLabel => TLabelEnc (c_cats d)
    | KNormalize =>
      TPipeline [TLabelEnc (c_cats d);
                 TNormalize (nofZ O 0) (nofZ O (Z.of_nat (length (c_cats d)) - 1)) true]
    | KIdentity => TIdentity
    end.

  Definition dim_transformer (d : dim N) : transformer N :=
    match d with
    | DReal r => real_transformer r | DInt i => int_transformer i | DCat c => cat_transformer c
    end.

  Definition dim_kind (d : dim N) : tkind :=
    match d with DReal r => r_kind r | DInt i => i_kind i | DCat c => c_kind c end.
  Definition dim_name (d : dim N) : option string :=
    match d with DReal r => r_name r | DInt i => i_name i | DCat c => c_name c end.

  (** [set_transformer(kind)]: ValueError for kinds the class does not support. Python assigns
      [transform_] before the check; this failure path is not needed below. *)
  Definition set_kind (k : tkind) (d : dim N) : res (dim N) :=
    match d with
    | DReal r =>
      match k with
      | KIdentity | KNormalize =>
        Ok (DReal (mkReal (r_low r) (r_high r) (r_prior r) (r_base r) k (r_name r) (r_dtype r)))
      | _ => Raise ValueError
      end
    | DInt i =>
      match k with
      | KIdentity | KNormalize =>
        Ok (DInt (mkInt (i_low i) (i_high i) (i_prior i) (i_base i) k (i_name i) (i_dtype i)))
      | _ => Raise ValueError
      end
    | DCat c => Ok (DCat (mkCat (c_cats c) (c_prior c) k (c_name c)))
    end.

  (** Constructor checks, space.py 254-259 / 439-444: [low < high] (as [not high <= low]). *)
  Definition make_real (low high : N) (p : prior) (base : N) (k : option tkind)
             (name : option string) (dt : fdtype) : res (dim N) :=
    if nleb O high low then Raise ValueError
    else set_kind (match k with None => KIdentity | Some k => k end)
           (DReal (mkReal low high p base KIdentity name dt)).
  Definition make_int (low high : Z) (p : prior) (base : N) (k : option tkind)
             (name : option string) (dt : idtype) : res (dim N) :=
    if (high <=? low)%Z then Raise ValueError
    else set_kind (match k with None => KIdentity | Some k => k end)
           (DInt (mkInt low high p base KIdentity name dt)).
  Definition make_cat (cats : list val) (p : option (list N)) (k : option tkind)
             (name : option string) : res (dim N) :=
    match cats, p with
    | [], None => Raise ZeroDivisionError       (* 1. / len(self.categories) *)
    | _, _ => Ok (DCat (mkCat cats p (match k with None => KOnehot | Some k => k end) name))
    end.

  (** prior_ (space.py 616-620) *)
  Definition cat_prior (c : cat_dim N) : list N :=
    match c_prior c with
    | Some p => p
    | None => repeat (ndiv O (nofZ O 1) (nofZ O (Z.of_nat (length (c_cats c))))) (length (c_cats c))
    end.

  (** *** transform / inverse_transform *)
  (** Dimension.transform, space.py 160-162. *)
  Definition dim_transform (d : dim N) (l : list val) : res (arr val) :=
    transform O (dim_transformer d) (A1 l).

  (** Real.inverse_transform, space.py 337-351: clip, then cast to dtype. *)
  Definition real_post (d : real_dim N) (v : val) : res val :=
    match to_num O v with
    | Some x => Ok (VFloat (ncast O (r_dtype d) (nclip O (r_low d) (r_high d) x)))
    | None => Raise TypeError
    end.
  (** Integer.inverse_transform, space.py 522-538: clip, round, cast. Integer columns are
      treated as float columns (exact up to 2^53). *)
  Definition int_post (d : int_dim N) (v : val) : res val :=
    match to_num O v with
    | Some x =>
      Ok (VInt (int_cast (i_dtype d)
            (ntoint O (nround O (nclip O (nofZ O (i_low d)) (nofZ O (i_high d)) x)))))
    | None => Raise TypeError
    end.

  (** Dimension-level inverse_transform; Categorical (space.py 679-688) converts the list to an
      array. 2-D input is only meaningful for one-hot columns. *)
  Definition dim_inverse (d : dim N) (a : arr val) : res (list val) :=
    match d with
    | DReal r =>
      a' <- inverse_transform O (real_transformer r) a ;; l <- as_A1 a' ;; mapM (real_post r) l
    | DInt i =>
      a' <- inverse_transform O (int_transformer i) a ;; l <- as_A1 a' ;; mapM (int_post i) l
    | DCat c =>
      a' <- inverse_transform O (cat_transformer c) a ;; l <- as_A1 a' ;; Ok (np_asarray O l)
    end.

  (** transformed_size, space.py 177-179 and 702-709. *)
  Definition tsize (d : dim N) : nat :=
    match d with
    | DCat c => match c_kind c with
                | KOnehot => match length (c_cats c) with 2 => 1 | n => n end
                | _ => 1
                end
    | _ => 1
    end.

  (** transformed_bounds as a list of [transformed_size] pairs, space.py 366-374, 553-558,
      722-727. *)
  Definition tbounds (d : dim N) : list (N * N) :=
    match d with
    | DReal r =>
      match r_kind r with
      | KNormalize => [(nofZ O 0, nofZ O 1)]
      | _ => match r_prior r with
             | PUniform => [(r_low r, r_high r)]
             | PLogUniform => [(nlog10 O (r_low r), nlog10 O (r_high r))]
             end
      end
    | DInt i =>
      match i_kind i with
      | KNormalize => [(nofZ O 0, nofZ O 1)]
      | _ => [(nofZ O (i_low i), nofZ O (i_high i))]
      end
    | DCat _ => repeat (nofZ O 0, nofZ O 1) (tsize d)
    end.

  (** __contains__, space.py 361-364, 548-551, 719-720. Comparing a string or None with a number
      raises TypeError. *)
  Definition leb_chain (lo hi v : val) : res bool :=
    match py_leb O lo v with
    | None => Raise TypeError
    | Some false => Ok false
    | Some true => match py_leb O v hi with Some b => Ok b | None => Raise TypeError end
    end.
  Definition contains (d : dim N) (v : val) : res bool :=
    match d with
    | DReal r => leb_chain (VFloat (r_low r)) (VFloat (r_high r)) v
    | DInt i => leb_chain (VInt (i_low i)) (VInt (i_high i)) v
    | DCat c => Ok (py_in O v (c_cats c))
    end.

  (** is_constant, space.py 357-359, 544-546, 715-717 *)
  Definition is_constant (d : dim N) : bool :=
    match d with
    | DReal r => neqb O (r_low r) (r_high r)
    | DInt i => Z.eqb (i_low i) (i_high i)
    | DCat c => Nat.leb (length (c_cats c)) 1
    end.

  Definition is_cat (d : dim N) : bool := match d with DCat _ => true | _ => false end.

  (** distance, space.py 376-390, 560-574, 729-746; the int difference is returned as float. *)
  Definition dim_distance (d : dim N) (a b : val) : res N :=
    ina <- contains d a ;;
    inb <- (if ina then contains d b else Ok false) ;;
    if inb then
      match d with
      | DCat _ => Ok (if py_eqb O a b then nofZ O 0 else nofZ O 1)
      | _ =>
        match a, b with
        | VInt x, VInt y => Ok (nofZ O (Z.abs (x - y)))
        | _, _ =>
          match to_num O a, to_num O b with
          | Some x, Some y => Ok (nabs O (nsub O x y))
          | _, _ => Raise TypeError
          end
        end
      end
    else Raise RuntimeError.

  (** np.allclose([a], [b]) with default tolerances: |a-b| <= 1e-8 + 1e-5*|b| (finite values; the
      rtol 1e-5 is built as 1/10^5). *)
  Definition allclose (a b : N) : bool :=
    nleb O (nabs O (nsub O a b))
         (nadd O (neps O) (nmul O (ndiv O (nofZ O 1) (nofZ O 100000)) (nabs O b))).

  Fixpoint list_eqb {A} (f : A -> A -> bool) (l m : list A) : bool :=
    match l, m with
    | [], [] => true
    | x :: l', y :: m' => f x y && list_eqb f l' m'
    | _, _ => false
    end.

  (** __eq__, space.py 326-331, 513-516, 661-664. np.allclose of priors of different lengths
      would raise or broadcast; categories of equal length are compared first. *)
  Definition dim_eqb (a b : dim N) : bool :=
    match a, b with
    | DReal x, DReal y =>
      allclose (r_low x) (r_low y) && allclose (r_high x) (r_high y)
      && prior_eqb (r_prior x) (r_prior y) && tkind_eqb (r_kind x) (r_kind y)
    | DInt x, DInt y =>
      allclose (nofZ O (i_low x)) (nofZ O (i_low y))
      && allclose (nofZ O (i_high x)) (nofZ O (i_high y))
    | DCat x, DCat y =>
      list_eqb (py_eqb O) (c_cats x) (c_cats y)
      && list_eqb allclose (cat_prior x) (cat_prior y)
    | _, _ => false
    end.

  (** *** Random sampling. [_rvs] of each dimension (space.py 205-209, 302-324, 490-511,
      653-659) together with the draws it makes. *)
  Inductive rvspec :=
  | RVUniform (loc scale : N)     (* scipy uniform(loc, nextafter(scale, scale+1)) *)
  | RVRandint (lo hi : Z)         (* randint(lo, hi): lo <= k < hi *)
  | RVDiscrete (p : list N).      (* rv_discrete(values=(range(len(p)), p)) *)

  Definition dim_rvs_spec (d : dim N) : rvspec :=
    match d with
    | DReal r =>
      match r_kind r with
      | KNormalize => RVUniform (nofZ O 0) (nofZ O 1)
      | _ => match r_prior r with
             | PUniform => RVUniform (r_low r) (nsub O (r_high r) (r_low r))
             | PLogUniform =>
               RVUniform (logb (r_base r) (r_low r))
                         (nsub O (logb (r_base r) (r_high r)) (logb (r_base r) (r_low r)))
             end
      end
    | DInt i =>
      match i_kind i with
      | KNormalize => RVUniform (nofZ O 0) (nofZ O 1)
      | _ => match i_prior i with
             | PUniform => RVRandint (i_low i) (i_high i + 1)
             | PLogUniform =>
               RVUniform (logb (i_base i) (nofZ O (i_low i)))
                         (nsub O (logb (i_base i) (nofZ O (i_high i)))
                                 (logb (i_base i) (nofZ O (i_low i))))
             end
      end
    | DCat c =>
      match c_kind c with
      | KNormalize => RVUniform (nofZ O 0) (nofZ O 1)
      | _ => RVDiscrete (cat_prior c)
      end
    end.
End Dimension.
