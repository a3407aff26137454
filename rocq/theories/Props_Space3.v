(** Properties of spaces (C08-C12). *)
From Coq Require Import String List ZArith Bool Reals DecimalString.
From Verif Require Import Base Num Values Dimension Space SpaceSpec CheckDim Samples MetricLemmas SpaceProps3.
Import ListNotations.
Open Scope list_scope.

(** C08. In exact arithmetic the distance is a metric on the points of the space. *)
Theorem C08_distance_metric : forall dims a b c, Forall (wf_dim Rops) dims ->
  in_space Rops dims a -> in_space Rops dims b -> in_space Rops dims c ->
  exists ab bc ac,
    space_distance Rops dims a b = Ok ab /\ space_distance Rops dims b c = Ok bc /\
    space_distance Rops dims a c = Ok ac /\
    (0 <= ab)%R /\ (ab = 0%R <-> a = b) /\ space_distance Rops dims b a = Ok ab /\ (ac <= ab + bc)%R.
Proof. exact distance_is_metric. Qed.
Print Assumptions C08_distance_metric.

Example C08_example :
  Forall (wf_dim Rops) dspace /\ in_space Rops dspace [VFloat 1%R; VInt 5; VStr "a"%string] /\
  in_space Rops dspace [VFloat 3%R; VInt 7; VStr "b"%string].
Proof. exact C08_sample. Qed.

(** C08, points with a coordinate that the space does not accept are rejected. *)
Theorem C08_distance_outside : forall dims a b,
  Forall2 (comparable Rops) dims a -> Forall2 (comparable Rops) dims b ->
  ~ (Forall2 (accepts Rops) dims a /\ Forall2 (accepts Rops) dims b) ->
  space_distance Rops dims a b = Raise RuntimeError.
Proof. exact distance_outside. Qed.
Print Assumptions C08_distance_outside.

Example C08_outside_example :
  let a := [VFloat 1%R; VInt 50; VStr "a"%string] in
  let b := [VFloat 1%R; VInt 5; VStr "a"%string] in
  Forall2 (comparable Rops) dspace a /\ Forall2 (comparable Rops) dspace b /\
  ~ (Forall2 (accepts Rops) dspace a /\ Forall2 (accepts Rops) dspace b).
Proof. exact C08_outside_sample. Qed.

(** C09. Validation of one point succeeds exactly on points with one accepted coordinate per
    dimension. *)
Theorem C09_point_validation : forall N (O : numops N) dims p,
  check_x_in_space O (X1 p) dims = Ok tt <-> Forall2 (accepts O) dims p.
Proof. exact (fun N O => @check_point_ok N O). Qed.
Print Assumptions C09_point_validation.

(** C09, every other point raises ValueError, unless a coordinate cannot be compared with the
    bounds (a str or None in a numeric dimension raises TypeError). *)
Theorem C09_point_rejected : forall N (O : numops N) dims p,
  (forall k d v, nth_error dims k = Some d -> nth_error p k = Some v -> comparable O d v) ->
  ~ Forall2 (accepts O) dims p -> check_x_in_space O (X1 p) dims = Raise ValueError.
Proof. exact (fun N O => @check_point_raises N O). Qed.
Print Assumptions C09_point_rejected.

Example C09_example :
  check_x_in_space O0 (X1 [VInt 3; VInt 5; VStr "c"; VInt 3]%string) space4 = Ok tt /\
  check_x_in_space O0 (X1 [VInt 3; VInt 13; VStr "c"; VInt 3]%string) space4 = Raise ValueError /\
  check_x_in_space O0 (X1 [VInt 3; VInt 5; VStr "c"]%string) space4 = Raise ValueError.
Proof. exact C09_sample. Qed.

(** C09, a batch is accepted exactly when each of its points is. *)
Theorem C09_batch_validation : forall N (O : numops N) dims ps,
  check_x_in_space O (X2 ps) dims = Ok tt <-> Forall (fun p => Forall2 (accepts O) dims p) ps.
Proof. exact (fun N O => @check_batch_ok N O). Qed.
Print Assumptions C09_batch_validation.

Example C09_batch_example :
  check_x_in_space O0 (X2 [[VInt 3; VInt 5; VStr "c"; VInt 3]; [VInt 0; VInt 12; VStr "b"; VInt 7]]%string) space4 = Ok tt.
Proof. exact C09_batch_sample. Qed.

(** C09, "within that dimension" cannot be read as "an integer between the bounds". *)
Theorem C09_integer_fraction_refuted : forall L, exists i v,
  wf_int i /\ check_x_in_space (F64 L) (X1 [v]) [DInt i] = Ok tt /\ ~ in_dim (F64 L) (DInt i) v.
Proof. exact integer_accepts_fraction. Qed.
Print Assumptions C09_integer_fraction_refuted.

(** [point in space] alone accepts truncated points; only the length test of the validation
    rejects them. *)
Theorem C09_membership_length_refuted : forall L, exists dims p,
  space_contains (F64 L) dims p = Ok true /\ length p < length dims.
Proof. exact contains_accepts_short. Qed.
Print Assumptions C09_membership_length_refuted.

(** C10. Missing: equal spaces may differ in length, and Integer dimensions in prior and
    transform (refuted below). For spaces of one length, equality implies dimensions of the same
    class with the same content up to the tolerance, and every space equals itself. *)
Theorem C10_space_equality_partial : forall a b,
  (length a = length b -> space_eqb Rops a b = true -> Forall2 same_dim a b) /\
  (Forall (wf_dim Rops) a -> space_eqb Rops a a = true).
Proof. exact (fun a b => conj (@space_eqb_same a b) (@space_eqb_refl a)). Qed.
Print Assumptions C10_space_equality_partial.

Example C10_example : Forall (wf_dim Rops) dspace /\ length dspace = length dspace.
Proof. exact C10_sample. Qed.

Theorem C10_length_refuted : forall L, exists a b : list (dim float),
  space_eqb (F64 L) a b = true /\ length a <> length b.
Proof. exact eq_truncates. Qed.
Print Assumptions C10_length_refuted.

Theorem C10_prior_refuted : forall L, exists x y : int_dim float,
  space_eqb (F64 L) [DInt x] [DInt y] = true /\ i_prior x <> i_prior y /\ i_kind x <> i_kind y.
Proof. exact eq_ignores_prior. Qed.
Print Assumptions C10_prior_refuted.

Theorem C10_symmetry_refuted : forall L, exists x y : list (dim float),
  space_eqb (F64 L) x y = true /\ space_eqb (F64 L) y x = false.
Proof. exact eq_asymmetric. Qed.
Print Assumptions C10_symmetry_refuted.

(** C11. Lookup by name. *)
Theorem C11_lookup_name : forall N (dims : list (dim N)) s,
  match space_get dims (GName s) with
  | Some (j, d) => nth_error dims j = Some d /\ dim_name d = Some s /\
      forall k' d', k' < j -> nth_error dims k' = Some d' -> dim_name d' <> Some s
  | None => forall d, In d dims -> dim_name d <> Some s
  end.
Proof. exact (fun N dims s => @get_name N s dims). Qed.
Print Assumptions C11_lookup_name.

(** C11. Lookup by index; negative indices find nothing. *)
Theorem C11_lookup_index : forall N (dims : list (dim N)) i,
  space_get dims (GIndex (Z.of_nat i)) = option_map (fun d => (i, d)) (nth_error dims i) /\
  forall z, (z < 0)%Z -> space_get dims (GIndex z) = None.
Proof. exact (fun N dims i => conj (get_index dims i) (get_negative dims)). Qed.
Print Assumptions C11_lookup_index.

(** C11. Lookup of several keys, and the list of names. *)
Theorem C11_lookup_list : forall (dims : list (dim float)) ks,
  length (space_get_list dims ks) = length ks /\
  forall j k, nth_error ks j = Some k -> nth_error (space_get_list dims ks) j = Some (space_get dims k).
Proof. exact lookup_list. Qed.
Print Assumptions C11_lookup_list.

Theorem C11_names : forall N (dims : list (dim N)),
  length (dimension_names dims) = length dims /\
  forall k d, nth_error dims k = Some d ->
    nth_error (dimension_names dims) k =
    Some (match dim_name d with
          | Some s => s
          | None => ("X_" ++ NilZero.string_of_uint (Nat.to_uint k))%string
          end).
Proof. exact (fun N dims => conj (names_length dims) (@names_nth N dims)). Qed.
Print Assumptions C11_names.

Example C11_example :
  space_get space4 (GName "c") = Some (2, cat3 KOnehot) /\ space_get space4 (GName "zz") = None /\
  space_get space4 (GIndex 3) = Some (3, cat2 KNormalize) /\
  dimension_names space4 = ["x"; "n"; "c"; "X_3"]%string.
Proof. exact C11_sample. Qed.

(** C12. Two ints give an Integer, two numbers of which one is a float give a Real. *)
Theorem C12_two_ints : forall N (O : numops N) k a b, kind_ok k -> (a < b)%Z ->
  check_dimension O k (CSeq [VInt a; VInt b])
  = Ok (DInt (mkInt a b PUniform (nofZ O 10) (kind_of k) None int64)).
Proof. exact (fun N O => @infer_int2 N O). Qed.
Print Assumptions C12_two_ints.

Theorem C12_two_numbers : forall N (O : numops N) k a b x y,
  kind_ok k -> plain_num a -> plain_num b -> one_float a b ->
  to_num O a = Some x -> to_num O b = Some y -> nleb O y x = false ->
  check_dimension O k (CSeq [a; b]) = Ok (DReal (mkReal x y PUniform (nofZ O 10) (kind_of k) None DT64)).
Proof. exact (fun N O => @infer_real2 N O). Qed.
Print Assumptions C12_two_numbers.

(** C12. With a prior, and with the log-uniform prior and a base. *)
Theorem C12_with_prior : forall N (O : numops N) k p, kind_ok k ->
  (forall a b, (a < b)%Z ->
     check_dimension O k (CSeq [VInt a; VInt b; VStr (prior_str p)])
     = Ok (DInt (mkInt a b p (nofZ O 10) (kind_of k) None int64))) /\
  (forall x y, nleb O y x = false ->
     check_dimension O k (CSeq [VFloat x; VFloat y; VStr (prior_str p)])
     = Ok (DReal (mkReal x y p (nofZ O 10) (kind_of k) None DT64))).
Proof. exact (fun N O k p Hk => conj (fun a b => @infer_int3 N O k a b p Hk) (fun x y => @infer_real3 N O k x y p Hk)). Qed.
Print Assumptions C12_with_prior.

Theorem C12_with_base : forall N (O : numops N) k base, kind_ok k ->
  (forall a b, (a < b)%Z ->
     check_dimension O k (CSeq [VInt a; VInt b; VStr "log-uniform"%string; VInt base])
     = Ok (DInt (mkInt a b PLogUniform (nofZ O base) (kind_of k) None int64))) /\
  (forall x y, nleb O y x = false ->
     check_dimension O k (CSeq [VFloat x; VFloat y; VStr "log-uniform"%string; VInt base])
     = Ok (DReal (mkReal x y PLogUniform (nofZ O base) (kind_of k) None DT64))).
Proof. exact (fun N O k bs Hk => conj (fun a b => @infer_int4 N O k a b bs Hk) (fun x y => @infer_real4 N O k x y bs Hk)). Qed.
Print Assumptions C12_with_base.

(** C12. Every other non-empty list gives these categories. *)
Theorem C12_categories : forall N (O : numops N) k l, l <> [] -> ~ numeric_shorthand l ->
  check_dimension O k (CSeq l)
  = Ok (DCat (mkCat l None (match k with Some k => k | None => KOnehot end) None)).
Proof. exact (fun N O => @infer_cat N O). Qed.
Print Assumptions C12_categories.

Example C12_categories_example : ~ numeric_shorthand [@VStr float "a"; VStr "b"; VStr "c"]%string.
Proof. exact not_numeric_sample. Qed.

(** C12. A dimension is passed through. *)
Theorem C12_dimension : forall N (O : numops N) k d, check_dimension O k (CDim d) = Ok d.
Proof. exact (fun N O k d => eq_refl). Qed.
Print Assumptions C12_dimension.

Example C12_example :
  check_dimension O0 None (CSeq [VInt 1; VInt 5]) = Ok (DInt (mkInt 1 5 PUniform (fofZ 10) KIdentity None int64)) /\
  check_dimension O0 None (CSeq [VInt 1; VInt 5; VInt 9])
  = Ok (DCat (mkCat [VInt 1; VInt 5; VInt 9] None KOnehot None)).
Proof. exact C12_sample. Qed.

(** C12 fails for (low, high, "uniform", base) and for fractional bases, which become
    categories, and for category lists ending in a prior name, which raise. *)
Theorem C12_base_refuted : forall L,
  check_dimension (F64 L) None (CSeq [VInt 1; VInt 5; VStr "uniform"%string; VInt 2])
  = Ok (DCat (mkCat [VInt 1; VInt 5; VStr "uniform"%string; VInt 2] None KOnehot None)) /\
  check_dimension (F64 L) None (CSeq [VInt 1; VInt 5; VStr "log-uniform"%string; VFloat fhalf])
  = Ok (DCat (mkCat [VInt 1; VInt 5; VStr "log-uniform"%string; VFloat fhalf] None KOnehot None)).
Proof. exact uniform_base_is_categorical. Qed.
Print Assumptions C12_base_refuted.

Theorem C12_prior_name_refuted : forall L,
  check_dimension (F64 L) None (CSeq [VStr "a"; VInt 5; VStr "uniform"]%string) = Raise TypeError.
Proof. exact categories_with_prior_name. Qed.
Print Assumptions C12_prior_name_refuted.
