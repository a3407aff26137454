(** Properties of dimensions and spaces (C01-C05). *)
From Coq Require Import String List ZArith Bool Lia.
From Verif Require Import Base Num Values Transformers Dimension Space NumLaws F64Arith NormLaws SpaceSpec
  DimLemmas CatLemmas RoundTrip SpaceLemmas SpaceProps Samples.
Import ListNotations.
Open Scope list_scope.

(** C01. Whatever finite, infinite or out-of-range numbers are handed to the inverse of a numeric
    dimension, each result whose un-warped value is not NaN lies within the bounds, and
    the dimension accepts it. *)
Theorem C01_inverse_in_bounds : forall L d l vs,
  wf_dim (F64 L) d -> is_cat d = false -> dim_inverse (F64 L) d (A1 l) = Ok vs ->
  length vs = length l /\
  forall k w v z u, nth_error l k = Some w -> nth_error vs k = Some v ->
    to_num (F64 L) w = Some z -> unwarp_dim (F64 L) d z = Some u -> nisnan (F64 L) u = false ->
    in_dim (F64 L) d v /\ contains (F64 L) d v = Ok true.
Proof. exact inverse_in_bounds_F64. Qed.
Print Assumptions C01_inverse_in_bounds.

Example C01_example :
  wf_dim O0 (int1 KIdentity) /\
  dim_inverse O0 (int1 KIdentity) (A1 [VFloat (fofZ 99); VFloat (fofZ (-99)); VFloat fhalf])
  = Ok [VInt 12; VInt (-3); VInt 0].
Proof. exact C01_sample. Qed.

(** C01, the inverse is defined on every list of numbers (on [-1e-8, 1+1e-8] when normalised). *)
Theorem C01_inverse_defined : forall L d zs,
  is_cat d = false ->
  (dim_kind d = KNormalize ->
     Forall (fun z => fltb (fadd (fofZ 1) feps) z = false /\ fltb z (fsub (fofZ 0) feps) = false) zs) ->
  exists vs, dim_inverse (F64 L) d (A1 (map (@VFloat float) zs)) = Ok vs /\ length vs = length zs.
Proof. exact inverse_defined_F64. Qed.
Print Assumptions C01_inverse_defined.

Example C01_defined_example :
  Forall (fun z => fltb (fadd (fofZ 1) feps) z = false /\ fltb z (fsub (fofZ 0) feps) = false)
    [fofZ 0; fhalf; fofZ 1] /\
  dim_inverse O0 (int1 KNormalize) (A1 [VFloat (fofZ 0); VFloat fhalf; VFloat (fofZ 1)])
  = Ok [VInt (-3); VInt 4; VInt 12].
Proof. exact C01_defined_sample. Qed.

(** C01, categorical dimensions with a numeric encoding return categories only. *)
Theorem C01_categorical_inverse_in : forall L c a vs,
  wf_cat (F64 L) c -> c_kind c = KOnehot \/ c_kind c = KLabel \/ c_kind c = KNormalize ->
  dim_inverse (F64 L) (DCat c) a = Ok vs -> Forall (fun v => In v (c_cats c)) vs.
Proof. exact cat_inverse_in_F64. Qed.
Print Assumptions C01_categorical_inverse_in.

Example C01_categorical_example :
  wf_dim O0 (cat3 KOnehot) /\
  dim_inverse O0 (cat3 KOnehot) (A2 [[VFloat fhalf; VFloat (fofZ 2); VFloat (fofZ (-1))]])
  = Ok [VStr "a"%string].
Proof. exact C01_cat_sample. Qed.

(** C02. Categories survive the round trip under every encoding. *)
Theorem C02_categorical_round_trip : forall L c xs,
  wf_cat (F64 L) c -> (Z.of_nat (length (c_cats c)) <= 2 ^ 50)%Z ->
  (c_kind c = KString -> Forall (str_ok (O := F64 L)) (c_cats c)) ->
  xs <> [] -> incl xs (c_cats c) ->
  exists a, dim_transform (F64 L) (DCat c) xs = Ok a /\ dim_inverse (F64 L) (DCat c) a = Ok xs.
Proof. exact cat_roundtrip_F64. Qed.
Print Assumptions C02_categorical_round_trip.

Example C02_example :
  wf_dim O0 (cat3 KNormalize) /\
  (a <- dim_transform O0 (cat3 KNormalize) [VStr "c"; VStr "a"; VStr "b"; VStr "a"]%string ;;
   dim_inverse O0 (cat3 KNormalize) a) = Ok [VStr "c"; VStr "a"; VStr "b"; VStr "a"]%string.
Proof. exact C02_sample. Qed.

(** C03. Integers survive the round trip exactly in float64 arithmetic. *)
Theorem C03_integer_round_trip : forall L i zs,
  wf_int i -> i_prior i = PUniform ->
  (i_kind i = KNormalize ->
     Z.abs (i_low i) <= 2 ^ 50 /\ Z.abs (i_high i) <= 2 ^ 50 /\ i_high i - i_low i <= 2 ^ 50)%Z ->
  Forall (fun z => (i_low i <= z <= i_high i)%Z) zs ->
  exists a, dim_transform (F64 L) (DInt i) (map (@VInt float) zs) = Ok a /\
            dim_inverse (F64 L) (DInt i) a = Ok (map (@VInt float) zs).
Proof. exact int_roundtrip_F64. Qed.
Print Assumptions C03_integer_round_trip.

Example C03_example :
  wf_dim O0 (int1 KNormalize) /\
  (a <- dim_transform O0 (int1 KNormalize) [VInt (-3); VInt 7; VInt 12] ;;
   dim_inverse O0 (int1 KNormalize) a) = Ok [VInt (-3); VInt 7; VInt 12].
Proof. exact C03_sample. Qed.

(** C05. A list of points warps to one row per point, each row the concatenation of the warped
    coordinates in dimension order, and un-warps to the same points. *)
Theorem C05_space_round_trip : forall L dims P,
  dims <> [] -> Forall (exact_dim (F64 L)) dims -> P <> [] -> Forall (in_space (F64 L) dims) P ->
  exists Xt, space_transform (F64 L) dims P = Ok Xt /\ length Xt = length P /\
    Forall2 (fun p row =>
      length row = t_n_dims dims /\
      exists parts,
        Forall2 (fun dv part => warped_by (O := F64 L) (fst dv) (snd dv) part /\
                                length part = tsize (fst dv)) (combine dims p) parts /\
        row = concat parts) P Xt /\
    space_inverse (F64 L) dims Xt = Ok P.
Proof. exact space_roundtrip_F64. Qed.
Print Assumptions C05_space_round_trip.

Example C05_example :
  let P := [[VFloat (fofZ 3); VInt 5; VStr "c"; VInt 3]; [VFloat fhalf; VInt (-3); VStr "b"; VInt 7]]%string in
  Forall (exact_dim O0) space4 /\ Forall (in_space O0 space4) P /\
  rmap (map (map view)) (Xt <- space_transform O0 space4 P ;; space_inverse O0 space4 Xt)
  = Ok (map (map view) P) /\
  t_n_dims space4 = 6.
Proof. exact C05_sample. Qed.
