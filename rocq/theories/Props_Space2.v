(** Properties of dimensions and spaces (C04-C07, and inputs on which C01 and C02 fail). *)
From Coq Require Import String List ZArith Bool Reals.
From Verif Require Import Base Num Values Transformers Dimension Space SpaceSpec Samples
  SampleLemmas RealLemmas BoundLemmas SpaceProps2.
Import ListNotations.
Open Scope list_scope.

(** C04. In exact arithmetic every Real value survives the round trip, for every prior, base and
    transform. *)
Theorem C04_real_round_trip : forall r xs,
  wf_real Rops r -> log_ok (r_prior r) (r_kind r) (r_base r) (r_low r) ->
  Forall (fun x => r_low r <= x <= r_high r)%R xs ->
  exists a, dim_transform Rops (DReal r) (map (@VFloat R) xs) = Ok a /\
            dim_inverse Rops (DReal r) a = Ok (map (@VFloat R) xs).
Proof. exact real_roundtrip_R. Qed.
Print Assumptions C04_real_round_trip.

Example C04_example :
  wf_real Rops (rreal PLogUniform 2 KNormalize) /\
  log_ok PLogUniform KNormalize 2 1 /\ Forall (fun x => 1 <= x <= 8)%R [1%R; 4%R; 8%R].
Proof. exact C04_sample. Qed.

(** C04, exact in float64 for the uniform prior without scaling. *)
Theorem C04_identity_round_trip : forall L r xs,
  wf_real (F64 L) r -> r_prior r = PUniform -> r_kind r = KIdentity ->
  Forall (fun x => fleb (r_low r) x = true /\ fleb x (r_high r) = true) xs ->
  exists a, dim_transform (F64 L) (DReal r) (map (@VFloat float) xs) = Ok a /\
            dim_inverse (F64 L) (DReal r) a = Ok (map (@VFloat float) xs).
Proof. exact real_identity_F64. Qed.
Print Assumptions C04_identity_round_trip.

Example C04_identity_example :
  wf_dim O0 (real1 KIdentity) /\
  rmap (map view) (a <- dim_transform O0 (real1 KIdentity) [VFloat fhalf; VFloat (fofZ (-5))] ;;
   dim_inverse O0 (real1 KIdentity) a) = Ok [view (VFloat fhalf); view (VFloat (fofZ (-5)))].
Proof. exact C04_identity_sample. Qed.

(** C03, log-uniform Integer dimensions in exact arithmetic. *)
Theorem C03_integer_log_round_trip : forall i zs,
  wf_int i -> i_prior i = PLogUniform -> log_ok (i_prior i) (i_kind i) (i_base i) (IZR (i_low i)) ->
  Forall (fun z => (i_low i <= z <= i_high i)%Z) zs ->
  exists a, dim_transform Rops (DInt i) (map (@VInt R) zs) = Ok a /\
            dim_inverse Rops (DInt i) a = Ok (map (@VInt R) zs).
Proof. exact int_roundtrip_R. Qed.
Print Assumptions C03_integer_log_round_trip.

Example C03_log_example : wf_int rint /\ i_prior rint = PLogUniform.
Proof. exact (conj rint_wf eq_refl). Qed.

(** C05 in exact arithmetic, for every prior, base and transform. *)
Theorem C05_space_round_trip_exact : forall dims P,
  dims <> [] -> Forall ideal_dim dims -> P <> [] -> Forall (in_space Rops dims) P ->
  exists Xt, space_transform Rops dims P = Ok Xt /\ length Xt = length P /\
    Forall2 (fun p row =>
      length row = t_n_dims dims /\
      exists parts,
        Forall2 (fun dv part => warped_by (O := Rops) (fst dv) (snd dv) part /\
                                length part = tsize (fst dv)) (combine dims p) parts /\
        row = concat parts) P Xt /\
    space_inverse Rops dims Xt = Ok P.
Proof. exact space_roundtrip_R. Qed.
Print Assumptions C05_space_round_trip_exact.

Example C05_exact_example : Forall ideal_dim rspace /\ Forall (in_space Rops rspace) [rpoint; rpoint].
Proof. exact C05_real_sample. Qed.

(** C06. Whatever the generator draws, sampling returns [n] points of the space. *)
Theorem C06_samples_in_space : forall L RNG (G : rng_ops float RNG),
  rng_ok (F64 L) G -> pow_ok L -> forall dims n g,
  dims <> [] -> Forall (samplable L) dims ->
  exists P g', space_rvs (F64 L) G dims n g = (Ok P, g') /\ length P = n /\ Forall (in_space (F64 L) dims) P.
Proof. exact (fun L RNG G => @space_samples L RNG G). Qed.
Print Assumptions C06_samples_in_space.

Example C06_example :
  rng_ok O0 G0 /\ pow_ok L0 /\ Forall (samplable L0) space4 /\
  rmap (map (map view)) (fst (space_rvs O0 G0 space4 3 1)) =
  Ok [[VFloat (SpecFloat.S754_finite false 5629499534213122 (-51)); VInt (-3); VStr "a"; VInt 3];
      [VFloat (SpecFloat.S754_finite true 5629499534213120 (-50)); VInt 5; VStr "c"; VInt 7];
      [VFloat (SpecFloat.S754_finite false 5629499534213122 (-51)); VInt (-3); VStr "b"; VInt 3]]%string.
Proof. exact C06_sample. Qed.

(** C07 in float64. Missing with respect to the property: label encodings and log-uniform
    dimensions, for which it is false (below) or depends on the logarithm. *)
Theorem C07_warped_in_bounds_partial : forall L dims P,
  dims <> [] -> Forall (bounded64 L) dims -> P <> [] -> Forall (in_space (F64 L) dims) P ->
  exists Xt, space_transform (F64 L) dims P = Ok Xt /\ length Xt = length P /\
    Forall (within (O := F64 L) (space_tbounds (F64 L) dims)) Xt.
Proof. exact space_within64. Qed.
Print Assumptions C07_warped_in_bounds_partial.

Example C07_example :
  Forall (bounded64 L0) [real1 KNormalize; int1 KNormalize; cat3 KOnehot] /\
  Forall (in_space O0 [real1 KNormalize; int1 KNormalize; cat3 KOnehot])
    [[VFloat fhalf; VInt 5; VStr "c"%string]].
Proof. exact C07_sample. Qed.

(** C07 in exact arithmetic: also logarithmic dimensions scaled to [0, 1] or in base 10. *)
Theorem C07_warped_in_bounds_exact_partial : forall dims P,
  dims <> [] -> Forall boundedR dims -> P <> [] -> Forall (in_space Rops dims) P ->
  exists Xt, space_transform Rops dims P = Ok Xt /\ length Xt = length P /\
    Forall (within (O := Rops) (space_tbounds Rops dims)) Xt.
Proof. exact space_withinR. Qed.
Print Assumptions C07_warped_in_bounds_exact_partial.

Example C07_exact_example : Forall boundedR rspace /\ Forall (in_space Rops rspace) [rpoint].
Proof. exact C07_real_sample. Qed.

(** C07 is false for label-encoded categories, for Integer log-uniform dimensions and for
    Real log-uniform dimensions in a base other than 10, all without scaling. *)
Theorem C07_label_bounds_refuted : forall L, exists d v y,
  wf_dim (F64 L) d /\ in_dim (F64 L) d v /\
  dim_transform (F64 L) d [v] = Ok (A1 [y]) /\ ~ within (O := F64 L) (tbounds (F64 L) d) [y].
Proof. exact label_bounds_wrong. Qed.
Print Assumptions C07_label_bounds_refuted.

Theorem C07_integer_log_bounds_refuted : exists d v y,
  ideal_dim d /\ in_dim Rops d v /\
  dim_transform Rops d [v] = Ok (A1 [y]) /\ ~ within (O := Rops) (tbounds Rops d) [y].
Proof. exact int_log_bounds_wrong. Qed.
Print Assumptions C07_integer_log_bounds_refuted.

Theorem C07_real_log_bounds_refuted : exists d v y,
  ideal_dim d /\ in_dim Rops d v /\
  dim_transform Rops d [v] = Ok (A1 [y]) /\ ~ within (O := Rops) (tbounds Rops d) [y].
Proof. exact real_log_bounds_wrong. Qed.
Print Assumptions C07_real_log_bounds_refuted.

(** C01 fails for narrow dtypes and for NaN. *)
Theorem C01_float32_refuted : forall L, exists r z v,
  nltb (F64 L) (r_low r) (r_high r) = true /\ r_dtype r = DT32 /\ fleb z (r_high r) = true /\
  dim_inverse (F64 L) (DReal r) (A1 [VFloat z]) = Ok [VFloat v] /\ fltb (r_high r) v = true.
Proof. exact float32_out_of_bounds. Qed.
Print Assumptions C01_float32_refuted.

Theorem C01_int8_refuted : forall L, exists i z,
  (i_low i < i_high i)%Z /\ (i_low i <= z <= i_high i)%Z /\
  exists w, dim_inverse (F64 L) (DInt i) (A1 [VInt z]) = Ok [VInt w] /\ (w < i_low i)%Z.
Proof. exact int8_wraps. Qed.
Print Assumptions C01_int8_refuted.

Theorem C01_nan_refuted : forall L, exists i z,
  wf_int i /\ nisnan (F64 L) z = true /\
  exists w, dim_inverse (F64 L) (DInt i) (A1 [VFloat z]) = Ok [VInt w] /\ (w < i_low i)%Z.
Proof. exact int_nan_escapes. Qed.
Print Assumptions C01_nan_refuted.

(** C02 fails for booleans under the string encoding. *)
Theorem C02_string_bool_refuted : forall L, exists c v w,
  wf_cat (F64 L) c /\ c_kind c = KString /\ In v (c_cats c) /\
  (a <- dim_transform (F64 L) (DCat c) [v] ;; dim_inverse (F64 L) (DCat c) a) = Ok [w] /\ w <> v.
Proof. exact string_bool_lost. Qed.
Print Assumptions C02_string_bool_refuted.
