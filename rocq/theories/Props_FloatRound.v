(** Round trips in float64, every rounding included (C03, C04, C05). *)
From Coq Require Import String List ZArith Bool Reals.
From Flocq Require Import IEEE754.BinarySingleNaN.
From Verif Require Import Base Num Values Transformers Dimension Space SpaceSpec LibmSpec FloatSpace FloatCases FloatExact.
Import ListNotations.
Open Scope list_scope.

(** C04 in float64: a Real value comes back within 2^-50 of the width of the dimension, or, with a
    log-uniform prior and a library accurate to two units in the last place, within
    2^-46 (1 + max (|ln low|, |ln high|)) of itself. *)
Theorem C04_real_round_trip_float : forall L r xs,
  float_real L r -> Forall (fun x => fleb (r_low r) x = true /\ fleb x (r_high r) = true) xs ->
  exists a ys, dim_transform (F64 L) (DReal r) (map (@VFloat float) xs) = Ok a /\
    dim_inverse (F64 L) (DReal r) a = Ok (map (@VFloat float) ys) /\ Forall2 (close r) xs ys.
Proof. exact real_near. Qed.
Print Assumptions C04_real_round_trip_float.

Example C04_float_example : float_real LC (rate KNormalize) /\ float_real LC (offset_dim KNormalize).
Proof. exact (conj (rate_ok (or_intror eq_refl)) (offset_ok (or_intror eq_refl))). Qed.

(** C04: scaling to [0, 1] in float64 loses digits; 0.1 does not come back to Real(-5, 10). *)
Theorem C04_float_exact_refuted : exists r x,
  (forall L, wf_real (F64 L) r) /\ r_prior r = PUniform /\
  fleb (r_low r) x = true /\ fleb x (r_high r) = true /\
  forall L a, dim_transform (F64 L) (DReal r) [VFloat x] = Ok a ->
    dim_inverse (F64 L) (DReal r) a <> Ok [VFloat x].
Proof. exact tenth_lost. Qed.
Print Assumptions C04_float_exact_refuted.

(** C03 in float64: log-uniform Integer values up to 2^39 come back unchanged. *)
Theorem C03_integer_log_round_trip_float : forall L i zs,
  float_log_int L i -> Forall (fun z => (i_low i <= z <= i_high i)%Z) zs ->
  exists a, dim_transform (F64 L) (DInt i) (map (@VInt float) zs) = Ok a /\
    dim_inverse (F64 L) (DInt i) a = Ok (map (@VInt float) zs).
Proof. exact int_log_roundtrip. Qed.
Print Assumptions C03_integer_log_round_trip_float.

Example C03_float_log_example : float_log_int LC (units KNormalize) /\ float_log_int LC (units KIdentity).
Proof. exact (conj (units_ok (or_intror eq_refl)) (units_ok (or_introl eq_refl))). Qed.

(** C05 in float64: a point comes back with integers and categories unchanged and reals close. *)
Theorem C05_space_round_trip_float : forall L dims P,
  dims <> [] -> Forall (float_dim L) dims -> P <> [] -> Forall (in_space (F64 L) dims) P ->
  exists Xt P', space_transform (F64 L) dims P = Ok Xt /\ length Xt = length P /\
    Forall2 (fun p row =>
      length row = t_n_dims dims /\
      exists parts,
        Forall2 (fun dv part => warped_by (O := F64 L) (fst dv) (snd dv) part /\
                                length part = tsize (fst dv)) (combine dims p) parts /\
        row = concat parts) P Xt /\
    space_inverse (F64 L) dims Xt = Ok P' /\
    Forall2 (fun p p' => Forall2 (fun dv w => near (fst dv) (snd dv) w) (combine dims p) p') P P'.
Proof. exact space_near. Qed.
Print Assumptions C05_space_round_trip_float.

Example C05_float_example : Forall (float_dim LC) tuned /\ Forall (in_space (F64 LC) tuned) [tuned_point].
Proof. exact tuned_ok. Qed.
