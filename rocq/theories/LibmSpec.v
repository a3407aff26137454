(** Vocabulary of C03-C05 in float64. What is assumed of the mathematical library: log10 and pow
    err by at most two units in the last place where the result is neither too small nor too
    large, and log10 never decreases. Then the dimensions considered and how far from a value it may
    come back. *)
From Coq Require Import ZArith Bool Reals.
From Flocq Require Import Core.Core IEEE754.BinarySingleNaN.
From Verif Require Import Base Num Values Transformers Dimension SpaceSpec.
Local Open Scope R_scope.

Definition accurate_log10 (L : libm) : Prop := forall x,
  is_finite x = true -> 0 < B2R x ->
  is_finite (l_log10 L x) = true /\
  Rabs (B2R (l_log10 L x) - ln (B2R x) / ln 10) <= / IZR (2 ^ 51) * Rabs (ln (B2R x) / ln 10).

Definition accurate_pow (L : libm) : Prop := forall b y,
  is_finite b = true -> is_finite y = true -> 0 < B2R b ->
  bpow radix2 (-1022) <= Rpower (B2R b) (B2R y) <= bpow radix2 1023 ->
  is_finite (l_pow L b y) = true /\
  Rabs (B2R (l_pow L b y) - Rpower (B2R b) (B2R y)) <= / IZR (2 ^ 51) * Rpower (B2R b) (B2R y).

Definition increasing_log10 (L : libm) : Prop := forall x y,
  is_finite x = true -> is_finite y = true -> 0 < B2R x <= B2R y ->
  B2R (l_log10 L x) <= B2R (l_log10 L y).

Definition good_libm (L : libm) : Prop := accurate_log10 L /\ accurate_pow L /\ increasing_log10 L.

(** Real dimensions: finite bounds whose distance does not overflow; with a log-uniform prior,
    positive bounds between e^-500 and e^500 and a base above 1. *)
Definition log_bounds (L : libm) (low high base : float) : Prop :=
  good_libm L /\ is_finite base = true /\ 1 < B2R base /\ 0 < B2R low /\
  Rabs (ln (B2R low)) <= 500 /\ Rabs (ln (B2R high)) <= 500.
Definition float_real (L : libm) (r : real_dim float) : Prop :=
  wf_real (F64 L) r /\ is_finite (r_low r) = true /\ is_finite (r_high r) = true /\
  Rabs (B2R (r_low r)) <= bpow radix2 1022 /\ Rabs (B2R (r_high r)) <= bpow radix2 1022 /\
  (r_prior r = PLogUniform -> log_bounds L (r_low r) (r_high r) (r_base r)).

(** Log-uniform Integer dimensions: from 1 up to at most 2^39, a base above 1. *)
Definition float_log_int (L : libm) (i : int_dim float) : Prop :=
  wf_int i /\ i_prior i = PLogUniform /\ good_libm L /\ is_finite (i_base i) = true /\ 1 < B2R (i_base i) /\
  (1 <= i_low i)%Z /\ (i_high i <= 2 ^ 39)%Z.

Definition float_dim (L : libm) (d : dim float) : Prop :=
  match d with
  | DReal r => float_real L r
  | DInt i => exact_dim (F64 L) d \/ float_log_int L i
  | DCat _ => exact_dim (F64 L) d
  end.

(** How far from [x] a Real value may come back. *)
Definition tolerance (r : real_dim float) (x : float) : R :=
  match r_prior r, r_kind r with
  | PUniform, KNormalize => / IZR (2 ^ 50) * (B2R (r_high r) - B2R (r_low r))
  | PUniform, _ => 0
  | PLogUniform, _ =>
    / IZR (2 ^ 46) * (1 + Rmax (Rabs (ln (B2R (r_low r)))) (Rabs (ln (B2R (r_high r))))) * B2R x
  end.
Definition close (r : real_dim float) (x y : float) : Prop :=
  is_finite y = true /\ Rabs (B2R y - B2R x) <= tolerance r x.
Definition near (d : dim float) (v w : pyval float) : Prop :=
  match d with
  | DReal r => exists x y, v = VFloat x /\ w = VFloat y /\ close r x y
  | _ => w = v
  end.
