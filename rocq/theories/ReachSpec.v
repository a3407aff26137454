(** Which values can be drawn (C66). *)
From Coq Require Import List ZArith Bool Reals.
From Verif Require Import Base Num Values Dimension Space NumLaws SpaceSpec.
Import ListNotations.
Open Scope R_scope.

(** A value of the dimension: below the upper bound for Real, a category that does not have probability 0. *)
Definition drawable (d : dim R) (v : pyval R) : Prop :=
  match d with
  | DReal r => wf_real Rops r /\ log_ok (r_prior r) (r_kind r) (r_base r) (r_low r) /\
      exists x, v = VFloat x /\ r_low r <= x < r_high r
  | DInt i => wf_int i /\ log_ok (i_prior i) (i_kind i) (i_base i) (IZR (i_low i)) /\
      exists z, v = VInt z /\ (i_low i <= z <= i_high i)%Z
  | DCat c => wf_cat Rops c /\ (Z.of_nat (length (c_cats c)) <= 2 ^ 53)%Z /\
      exists k, nth_error (c_cats c) k = Some v /\
        match c_prior c with None => True | Some p => exists q, nth_error p k = Some q /\ 0 < q end
  end.

(** A generator that reads its outcomes from a script: a number of [0, 1), an integer, an index of positive
    probability; unsuitable or missing entries are replaced. *)
Definition script := list (R * Z * nat).
Definition slot (s : script) : (R * Z * nat) * script := match s with a :: r => (a, r) | [] => ((0, 0%Z, 0%nat), []) end.
Definition unit_of (u : R) : R := if Rle_dec 0 u then (if Rlt_dec u 1 then u else 0) else 0.
Definition int_of (lo hi k : Z) : Z := if (Z.leb lo k && Z.ltb k hi)%bool then k else lo.
Definition index_of (p : list R) (k : nat) : nat :=
  match nth_error p k with Some q => if Rlt_dec 0 q then k else 0%nat | None => 0%nat end.
Definition scripted : rng_ops R script := {|
  rg_random := fun s => let '((u, _, _), r) := slot s in (unit_of u, r);
  rg_randint := fun s lo hi => let '((_, k, _), r) := slot s in (int_of lo hi k, r);
  rg_choice := fun s p => let '((_, _, k), r) := slot s in (index_of p k, r);
  rg_perm := fun s n => (seq 0 n, s);
  rg_multinomial := fun s p => let '((_, _, k), r) := slot s in (index_of p k, r);
  rg_seed := fun _ => [] |}.
