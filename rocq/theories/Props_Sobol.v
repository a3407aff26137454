(** Properties of the Sobol generator (C46, C77, and its part of C42 and C48). [sobol_history] and [room] are in SobolProps.v,
    [one_in_stretch] and [in_part] in SamplerSpec.v. *)
From Coq Require Import String List ZArith Bool Reals.
From Flocq Require Import IEEE754.BinarySingleNaN.
From Verif Require Import Base Num NumLaws Values Dimension Space SpaceSpec Samples SpaceProps2
  Sampler SamplerSpec SamplerProps SamplerSamples Sobol SobolState SobolProps SobolSpec SobolBoxes SobolCells.
Import ListNotations.
Open Scope list_scope.

(** ** C46 *)
(** Every aligned stretch of 2^k points meets each of the 2^k parts of [0,1) once, in each dimension. *)
Theorem C46_strata : forall RNG (G : rng_ops R RNG) skip s total d n g s' h,
  sobol_history Rops G skip false s total -> (skip < 2 ^ 30)%Z -> 1 <= d <= 40 ->
  sobol_design Rops G s d n g = (s', Ok h) ->
  forall k start j c, j < d -> start + 2 ^ k <= n -> (2 ^ Z.of_nat k | skip + Z.of_nat start)%Z -> (0 <= c < 2 ^ Z.of_nat k)%Z ->
    one_in_stretch h start (2 ^ k) (fun row => exists v, nth_error row j = Some v /\ in_part (2 ^ Z.of_nat k) c v).
Proof. exact (@c46_strata). Qed.
Print Assumptions C46_strata.
Theorem C46_range : forall RNG (G : rng_ops R RNG), rng_ok Rops G -> forall skip rand s total d n g s' h,
  sobol_history Rops G skip rand s total -> (skip < 2 ^ 30)%Z -> 1 <= d <= 40 -> sobol_design Rops G s d n g = (s', Ok h) ->
  length h = n /\ Forall (fun row => length row = d /\ Forall (fun v => 0 <= v < 1)%R row) h.
Proof. exact (@c46_range). Qed.
Print Assumptions C46_range.
(** No two points share a coordinate. *)
Theorem C46_distinct : forall RNG (G : rng_ops R RNG) skip s total d n g s' h,
  sobol_history Rops G skip false s total -> (skip < 2 ^ 30)%Z -> 1 <= d <= 40 -> sobol_design Rops G s d n g = (s', Ok h) ->
  forall i i' j row row' v, nth_error h i = Some row -> nth_error h i' = Some row' ->
    nth_error row j = Some v -> nth_error row' j = Some v -> i = i'.
Proof. exact (@c46_distinct). Qed.
Print Assumptions C46_distinct.
(** With randomize, each dimension is moved by one random number modulo 1. *)
Theorem C46_shift : forall RNG (G : rng_ops R RNG), rng_ok Rops G -> forall skip s0 s total d n g s0' s' h0 h,
  sobol_new skip false = Ok s0 -> sobol_history Rops G skip true s total -> (skip < 2 ^ 30)%Z -> 1 <= d <= 40 ->
  sobol_design Rops G s0 d n g = (s0', Ok h0) -> sobol_design Rops G s d n g = (s', Ok h) ->
  exists shift, length shift = d /\ Forall (fun x => 0 <= x < 1)%R shift /\
    forall i j row0 row u x v, nth_error h0 i = Some row0 -> nth_error h i = Some row ->
      nth_error row0 j = Some u -> nth_error shift j = Some x -> nth_error row j = Some v ->
      (0 <= v < 1 /\ (v = u + x \/ v = u + x - 1))%R.
Proof. exact (@c46_shift). Qed.
Print Assumptions C46_shift.
(** A call returns what a new object returns, in every arithmetic; that is the design mapped to the space. *)
Theorem C46_history : forall N RNG (O : numops N) (G : rng_ops N RNG) skip rand s0 s total dims n g,
  sobol_new skip rand = Ok s0 -> (skip < 2 ^ 30)%Z -> sobol_history O G skip rand s total ->
  1 <= length dims <= 40 -> room skip total n ->
  snd (sobol_generate O G s dims n g) = snd (sobol_generate O G s0 dims n g).
Proof. exact (@c46_history). Qed.
Print Assumptions C46_history.
Theorem C46_design : forall N RNG (O : numops N) (G : rng_ops N RNG) skip rand s0 s total dims n g,
  sobol_new skip rand = Ok s0 -> (skip < 2 ^ 30)%Z -> sobol_history O G skip rand s total ->
  1 <= length dims <= 40 -> room skip total n ->
  snd (sobol_generate O G s dims n g) = warp_design O dims (snd (sobol_design O G s0 (length dims) n g)).
Proof. exact (@same_stretch). Qed.
Print Assumptions C46_design.
Example C46_example : sobol_history Rops GR 4 false (sob0 4 false) 0 /\ (2 ^ Z.of_nat 2 | 4 + Z.of_nat 0)%Z /\ room 4 0 4.
Proof. exact sob_sample. Qed.
Example C46_run_example : numR (snd (sobol_design O0 G0 (sob0 0 false) 3 4 1)) =
  Ok [[SpecFloat.S754_zero false; SpecFloat.S754_zero false; SpecFloat.S754_zero false];
      [SpecFloat.S754_finite false 4503599627370496 (-53); SpecFloat.S754_finite false 4503599627370496 (-53); SpecFloat.S754_finite false 4503599627370496 (-53)];
      [SpecFloat.S754_finite false 6755399441055744 (-53); SpecFloat.S754_finite false 4503599627370496 (-54); SpecFloat.S754_finite false 6755399441055744 (-53)];
      [SpecFloat.S754_finite false 4503599627370496 (-54); SpecFloat.S754_finite false 6755399441055744 (-53); SpecFloat.S754_finite false 4503599627370496 (-54)]].
Proof. exact sob_run. Qed.
(** The last point of the 2^30 is never delivered: 2^29 points after skipping 2^29, as the constructor announces,
    or 2^30 points from the start, end in ValueError. *)
Theorem C46_limit : forall N RNG (O : numops N) (G : rng_ops N RNG) skip rand s total d n g,
  sobol_history O G skip rand s total -> (skip < 2 ^ 30)%Z -> 1 <= d <= 40 -> (2 ^ 30 <= skip + Z.of_nat n)%Z ->
  snd (sobol_design O G s d n g) = Raise ValueError.
Proof. exact (@c46_limit). Qed.
Print Assumptions C46_limit.
(** After two vain calls for 41 dimensions the sequence is another one. *)
Theorem C46_in_vain_refuted : exists p q,
  show (snd (sobol_generate O0 G0 (sob0 4 false) [int1 KIdentity] 1 1)) = Ok [[VInt p]] /\
  show (snd (sobol_generate O0 G0 (in_vain (in_vain used)) [int1 KIdentity] 1 1)) = Ok [[VInt q]] /\ p <> q.
Proof. exact sob_in_vain. Qed.
Print Assumptions C46_in_vain_refuted.

(** ** C42 and C48 *)
Theorem C42_sobol : forall RNG (G : rng_ops R RNG), rng_ok Rops G -> forall skip rand s total dims n g,
  sobol_history Rops G skip rand s total -> 1 <= length dims <= 40 -> Forall plain dims ->
  (skip + Z.of_nat n < 2 ^ 30)%Z -> room skip total n ->
  exists s' pts, sobol_generate Rops G s dims n g = (s', (dims, Ok pts)) /\ length pts = n /\ Forall (in_space Rops dims) pts.
Proof. exact (@sobol_generate_ok). Qed.
Print Assumptions C42_sobol.
Example C42_sobol_example : rng_ok Rops GR /\ sobol_history Rops GR 4 false (sob0 4 false) 0 /\ Forall plain spaceR /\ room 4 0 4.
Proof. split; [exact GR_ok|]. split; [exact (proj1 sob_sample)|]. split; [exact spaceR_plain|exact (proj2 (proj2 sob_sample))]. Qed.
Theorem C48_sobol : forall N RNG (O : numops N) (G : rng_ops N RNG) s dims n g s' dims' pts,
  Forall (wf_dim O) dims -> sobol_generate O G s dims n g = (s', (dims', Ok pts)) -> dims' = dims.
Proof. exact (@c48_sobol). Qed.
Print Assumptions C48_sobol.

(** ** C77 *)
(** Several dimensions at once ([many_in_stretch], [sobol_degree] in SobolSpec.v). A box fixes, for some dimensions [j], the part
    [c] of 2^a equal parts of [0,1). Every aligned stretch of 2^m points has exactly 2^(m - sum of a) points in it, as soon as
    the sum of a + degree - 1 is at most m. *)
Theorem C77_boxes : forall RNG (G : rng_ops R RNG) skip s total d n g s' h,
  sobol_history Rops G skip false s total -> (skip < 2 ^ 30)%Z -> 1 <= d <= 40 -> sobol_design Rops G s d n g = (s', Ok h) ->
  forall m start (boxes : list (nat * nat * Z)), start + 2 ^ m <= n -> (2 ^ Z.of_nat m | skip + Z.of_nat start)%Z ->
    NoDup (map (fun b => fst (fst b)) boxes) ->
    Forall (fun b => fst (fst b) < d /\ (0 <= snd b < 2 ^ Z.of_nat (snd (fst b)))%Z) boxes ->
    list_sum (map (fun b => snd (fst b) + (sobol_degree (fst (fst b)) - 1)) boxes) <= m ->
    many_in_stretch h start (2 ^ m) (fun row => Forall (fun b => exists v, nth_error row (fst (fst b)) = Some v /\
      in_part (2 ^ Z.of_nat (snd (fst b))) (snd b) v) boxes) (2 ^ (m - list_sum (map (fun b => snd (fst b)) boxes))).
Proof. exact (@c77_boxes). Qed.
Print Assumptions C77_boxes.
(** The points follow the recurrence of the published polynomials ([direction], [exponents] in SobolSpec.v). *)
Theorem C77_recurrence : forall RNG (G : rng_ops R RNG) s total d n g s' h,
  sobol_history Rops G 0 false s total -> 1 <= d <= 40 -> sobol_design Rops G s d n g = (s', Ok h) ->
  forall j t v, 0 < j < d -> direction h j (t + sobol_degree j) v ->
    exists u us, direction h j t u /\ Forall2 (fun e w => direction h j (t + e) w) (tl (nth (j - 1) exponents [])) us /\
      v = Z.lxor (u / 2 ^ Z.of_nat (sobol_degree j)) (fold_right Z.lxor 0%Z us).
Proof. exact (@c77_recurrence). Qed.
Print Assumptions C77_recurrence.
Example C77_example : exists s' h, sobol_history Rops GR 0 false (sob0 0 false) 0 /\ sobol_design Rops GR (sob0 0 false) 3 8 1%nat = (s', Ok h) /\
  (let boxes := [(0, 1, 0%Z); (2, 1, 1%Z)] in
   NoDup (map (fun b => fst (fst b)) boxes) /\ Forall (fun b => fst (fst b) < 3 /\ (0 <= snd b < 2 ^ Z.of_nat (snd (fst b)))%Z) boxes /\
   list_sum (map (fun b => snd (fst b) + (sobol_degree (fst (fst b)) - 1)) boxes) = 3) /\
  (exists v, direction h 2 (0 + sobol_degree 2) v).
Proof. exact c77_sample. Qed.

(** ** C88 *)
(** Cut each of the first dimensions into 2^a equal parts: halves of up to 20 dimensions, or quarters of up to 6. Every cell of
    that grid has the same number of points in every aligned stretch of 2^m points, as soon as there are that many cells. *)
Theorem C88_cells : forall RNG (G : rng_ops R RNG) skip s total d n g s' h,
  sobol_history Rops G skip false s total -> (skip < 2 ^ 30)%Z -> 1 <= d <= 40 -> sobol_design Rops G s d n g = (s', Ok h) ->
  forall a m start (cells : list Z), start + 2 ^ m <= n -> (2 ^ Z.of_nat m | skip + Z.of_nat start)%Z ->
    length cells <= d -> Forall (fun c => 0 <= c < 2 ^ Z.of_nat a)%Z cells ->
    (a = 1 /\ length cells <= 20) \/ (a = 2 /\ length cells <= 6) -> a * length cells <= m ->
    many_in_stretch h start (2 ^ m) (fun row => forall j c, nth_error cells j = Some c -> exists v, nth_error row j = Some v /\
      in_part (2 ^ Z.of_nat a) c v) (2 ^ (m - a * length cells)).
Proof. exact (@c88_cells). Qed.
Print Assumptions C88_cells.
Example C88_example : exists s' h, sobol_history Rops GR 0 false (sob0 0 false) 0 /\ sobol_design Rops GR (sob0 0 false) 3 8 1%nat = (s', Ok h) /\
  0 + 2 ^ 3 <= 8 /\ (2 ^ Z.of_nat 3 | 0 + Z.of_nat 0)%Z /\ Forall (fun c => 0 <= c < 2 ^ Z.of_nat 1)%Z [1; 0; 1]%Z.
Proof. exact c88_sample. Qed.

(** Not so for the halves of 21 dimensions: some cell is missed by the first 2^21 points. *)
Theorem C88_halves_refuted : forall RNG (G : rng_ops R RNG) g, exists s' h cells,
  sobol_design Rops G (sob0 0 false) 21 (2 ^ 21) g = (s', Ok h) /\ length h = 2 ^ 21 /\
  length cells = 21 /\ Forall (fun c => 0 <= c < 2)%Z cells /\
  forall row, In row h -> ~ forall j c, nth_error cells j = Some c -> exists v, nth_error row j = Some v /\ in_part 2 c v.
Proof. exact (c88_halves eq_refl). Qed.
Print Assumptions C88_halves_refuted.
