(** skopt/sampler/sobol.py. The columns of V and lastq are floats in the code; every value is an integer below 2^31, so
    they are integers here. *)
From Coq Require Import String List ZArith Bool.
From Verif Require Import Base Num Values Transformers Dimension Space Sampler.
Import ListNotations.
Open Scope list_scope.
Set Implicit Arguments.

(** ** Sobol.init, 115-214 *)
Definition dim_max : nat := 40.
Definition maxcol : nat := 30.         (* _bit_hi1(2 ** 30 - 1), 105-106, 161 *)
(** 117-152: for each column of V, the first row set and the numbers. *)
Definition v_columns : list (nat * list Z) := [
  (0%nat, repeat 1 40%nat);
  (2%nat, [1; 3; 1; 3; 1; 3; 3; 1; 3; 1; 3; 1; 3; 1; 1; 3; 1; 3; 1; 3; 1; 3; 3; 1; 3; 1; 3; 1; 3; 1; 1; 3; 1; 3; 1; 3; 1; 3]);
  (3%nat, [7; 5; 1; 3; 3; 7; 5; 5; 7; 7; 1; 3; 3; 7; 5; 1; 1; 5; 3; 3; 1; 7; 5; 1; 3; 3; 7; 5; 1; 1; 5; 7; 7; 5; 1; 3; 3]);
  (5%nat, [1; 7; 9; 13; 11; 1; 3; 7; 9; 5; 13; 13; 11; 3; 15; 5; 3; 15; 7; 9; 13; 9; 1; 11; 7; 5; 15; 1; 15; 11; 5; 3; 1; 7; 9]);
  (7%nat, [9; 3; 27; 15; 29; 21; 23; 19; 11; 25; 7; 13; 17; 1; 25; 29; 3; 31; 11; 5; 23; 27; 19; 21; 5; 1; 17; 13; 7; 15; 9; 31; 9]);
  (13%nat, [37; 33; 7; 5; 11; 39; 63; 27; 17; 15; 23; 29; 3; 21; 13; 31; 25; 9; 49; 33; 19; 29; 11; 19; 27; 15; 25]);
  (19%nat, [13; 33; 115; 41; 79; 17; 29; 119; 75; 73; 105; 7; 59; 65; 21; 3; 113; 61; 89; 45; 107]);
  (37%nat, [7; 23; 39]) ]%Z.
(** 155-158 *)
Definition poly : list Z :=
  [1; 3; 7; 11; 13; 19; 25; 37; 59; 47; 61; 55; 41; 67; 97; 91; 109; 103; 115; 131; 193; 137; 145; 143; 241; 157;
   185; 167; 229; 171; 213; 191; 253; 203; 211; 239; 247; 285; 369; 299]%Z.
Definition v_start (i j : nat) : Z :=
  match nth_error v_columns j with
  | Some (first, l) => if i <? first then 0%Z else nth (i - first) l 0%Z
  | None => 0%Z
  end.
(** 197-205, one step: [rev_row] is the row so far, the latest number first. [2 ** k] is p2, includ[k - 1] is the bit
    m - k of the polynomial (187-193). *)
Definition v_next (p : Z) (m : nat) (rev_row : list Z) : Z :=
  fold_left (fun newv k => if Z.testbit p (Z.of_nat (m - k)) then Z.lxor newv (2 ^ Z.of_nat k * nth (k - 1) rev_row 0) else newv)%Z
            (seq 1 m) (nth (m - 1) rev_row 0%Z).
Fixpoint v_extend (p : Z) (m steps : nat) (rev_row : list Z) : list Z :=
  match steps with 0 => rev_row | S s => v_extend p m s (v_next p m rev_row :: rev_row) end.
(** Row [i] of V before scaling, 164 and 175-205. *)
Definition v_row (i : nat) : list Z :=
  if Nat.eqb i 0 then repeat 1%Z maxcol
  else
    let p := nth i poly 0%Z in
    let m := Z.to_nat (Z.log2 p) in
    rev (v_extend p m (maxcol - m) (rev (map (v_start i) (seq 0 m)))).
(** 207-210: column j (from 1) is multiplied by 2 ** (maxcol - j). *)
Definition scaled (row : list Z) : list Z :=
  map (fun jv => snd jv * 2 ^ Z.of_nat (maxcol - 1 - fst jv))%Z (enumerate row).
Definition raw_row (i : nat) : list Z := if Nat.eqb i 0 then repeat 1%Z maxcol else map (v_start i) (seq 0 maxcol).

(** ** The generator object, 90-113 *)
Record sobol := mkSobol {
  so_skip : Z; so_randomize : bool; so_generated : Z;
  so_lastq : option (list Z); so_seed : Z; so_v : list (list Z); so_dim : Z }.
Definition sobol_new (skip : Z) (randomize : bool) : res sobol :=
  if negb (Z.land skip (skip - 1) =? 0)%Z then Raise ValueError
  else Ok (mkSobol skip randomize 0 None (-1) (repeat (repeat 0%Z maxcol) dim_max) (-1)).
(** init: the dimension and V are changed before the number of dimensions is checked, 116-172. *)
Definition sobol_init (s : sobol) (d : nat) : sobol * res unit :=
  if (d <? 1) || (dim_max <? d) then
    (mkSobol (so_skip s) (so_randomize s) (so_generated s) (so_lastq s) (so_seed s) (map raw_row (seq 0 dim_max)) (Z.of_nat d),
     Raise ValueError)
  else
    (mkSobol (so_skip s) (so_randomize s) (so_generated s) (Some (repeat 0%Z d)) (so_seed s)
       (map (fun i => scaled (v_row i)) (seq 0 d) ++ map raw_row (seq d (dim_max - d))) (Z.of_nat d), Ok tt).
Definition with_lastq (s : sobol) (q : option (list Z)) (seed : Z) : sobol :=
  mkSobol (so_skip s) (so_randomize s) (so_generated s) q seed (so_v s) (so_dim s).

(** _bit_lo0, 382-395: 1 + the number of trailing ones. *)
Fixpoint lo0_pos (p : positive) : nat := match p with xI p' => S (lo0_pos p') | xO _ => 1 | xH => 2 end.
Definition bit_lo0 (n : Z) : nat := match n with Zpos p => lo0_pos p | _ => 1 end.

(** 327-330, 338-341, 354-357: the first [d] entries of lastq are combined with column [pos] (from 1). Entries are
    changed in order until one is missing. *)
Fixpoint xor_cols (d pos : nat) (v : list (list Z)) (q : list Z) : list Z * res unit :=
  match d with
  | 0 => (q, Ok tt)
  | S d' =>
    match q, v with
    | x :: q', row :: v' =>
      match nth_error row (pos - 1) with
      | Some w => let '(q2, r) := xor_cols d' pos v' q' in (Z.lxor x w :: q2, r)
      | None => (q, Raise IndexError)
      end
    | _, _ => (q, Raise IndexError)
    end
  end.
Definition xor_lastq (s : sobol) (d pos : nat) : sobol * res unit :=
  match so_lastq s with
  | None => (s, match d with 0 => Ok tt | S _ => Raise TypeError end)
  | Some q => let '(q', r) := xor_cols d pos (so_v s) q in (with_lastq s (Some q') (so_seed s), r)
  end.
(** 325-330 and 336-341: the steps for seeds [from, ..., from + count - 1]. *)
Fixpoint advance (s : sobol) (d : nat) (from : Z) (count : nat) : sobol * res unit :=
  match count with
  | 0 => (s, Ok tt)
  | S c => match xor_lastq s d (bit_lo0 from) with
           | (s', Raise e) => (s', Raise e)
           | (s', Ok _) => advance s' d (from + 1) c
           end
  end.

Section Sobol.
  Context {N RNG : Type} (O : numops N) (G : rng_ops N RNG).

  (** 213: recipd = 1.0 / 2 ** 30 *)
  Definition recipd : N := ndiv O (nofZ O 1) (nofZ O (2 ^ 30)).

  (** _sobol, 278-362. The seed returned is one more than the seed used. *)
  Definition sobol_point (s : sobol) (d : nat) (seed : Z) : sobol * res (list N * Z) :=
    let '(s1, r1) := if (Z.of_nat d =? so_dim s)%Z then (s, Ok tt) else sobol_init s d in
    match r1 with
    | Raise e => (s1, Raise e)
    | Ok _ =>
      let seed := Z.max 0 seed in
      let '(s2, r2) :=
        if (seed =? 0)%Z then (with_lastq s1 (Some (repeat 0%Z d)) (so_seed s1), Ok 1)
        else if (seed =? so_seed s1 + 1)%Z then (s1, Ok (bit_lo0 seed))
        else if (seed <=? so_seed s1)%Z then
          let '(s', r) := advance (with_lastq s1 (Some (repeat 0%Z d)) 0) d 0 (Z.to_nat seed) in
          (s', _ <- r ;; Ok (bit_lo0 seed))
        else
          let '(s', r) := advance s1 d (so_seed s1 + 1) (Z.to_nat (seed - (so_seed s1 + 1))) in
          (s', _ <- r ;; Ok (bit_lo0 seed)) in
      match r2 with
      | Raise e => (s2, Raise e)
      | Ok pos =>
        if maxcol <? pos then (s2, Raise ValueError)
        else
          let '(s3, r3) := xor_lastq s2 d pos in
          match r3 with
          | Raise e => (s3, Raise e)
          | Ok _ =>
            let quasi := map (fun q => nmul O (nofZ O q) recipd) (firstn d (match so_lastq s2 with Some q => q | None => [] end)) in
            (with_lastq s3 (so_lastq s3) seed, Ok (quasi, (seed + 1)%Z))
          end
      end
    end.
  (** 264-266 *)
  Fixpoint sobol_rows (s : sobol) (d : nat) (seed : Z) (n : nat) : sobol * res (@design N) :=
    match n with
    | 0 => (s, Ok [])
    | S n' =>
      match sobol_point s d seed with
      | (s1, Raise e) => (s1, Raise e)
      | (s1, Ok (row, seed')) => match sobol_rows s1 d seed' n' with
                                 | (s2, Raise e) => (s2, Raise e)
                                 | (s2, Ok rows) => (s2, Ok (row :: rows))
                                 end
      end
    end.
  (** _random_shift, 398-428: one random number for each column. The remainder modulo 1 of a non-negative number is
      exact in floating point: x minus its integer part. *)
  Definition frac (x : N) : N := nsub O x (nofZ O (ntoint O x)).
  Definition random_shift (h : @design N) (d : nat) (g : RNG) : @design N :=
    let shift := fst (draws (rg_random G) d g) in
    map (fun row => map (fun xs => frac (nadd O (fst xs) (snd xs))) (combine row shift)) h.

  (** The design before it is mapped to the space: 264-269. *)
  Definition sobol_design (s : sobol) (d n_samples : nat) (g : RNG) : sobol * res (@design N) :=
    let '(s1, r) := sobol_rows s d (so_skip s) n_samples in
    (s1, rows <- r ;; Ok (if so_randomize s then random_shift rows d g else rows)).
  Definition count_samples (s : sobol) (n : nat) : sobol :=
    mkSobol (so_skip s) (so_randomize s) (so_generated s + Z.of_nat n) (so_lastq s) (so_seed s) (so_v s) (so_dim s).
  (** Sobol.generate, 216-276. The check of 243-249 only warns. *)
  Definition sobol_generate (s : sobol) (dims : list (dim N)) (n_samples : nat) (g : RNG)
    : sobol * (list (dim N) * res (list (point N))) :=
    if (negb (so_skip s =? 0) && (so_skip s <? so_generated s + Z.of_nat n_samples))%Z then (s, (dims, Raise ValueError))
    else
      let '(s1, h) := sobol_design s (length dims) n_samples g in
      let '(dims', pts) := warp_design O dims h in
      (match pts with Ok _ => count_samples s1 n_samples | Raise _ => s1 end, (dims', pts)).
End Sobol.
