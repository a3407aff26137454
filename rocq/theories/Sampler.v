(** skopt/sampler: Halton, Hammersly, Lhs and Grid. A design is a list of rows with one number per dimension. *)
From Coq Require Import String List ZArith Bool.
From Verif Require Import Base Num Values Transformers Dimension Space.
Import ListNotations.
Open Scope list_scope.
Set Implicit Arguments.

(** ** Primes, halton.py 150-182 *)
(** [l[i] = v]: None is IndexError. *)
Fixpoint set_nth {A} (l : list A) (i : nat) (v : A) : option (list A) :=
  match l, i with
  | [], _ => None
  | _ :: l', 0 => Some (v :: l')
  | x :: l', S i' => match set_nth l' i' v with Some l2 => Some (x :: l2) | None => None end
  end.
(** 176-178: [while idy < half: numbers[idy] = 0; idy += counter]. Each round raises idy, so [half] rounds are
    enough fuel. *)
Fixpoint strike (fuel : nat) (numbers : list nat) (idy half counter : nat) : res (list nat) :=
  if idy <? half then
    match fuel with
    | 0 => Raise NotModelled
    | S fuel' => match set_nth numbers idy 0 with
                 | None => Raise IndexError
                 | Some l => strike fuel' l (idy + counter) half counter
                 end
    end
  else Ok numbers.
(** 172-180. [counter <= threshold ** 0.5] is computed exactly. *)
Fixpoint sieve (fuel threshold half : nat) (numbers : list nat) (idx counter : nat) : res (list nat) :=
  if counter * counter <=? threshold then
    match fuel with
    | 0 => Raise NotModelled
    | S fuel' =>
      match nth_error numbers idx with
      | None => Raise IndexError
      | Some v =>
        numbers' <- (if Nat.eqb v 0 then Ok numbers
                     else let idy := (counter * counter - 3) / 2 in
                          match set_nth numbers idy 0 with
                          | None => Raise IndexError
                          | Some l => strike half l idy half counter
                          end) ;;
        sieve fuel' threshold half numbers' (S idx) (2 * S idx + 3)
      end
    end
  else Ok numbers.
Definition create_primes (threshold : nat) : res (list nat) :=
  if Nat.eqb threshold 2 then Ok [2]
  else if threshold <? 2 then Ok []
  else
    let half := (threshold - 1) / 2 in                  (* int((threshold+1)/2 - 1) *)
    let numbers := map (fun i => 2 * i + 3) (seq 0 half) in  (* range(3, threshold+1, 2) *)
    l <- sieve threshold threshold half numbers 0 3 ;;
    Ok (2 :: filter (fun n => negb (Nat.eqb n 0)) l).

(** 78-84: the threshold is doubled until there are enough primes. [fuel] bounds the rounds; [2 * n] are enough. *)
Fixpoint enough_primes (fuel n order : nat) : res (list nat) :=
  match fuel with
  | 0 => Raise NotModelled
  | S fuel' =>
    ps <- create_primes order ;;
    if length ps <? n then enough_primes fuel' n (order * 2) else Ok ps
  end.
(** 71-85. A given list that is too short is not used at all. *)
Definition halton_primes (given : option (list nat)) (n : nat) : res (list nat) :=
  let primes := match given with None => [] | Some l => l end in
  primes' <- (if length primes <? n
              then ps <- enough_primes (S (2 * n)) n (10 * n) ;; Ok (firstn n ps)
              else Ok primes) ;;
  if Nat.eqb (length primes') n then Ok primes' else Raise AssertionError.

Section Designs.
  Context {N RNG : Type} (O : numops N) (G : rng_ops N RNG).
  Notation val := (pyval N).
  Definition design := list (list N).

  (** ** Van der Corput, halton.py 106-147, for one index; [base] and [out] as in the code. An index is active in the
      first round, and then as long as it is positive. *)
  Fixpoint vdc_from (fuel : nat) (b idx : Z) (base out : N) : res N :=
    match fuel with
    | 0 => Raise NotModelled
    | S fuel' =>
      let out' := nadd O out (ndiv O (nofZ O (idx mod b)) base) in
      let idx' := (idx / b)%Z in
      if (0 <? idx')%Z then vdc_from fuel' b idx' (nmul O base (nofZ O b)) out' else Ok out'
    end.
  Definition vdc (b idx : Z) : res N :=
    if (1 <? b)%Z then vdc_from (S (Z.to_nat (Z.log2 idx))) b idx (nofZ O b) (nofZ O 0)
    else Raise AssertionError.

  (** ** Halton *)
  (** 87-94. [np.max(min_skip, max_skip)] takes the second number for an axis: only 0 and -1 are axes of a number. *)
  Definition halton_skip (min_skip max_skip : Z) (primes : list nat) (g : RNG) : res Z * RNG :=
    if (min_skip =? max_skip)%Z then (Ok min_skip, g)
    else if ((min_skip <? 0) && (max_skip <? 0))%Z then
      (match primes with [] => Raise ValueError | p :: ps => Ok (Z.of_nat (fold_left Nat.max ps p)) end, g)
    else if ((min_skip <? 0) || (max_skip <? 0))%Z then
      (if ((max_skip =? 0) || (max_skip =? -1))%Z then Ok min_skip else Raise ValueError, g)
    else if (max_skip <=? min_skip)%Z then (Raise ValueError, g)
    else let '(s, g') := rg_randint G g min_skip max_skip in (Ok s, g').
  Record halton_args := mkHalton { h_min : Z; h_max : Z; h_primes : option (list nat) }.

  (** 96-100: the rows of the transposed table. *)
  Definition halton_rows (primes : list nat) (skip : Z) (n_samples : nat) : res design :=
    mapM (fun j => mapM (fun p => vdc (Z.of_nat p) (Z.of_nat j + skip)) primes) (seq 0 n_samples).
  Definition halton_design (a : halton_args) (n_dims n_samples : nat) (g : RNG) : res design * RNG :=
    match halton_primes (h_primes a) n_dims with
    | Raise e => (Raise e, g)
    | Ok primes => let '(s, g') := halton_skip (h_min a) (h_max a) primes g in
                   (skip <- s ;; halton_rows primes skip n_samples, g')
    end.

  (** ** The frame all generators share: normalise the space, undo the design, put the transformers back. What is
      returned is the space as it is left, and the points. *)
  Definition as_values (h : design) : list (list val) := map (map (@VFloat N)) h.
  Definition warp_design (dims : list (dim N)) (h : res design) : list (dim N) * res (list (point N)) :=
    match set_kinds_all KNormalize dims with
    | Raise e => (dims, Raise e)
    | Ok dn =>
      match (m <- h ;; space_inverse O dn (as_values m)) with
      | Raise e => (dn, Raise e)
      | Ok pts => match set_kinds (get_kinds dims) dn with
                  | Raise e => (dn, Raise e)
                  | Ok back => (back, Ok pts)
                  end
      end
    end.

  (** Halton.generate, 42-104 *)
  Definition halton_generate (a : halton_args) (dims : list (dim N)) (n_samples : nat) (g : RNG)
    : list (dim N) * res (list (point N)) :=
    warp_design dims (fst (halton_design a (length dims) n_samples g)).

  (** ** np.linspace(0, 1, n + 1) *)
  Definition linspace01 (n : nat) : list N :=
    let step := ndiv O (nofZ O 1) (nofZ O (Z.of_nat n)) in
    map (fun i => if Nat.eqb i n then nofZ O (if Nat.eqb n 0 then 0 else 1)
                  else nmul O (nofZ O (Z.of_nat i)) step) (seq 0 (S n)).

  (** ** Hammersly.generate, hammersly.py 44-92. In one dimension it calls Halton on the same dimension objects, whose
      transformers are "normalize" by then. Otherwise Halton is asked for points of a space of unit intervals, which
      are the rows of its design (undoing the transformation of a unit interval is multiplying by one). *)
  Definition hammersly_design (a : halton_args) (n_dims n_samples : nat) (g : RNG) : res design :=
    if Nat.eqb n_dims 1 then fst (halton_design a 1 n_samples g)
    else
      h <- fst (halton_design a (n_dims - 1) n_samples g) ;;
      Ok (map (fun rx => fst rx ++ [snd rx]) (combine h (removelast (linspace01 n_samples)))).
  Definition hammersly_generate (a : halton_args) (dims : list (dim N)) (n_samples : nat) (g : RNG)
    : list (dim N) * res (list (point N)) :=
    warp_design dims (hammersly_design a (length dims) n_samples g).

  (** ** Lhs, lhs.py *)
  Inductive lhs_type := LClassic | LCentered | LOtherType.
  (** rng.rand(n, d) fills the rows in order. *)
  Definition rand_matrix (n d : nat) (g : RNG) : design * RNG := draws (draws (rg_random G) d) n g.
  (** 13-20: every column is permuted on its own. *)
  Fixpoint permute_columns (d : nat) (n : nat) (g : RNG) : list (list nat) * RNG :=
    match d with
    | 0 => ([], g)
    | S d' => let '(p, g1) := rg_perm G g n in let '(ps, g2) := permute_columns d' n g1 in (p :: ps, g2)
    end.
  Definition permuted (h : design) (orders : list (list nat)) : res design :=
    mapM (fun i => mapM (fun jo => match nth_error (snd jo) i with
                                   | None => Raise IndexError
                                   | Some k => match nth_error h k with
                                               | None => Raise IndexError
                                               | Some row => match nth_error row (fst jo) with
                                                             | None => Raise IndexError | Some v => Ok v end
                                               end
                                   end) (enumerate orders)) (seq 0 (length h)).
  (** _lhs_normalized, 130-145, before the permutation: the row of stratum [i] with jitters [u]. *)
  Definition lhs_cell (t : lhs_type) (lo hi u : N) : res N :=
    let diff := nsub O hi lo in
    match t with
    | LCentered => Ok (nadd O (ndiv O diff (nofZ O 2)) lo)
    | LClassic => Ok (nadd O (nmul O u diff) lo)
    | LOtherType => Raise ValueError
    end.
  Definition lhs_rows (t : lhs_type) (n : nat) (u : design) : res design :=
    let x := linspace01 n in
    mapM (fun iu => match nth_error x (fst iu), nth_error x (S (fst iu)) with
                    | Some lo, Some hi => mapM (lhs_cell t lo hi) (snd iu)
                    | _, _ => Raise IndexError
                    end) (enumerate u).
  Definition lhs_normalized (t : lhs_type) (d n : nat) (g : RNG) : res design * RNG :=
    let '(u, g1) := rand_matrix n d g in
    match lhs_rows t n u with
    | Raise e => (Raise e, g1)
    | Ok h => let '(orders, g2) := permute_columns d n g1 in (permuted h orders, g2)
    end.
  (** The statistics of a design used by the criteria: scipy's pdist and numpy's corrcoef, not modelled. *)
  Record lhs_stats := {
    st_corr : design -> res (option N * N);     (* max |r[r != 1]| if any, and max |r - eye| *)
    st_min : design -> res N;                   (* np.min(pdist) *)
    st_ratio : design -> res N }.               (* max / min, the minimum replaced by 1e-8 if 0 *)
  Inductive criterion := CNone | CCorrelation | CMaximin | CRatio | COther.
  (** One candidate against the best so far (the number it is judged by, None for +inf): 96-127. The statistics of a
      design are finite, so every number is less than +inf. *)
  Definition lhs_better (S : lhs_stats) (c : criterion) (best : option N) (h : design) : res (option N) :=
    match c with
    | CCorrelation =>
      t <- st_corr S h ;;
      match t with
      | (Some m, m2) => Ok (match best with None => Some m2 | Some b => if nltb O m b then Some m2 else None end)
      | (None, _) => Ok None
      end
    | CMaximin =>
      d <- st_min S h ;;
      match best with None => Raise NotModelled | Some b => Ok (if nltb O b d then Some d else None) end
    | CRatio =>
      r <- st_ratio S h ;;
      Ok (match best with None => Some r | Some b => if nltb O r b then Some r else None end)
    | _ => Raise NotModelled
    end.
  Fixpoint lhs_search (S : lhs_stats) (t : lhs_type) (c : criterion) (d n iterations : nat)
    (best : option N) (h_opt : design) (g : RNG) : res design * RNG :=
    match iterations with
    | 0 => (Ok h_opt, g)
    | Datatypes.S its =>
      match lhs_normalized t d n g with
      | (Raise e, g1) => (Raise e, g1)
      | (Ok h, g1) =>
        match lhs_better S c best h with
        | Raise e => (Raise e, g1)
        | Ok None => lhs_search S t c d n its best h_opt g1
        | Ok (Some b) => lhs_search S t c d n its (Some b) h g1
        end
      end
    end.
  (** Lhs.generate, 48-128. The inverse transformation of every new best design (87, 100, 110, 124) is done once at
      the end. *)
  Definition lhs_design (S : lhs_stats) (t : lhs_type) (c : criterion) (iterations d n : nat) (g : RNG)
    : res design * RNG :=
    match c with
    | CNone => lhs_normalized t d n g
    | _ =>
      if Nat.eqb n 1 then lhs_normalized t d n g
      else
        match lhs_normalized t d n g with
        | (Raise e, g1) => (Raise e, g1)
        | (Ok h, g1) =>
          match c with
          | CCorrelation => lhs_search S t c d n iterations None h g1
          | CMaximin => lhs_search S t c d n iterations (Some (nofZ O 0)) h g1
          | CRatio => lhs_search S t c d n iterations None h g1
          | _ => (Raise ValueError, g1)
          end
        end
    end.
  Definition lhs_generate (S : lhs_stats) (t : lhs_type) (c : criterion) (iterations : nat)
    (dims : list (dim N)) (n_samples : nat) (g : RNG) : list (dim N) * res (list (point N)) :=
    warp_design dims (fst (lhs_design S t c iterations (length dims) n_samples g)).

  (** ** Grid, grid.py *)
  (** _quadrature_combine, 11-26: all combinations, the last argument varying fastest. *)
  Definition quadrature_combine (args : list (list N)) : res design :=
    match args with
    | [] => Raise IndexError
    | a :: rest =>
      let size := (fold_left (fun p x => p * Z.of_nat (length x)) rest (Z.of_nat (length a)) * Z.of_nat (length args))%Z in
      if (10 ^ 9 <? size)%Z then Raise MemoryError
      else Ok (fold_left (fun out arg => flat_map (fun row => map (fun v => row ++ [v]) arg) out) rest (map (fun v => [v]) a))
    end.
  Definition ticks (first count : Z) (den : Z) : list N :=
    map (fun i => ndiv O (nofZ O (first + Z.of_nat i)) (nofZ O den)) (seq 0 (Z.to_nat count)).
  Definition grid_exclude (n_dim : nat) (order : Z) : res design :=
    if ((0 <? order) && (0 <? Z.of_nat n_dim))%Z
    then quadrature_combine (repeat (ticks 1 order (order + 1)) n_dim) else Raise AssertionError.
  Definition grid_include (n_dim : nat) (order : Z) : res design :=
    if ((1 <? order) && (0 <? Z.of_nat n_dim))%Z
    then quadrature_combine (repeat (ticks 0 order (order - 1)) n_dim) else Raise AssertionError.
  Definition grid_only (n_dim : nat) (order : Z) : res design :=
    if ((1 <? order) && (0 <? Z.of_nat n_dim))%Z
    then quadrature_combine (repeat [nofZ O 0; nofZ O 1] (n_dim - 1) ++ [ticks 0 order (order - 1)])
    else Raise AssertionError.
  Inductive border := BInclude | BExclude | BOnly | BOther.
  Record grid_args := mkGrid { gr_border : border; gr_full : bool; gr_append : border }.
  (** rng.shuffle(h) on the rows *)
  Definition shuffle (h : design) (g : RNG) : res design :=
    mapM (fun k => match nth_error h k with Some r => Ok r | None => Raise IndexError end) (fst (rg_perm G g (length h))).
  (** Square roots are computed exactly. *)
  Definition grid_first (a : grid_args) (n_dim : nat) (n : Z) : res design :=
    let sq := if gr_full a then Z.sqrt n else Z.sqrt_up n in
    let hf := if gr_full a then (n / 2)%Z else ((n + 1) / 2)%Z in
    match gr_border a with
    | BInclude => grid_include n_dim (if (sq <? 2)%Z then 2 else sq)
    | BExclude => grid_exclude n_dim (if (sq <? 1)%Z then 1 else sq)
    | BOnly => grid_exclude n_dim (if (hf <? 2)%Z then 2 else hf)     (* the code calls the "exclude" layout here, 135 *)
    | BOther => Raise ValueError
    end.
  Definition grid_more (a : grid_args) (n_dim : nat) (missing : Z) : res design :=
    match gr_append a with
    | BOnly => let o := ((missing + 1) / 2)%Z in grid_only n_dim (if (o <? 2)%Z then 2 else o)
    | BInclude => let o := Z.sqrt_up missing in grid_include n_dim (if (o <? 2)%Z then 2 else o)
    | BExclude => let o := Z.sqrt_up missing in grid_exclude n_dim (if (o <? 1)%Z then 1 else o)
    | BOther => Raise ValueError
    end.
  (** Grid.generate, 80-170 *)
  Definition grid_design (a : grid_args) (n_dim n_samples : nat) (g : RNG) : res design :=
    h <- grid_first a n_dim (Z.of_nat n_samples) ;;
    if n_samples <? length h then (h' <- shuffle h g ;; Ok (firstn n_samples h'))
    else if length h <? n_samples then
      h2 <- grid_more a n_dim (Z.of_nat n_samples - Z.of_nat (length h)) ;;
      shuffle (h ++ firstn (n_samples - length h) h2) g
    else shuffle h g.
  Definition grid_generate (a : grid_args) (dims : list (dim N)) (n_samples : nat) (g : RNG)
    : list (dim N) * res (list (point N)) :=
    warp_design dims (grid_design a (length dims) n_samples g).
End Designs.
