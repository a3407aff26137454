(** skopt/space/space.py: Space, and the random generator interface. *)
From Coq Require Import String List ZArith Bool DecimalString Permutation.
From Verif Require Import Base Num Values Transformers Dimension.
Import ListNotations.
Open Scope list_scope.
Set Implicit Arguments.

(** numpy RandomState as an arbitrary state with arbitrary draw functions. *)
Record rng_ops (N RNG : Type) := {
  rg_random : RNG -> N * RNG;                 (* random_sample() *)
  rg_randint : RNG -> Z -> Z -> Z * RNG;      (* randint(lo, hi) *)
  rg_choice : RNG -> list N -> nat * RNG;     (* rv_discrete(range(len p), p) *)
  rg_perm : RNG -> nat -> list nat * RNG;     (* permutation(n) *)
  rg_multinomial : RNG -> list N -> nat * RNG;(* argmax(multinomial(1, p)) *)
  rg_seed : Z -> RNG                          (* check_random_state(seed) *)
}.

(** The documented support of the draws: the only thing ever assumed about randomness. *)
Definition rng_ok {N RNG} (O : numops N) (G : rng_ops N RNG) : Prop :=
  (forall g, nleb O (nofZ O 0) (fst (rg_random G g)) = true /\
             nltb O (fst (rg_random G g)) (nofZ O 1) = true) /\
  (forall g lo hi, (lo < hi)%Z -> (lo <= fst (rg_randint G g lo hi) < hi)%Z) /\
  (forall g p, p <> [] -> fst (rg_choice G g p) < length p) /\
  (forall g n, Permutation.Permutation (fst (rg_perm G g n)) (seq 0 n)) /\
  (forall g p, p <> [] -> fst (rg_multinomial G g p) < length p).

Section Space.
  Context {N : Type} (O : numops N).
  Notation val := (pyval N).
  Definition point := list (pyval N).

  (** _transpose_list_array, space.py 27-40: the number of samples is taken from the first
      column; a shorter column raises IndexError. *)
  Definition transpose {A} (cols : list (list A)) : res (list (list A)) :=
    match cols with
    | [] => Raise AssertionError
    | c :: _ =>
      mapM (fun i => mapM (fun col => match nth_error col i with
                                      | Some v => Ok v | None => Raise IndexError end) cols)
           (seq 0 (length c))
    end.

  (** Packing by dimension, space.py 956-963: [columns[j][i] = X[i][j]]. *)
  Definition pack (n_dims : nat) (X : list point) : res (list (list val)) :=
    mapM (fun j => mapM (fun x => match nth_error x j with
                                  | Some v => Ok v | None => Raise IndexError end) X)
         (seq 0 n_dims).

  (** np.asarray(c).reshape((len(X), -1)): an empty array cannot be reshaped with -1. *)
  Definition reshape_rows (nX : nat) (a : arr val) : res (list (list val)) :=
    match nX with
    | 0 => Raise ValueError
    | _ => Ok (rows_of a)
    end.

  (** np.hstack of row blocks. *)
  Fixpoint hconcat (blocks : list (list (list val))) (nX : nat) : list (list val) :=
    match blocks with
    | [] => repeat [] nX
    | b :: bs => map (fun p => fst p ++ snd p) (combine b (hconcat bs nX))
    end.

  (** Common dtype of the stacked array: all numbers become floats (the all-integer
      case keeps integers in numpy; exact below 2^53); with a string column everything becomes a
      string; None makes objects. *)
  Definition harmonise (rows : list (list val)) : list (list val) :=
    let all := concat rows in
    if has_ty TyNone all then rows
    else if has_ty TyStr all then map (map (fun v => VStr (py_str O v))) rows
    else map (map (fun v => match to_num O v with Some x => VFloat x | None => v end)) rows.

  (** Space.transform, space.py 942-974. *)
  Definition space_transform (dims : list (dim N)) (X : list point) : res (list (list val)) :=
    cols <- pack (length dims) X ;;
    tcols <- mapM (fun dc => dim_transform O (fst dc) (snd dc)) (combine dims cols) ;;
    blocks <- mapM (reshape_rows (length X)) tcols ;;
    match blocks with
    | [] => Raise ValueError                (* np.hstack([]) *)
    | _ => Ok (harmonise (hconcat blocks (length X)))
    end.

  (** [Xt[:, start]] and [Xt[:, start:start+offset]] *)
  Definition column (start : nat) (Xt : list (list val)) : res (list val) :=
    mapM (fun r => match nth_error r start with Some v => Ok v | None => Raise IndexError end) Xt.
  Definition block (start off : nat) (Xt : list (list val)) : list (list val) :=
    map (fun r => firstn off (skipn start r)) Xt.

  (** Space.inverse_transform, space.py 976-1007. *)
  Fixpoint inverse_columns (dims : list (dim N)) (start : nat) (Xt : list (list val))
    : res (list (list val)) :=
    match dims with
    | [] => Ok []
    | d :: ds =>
      let off := tsize d in
      c <- (if Nat.eqb off 1 then (l <- column start Xt ;; dim_inverse O d (A1 l))
            else dim_inverse O d (A2 (block start off Xt))) ;;
      cs <- inverse_columns ds (start + off) Xt ;;
      Ok (c :: cs)
    end.
  Definition space_inverse (dims : list (dim N)) (Xt : list (list val)) : res (list point) :=
    cols <- inverse_columns dims 0 Xt ;; transpose cols.

  (** transformed_n_dims, space.py 1014-1017 *)
  Definition t_n_dims (dims : list (dim N)) : nat := fold_right (fun d n => tsize d + n) 0 dims.

  (** transformed_bounds, space.py 1091-1102 *)
  Definition space_tbounds (dims : list (dim N)) : list (N * N) := flat_map (tbounds O) dims.

  (** is_categorical, space.py 1104-1107 *)
  Definition is_categorical (dims : list (dim N)) : bool := forallb (@is_cat N) dims.

  (** Space.__contains__, space.py 1032-1037: zip stops at the shorter sequence. *)
  Fixpoint space_contains (dims : list (dim N)) (p : point) : res bool :=
    match p, dims with
    | v :: p', d :: ds =>
      b <- contains O d v ;;
      if b then space_contains ds p' else Ok false
    | _, _ => Ok true
    end.

  (** Space.__eq__, space.py 773-774: list comprehension over zip, then all(). *)
  Definition space_eqb (a b : list (dim N)) : bool :=
    forallb (fun ab => dim_eqb O (fst ab) (snd ab)) (combine a b).

  (** dimension_names, space.py 787-799 *)
  Definition dimension_names (dims : list (dim N)) : list string :=
    map (fun id => match dim_name (snd id) with
                   | Some s => s
                   | None => ("X_" ++ NilZero.string_of_uint (Nat.to_uint (fst id)))%string
                   end) (enumerate dims).

  (** Space.__getitem__ with a str or int key, space.py 1063-1075. *)
  Inductive gkey := GName (s : string) | GIndex (z : Z).
  Fixpoint get_from (i : nat) (dims : list (dim N)) (k : gkey) : option (nat * dim N) :=
    match dims with
    | [] => None
    | d :: ds =>
      match k with
      | GName s => match dim_name d with
                   | Some s' => if String.eqb s s' then Some (i, d) else get_from (S i) ds k
                   | None => get_from (S i) ds k
                   end
      | GIndex z => if Z.eqb z (Z.of_nat i) then Some (i, d) else get_from (S i) ds k
      end
    end.
  Definition space_get (dims : list (dim N)) (k : gkey) : option (nat * dim N) := get_from 0 dims k.
  Definition space_get_list (dims : list (dim N)) (ks : list gkey) : list (option (nat * dim N)) :=
    map (space_get dims) ks.

  (** Space.distance, space.py 1125-1140 *)
  Fixpoint distance_from (acc : N) (dims : list (dim N)) (a b : point) : res N :=
    match a, b, dims with
    | x :: a', y :: b', d :: ds =>
      v <- dim_distance O d x y ;; distance_from (nadd O acc v) ds a' b'
    | _, _, _ => Ok acc
    end.
  Definition space_distance (dims : list (dim N)) (a b : point) : res N :=
    distance_from (nofZ O 0) dims a b.

  (** set_transformer with one kind / a list of kinds, space.py 905-920; get_transformer 938. *)
  Definition set_kinds_all (k : tkind) (dims : list (dim N)) : res (list (dim N)) :=
    mapM (set_kind k) dims.
  Fixpoint set_kinds (ks : list tkind) (dims : list (dim N)) : res (list (dim N)) :=
    match dims with
    | [] => Ok []
    | d :: ds =>
      match ks with
      | [] => Raise IndexError
      | k :: ks' => d' <- set_kind k d ;; ds' <- set_kinds ks' ds ;; Ok (d' :: ds')
      end
    end.
  Definition get_kinds (dims : list (dim N)) : list tkind := map (@dim_kind N) dims.

  (** *** Random sampling *)
  Section Rvs.
    Context {RNG : Type} (G : rng_ops N RNG).

    (** [size] draws in sequence. *)
    Fixpoint draws {A} (f : RNG -> A * RNG) (n : nat) (g : RNG) : list A * RNG :=
      match n with
      | 0 => ([], g)
      | S n' => let '(x, g1) := f g in let '(xs, g2) := draws f n' g1 in (x :: xs, g2)
      end.

    (** scipy [uniform(loc, scale).rvs]: [random_sample() * scale + loc]. *)
    Definition uniform_draw (loc scale : N) (g : RNG) : N * RNG :=
      let '(u, g') := rg_random G g in (nadd O (nmul O u (nsucc O scale)) loc, g').

    (** Dimension.rvs (space.py 144-158) and Categorical.rvs (690-700), n_samples given. *)
    Definition dim_rvs (d : dim N) (n : nat) (g : RNG) : res (list val) * RNG :=
      match dim_rvs_spec O d with
      | RVUniform loc scale =>
        let '(us, g') := draws (uniform_draw loc scale) n g in
        (dim_inverse O d (A1 (map (@VFloat N) us)), g')
      | RVRandint lo hi =>
        let '(zs, g') := draws (fun g => rg_randint G g lo hi) n g in
        (dim_inverse O d (A1 (map (@VInt N) zs)), g')
      | RVDiscrete p =>
        let '(is, g') := draws (fun g => rg_choice G g p) n g in
        match d with
        | DCat c => (mapM (fun i => match nth_error (c_cats c) i with
                                    | Some v => Ok v | None => Raise IndexError end) is, g')
        | _ => (Raise NotModelled, g')
        end
      end.

    Fixpoint rvs_columns (dims : list (dim N)) (n : nat) (g : RNG) : res (list (list val)) * RNG :=
      match dims with
      | [] => (Ok [], g)
      | d :: ds =>
        let '(c, g1) := dim_rvs d n g in
        match c with
        | Raise e => (Raise e, g1)
        | Ok c =>
          let '(cs, g2) := rvs_columns ds n g1 in
          match cs with
          | Raise e => (Raise e, g2)
          | Ok cs => (Ok (c :: cs), g2)
          end
        end
      end.

    (** Space.rvs, space.py 874-903 *)
    Definition space_rvs (dims : list (dim N)) (n : nat) (g : RNG) : res (list point) * RNG :=
      let '(cs, g') := rvs_columns dims n g in
      (cols <- cs ;; transpose cols, g').
  End Rvs.

  (** *** utils.check_x_in_space, utils.py 181-200 *)
  (** The argument of tell: one point, or a list whose elements are all list-like. *)
  Inductive xarg := X1 (p : point) | X2 (ps : list point).

  Definition check_x_in_space (x : xarg) (dims : list (dim N)) : res unit :=
    match x with
    | X2 ps =>
      ok <- allM (space_contains dims) ps ;;
      if negb ok then Raise ValueError
      else if existsb (fun p => negb (Nat.eqb (length p) (length dims))) ps then Raise ValueError
      else Ok tt
    | X1 p =>
      ok <- space_contains dims p ;;
      if negb ok then Raise ValueError
      else if negb (Nat.eqb (length p) (length dims)) then Raise ValueError
      else Ok tt
    end.
End Space.
Arguments point : clear implicits.
Arguments xarg : clear implicits.
Arguments X1 {N} p.
Arguments X2 {N} ps.
