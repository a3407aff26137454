(** skopt/plots.py: the data that the plotting functions draw. Colours, labels, scales and axes are left out. *)
From Coq Require Import String List ZArith Bool.
From Verif Require Import Base Num Values Transformers Dimension Space Optimizer.
Import ListNotations.
Open Scope list_scope.
Set Implicit Arguments.

Section Traces.
  Context {N RNG M : Type} (O : numops N).
  Notation result := (result N RNG M).

  (** One positional argument: a result or a list of results; with a name when it is a tuple. *)
  Inductive traced := TOne (r : result) | TMany (rs : list result).
  Definition named := (option string * traced)%type.
  (** A polyline through (x_k, y_k). *)
  Record line := mkLine { l_x : list nat; l_y : list N }.
  (** What is drawn: the lines, the horizontal line, whether there is a legend. *)
  Record chart := mkChart { ch_lines : list line; ch_hline : option N; ch_legend : bool }.

  (** plots.py 81-82, 89-90: [np.min(func_vals[:i])], i = 1 .. n. *)
  Definition min_trace (n : nat) (r : result) : res (list N) :=
    mapM (fun i => np_min O (firstn i (res_func_vals r))) (seq 1 n).
  (** np.mean of equally long rows along axis 0. *)
  Definition column_means (n : nat) (rows : list (list N)) : res (list N) :=
    mapM (fun j => col <- mapM (fun r => match nth_error r j with Some v => Ok v | None => Raise ValueError end) rows ;;
                   np_mean O col) (seq 0 n).
  (** plots.py 79-96 and 336-353: the lines of one argument, given the trace of one result. *)
  Definition arg_lines (tr : nat -> result -> res (list N)) (a : traced) : res (list line) :=
    match a with
    | TOne r =>
      let n := length (res_x_iters r) in
      ys <- tr n r ;; Ok [mkLine (seq 1 n) ys]
    | TMany rs =>
      match rs with
      | [] => Raise IndexError
      | r0 :: _ =>
        let n := length (res_x_iters r0) in
        rows <- mapM (tr n) rs ;;
        means <- column_means n rows ;;
        Ok (map (mkLine (seq 1 n)) rows ++ [mkLine (seq 1 n) means])
      end
    end.
  (** Truth value of a number: 0 is false. *)
  Definition truthy (x : option N) : bool := match x with None => false | Some v => negb (neqb O v (nofZ O 0)) end.
  Definition has_name (a : named) : bool := match fst a with Some s => negb (String.eqb s "") | None => false end.

  (** plot_convergence, plots.py 26-106. Without arguments [name] is never bound. *)
  Definition plot_convergence (args : list named) (true_minimum : option N) : res chart :=
    ls <- mapM (fun a => arg_lines min_trace (snd a)) args ;;
    let drawn := truthy true_minimum in
    legend <- (if drawn then Ok true
               else match args with [] => Raise UnboundLocalError | a :: rest => Ok (has_name (last rest a)) end) ;;
    Ok (mkChart (concat ls) (if drawn then true_minimum else None) legend).

  (** plots.py 338-339, 346-347: [np.sum(func_vals[:i] - true_minimum)]. *)
  Definition regret_trace (m : N) (n : nat) (r : result) : res (list N) :=
    Ok (map (fun i => np_sum O (map (fun v => nsub O v m) (firstn i (res_func_vals r)))) (seq 1 n)).
  (** plots.py 318-328 *)
  Definition all_results (args : list named) : list result :=
    flat_map (fun a => match snd a with TOne r => [r] | TMany rs => rs end) args.
  Definition least_seen (args : list named) : res N :=
    ms <- mapM (fun r => np_min O (res_func_vals r)) (all_results args) ;; np_min O ms.
  (** plot_regret, plots.py 270-358. *)
  Definition plot_regret (args : list named) (true_minimum : option N) : res chart :=
    m <- match true_minimum with Some m => Ok m | None => least_seen args end ;;
    ls <- mapM (fun a => arg_lines (regret_trace m) (snd a)) args ;;
    match args with
    | [] => Raise UnboundLocalError
    | a :: rest => Ok (mkChart (concat ls) None (has_name (last rest a)))
    end.
End Traces.
Arguments traced : clear implicits.
Arguments named : clear implicits.

Section Dependence.
  Context {N : Type} (O : numops N).
  Notation val := (pyval N).

  (** np.linspace(lo, hi, n): [k * step + lo], the last value is hi. (numpy scales differently when the step
      underflows to 0.) *)
  Definition linspace (lo hi : N) (n : nat) : list N :=
    match n with
    | 0 => []
    | 1 => [nadd O (nmul O (nofZ O 0) (nsub O hi lo)) lo]
    | S m =>
      let step := ndiv O (nsub O hi lo) (nofZ O (Z.of_nat m)) in
      map (fun k => nadd O (nmul O (nofZ O (Z.of_nat k)) step) lo) (seq 0 m) ++ [hi]
    end.

  (** _evenly_sample, plots.py 1298-1331: the plotted coordinates and the transformed values. A Categorical without
      categories is not modelled. *)
  Definition evenly_sample (d : dim N) (n : nat) : res (list val * arr val) :=
    match d with
    | DCat c =>
      match c_cats c with
      | [] => Raise NotModelled
      | cats =>
        let k := length cats in
        let xi := map (ntoint O) (linspace (nofZ O 0) (nofZ O (Z.of_nat k - 1)) (Nat.min k n)) in
        vs <- mapM (fun z => match znat z with
                             | Some i => match nth_error cats i with Some v => Ok v | None => Raise IndexError end
                             | None => Raise NotModelled end) xi ;;
        a <- dim_transform O d vs ;; Ok (map (@VInt N) xi, a)
      end
    | DReal r => let xi := map (@VFloat N) (linspace (r_low r) (r_high r) n) in a <- dim_transform O d xi ;; Ok (xi, a)
    | DInt i =>
      let xi := map (@VFloat N) (linspace (nofZ O (i_low i)) (nofZ O (i_high i)) n) in
      a <- dim_transform O d xi ;; Ok (xi, a)
    end.

  (** dim_locs[i], plots.py 948, 1033: the columns before dimension i. *)
  Definition dim_loc (dims : list (dim N)) (i : nat) : nat := fold_right (fun d n => tsize d + n) 0 (firstn i dims).

  (** [row[a:b] = x] for a row of floats: [x] is a number (given as one-element row) or a row; one value is repeated,
      numbers become floats. A value that is no number is not modelled. *)
  Definition assign (a b : nat) (x : list val) (row : list val) : res (list val) :=
    let w := length (firstn (b - a) (skipn a row)) in
    ys <- nums O x ;;
    block <- (if Nat.eqb (length ys) w then Ok ys else match ys with [y] => Ok (repeat y w) | _ => Raise ValueError end) ;;
    Ok (firstn a row ++ map (@VFloat N) block ++ skipn (Nat.max a b) row).

  Variable predict : list (list val) -> res (list N).

  (** partial_dependence_1D, plots.py 896-971 *)
  Definition calc1 (dims : list (dim N)) (i : nat) (samples : list (list val)) (x : list val) : res N :=
    rows <- mapM (assign (dim_loc dims i) (dim_loc dims (S i)) x) samples ;;
    p <- predict rows ;; np_mean O p.
  Definition partial_dependence_1D (dims : list (dim N)) (i : nat) (samples : list (list val)) (n : nat)
    : res (list val * list N) :=
    match nth_error dims i with
    | None => Raise IndexError
    | Some d =>
      e <- evenly_sample d n ;;
      ys <- mapM (calc1 dims i samples) (rows_of (snd e)) ;;
      Ok (fst e, ys)
    end.

  (** partial_dependence_2D, plots.py 974-1055: x runs along dimension j, y along dimension i. *)
  Definition calc2 (dims : list (dim N)) (i j : nat) (samples : list (list val)) (x y : list val) : res N :=
    rows <- mapM (assign (dim_loc dims j) (dim_loc dims (S j)) x) samples ;;
    rows' <- mapM (assign (dim_loc dims i) (dim_loc dims (S i)) y) rows ;;
    p <- predict rows' ;; np_mean O p.
  Definition partial_dependence_2D (dims : list (dim N)) (i j : nat) (samples : list (list val)) (n : nat)
    : res (list val * list val * list (list N)) :=
    match nth_error dims j, nth_error dims i with
    | Some dj, Some di =>
      ex <- evenly_sample dj n ;;
      ey <- evenly_sample di n ;;
      zi <- mapM (fun y => mapM (fun x => calc2 dims i j samples x y) (rows_of (snd ex))) (rows_of (snd ey)) ;;
      Ok (fst ex, fst ey, zi)
    | _, _ => Raise IndexError
    end.

  (** partial_dependence, plots.py 457-539. *)
  Section Sampled.
    Context {RNG : Type} (G : rng_ops N RNG).
    Definition dependence_samples (dims : list (dim N)) (sample_points : option (list (list val))) (n_samples : nat)
               (x_eval : option (list val)) (g : RNG) : res (list (list val)) :=
      match sample_points, x_eval with
      | Some s, _ => Ok s
      | None, None => P <- fst (space_rvs O G dims n_samples g) ;; space_transform O dims P
      | None, Some x => space_transform O dims [x]
      end.
    Definition partial_dependence (dims : list (dim N)) (i : nat) (j : option nat) (sample_points : option (list (list val)))
               (n_samples n_points : nat) (x_eval : option (list val)) (g : RNG)
      : res ((list val * list N) + (list val * list val * list (list N))) :=
      samples <- dependence_samples dims sample_points n_samples x_eval g ;;
      match j with
      | None => r <- partial_dependence_1D dims i samples n_points ;; Ok (inl r)
      | Some j => r <- partial_dependence_2D dims i j samples n_points ;; Ok (inr r)
      end.
  End Sampled.
End Dependence.

Section Categories.
  Context {N : Type} (O : numops N).
  Notation val := (pyval N).
  (** One coordinate of _map_categories, plots.py 1285-1293. A string that is no category of a Categorical raises
      KeyError; in a numeric dimension numpy reads a string as a number or raises ValueError (shown as ValueError). *)
  Definition map_category (d : dim N) (v : val) : res N :=
    match d with
    | DCat c => i <- lookup O (cat_mapping O (c_cats c)) v ;; Ok (nofZ O (Z.of_nat i))
    | _ => match to_num O v with Some x => Ok x | None => Raise ValueError end
    end.
  (** _map_categories, plots.py 1264-1295: points and minimum with categories replaced by their index, and which dimensions
      are categorical. Points of a wrong length are not modelled. *)
  Fixpoint map_point (dims : list (dim N)) (p : list val) : res (list N) :=
    match dims, p with
    | [], [] => Ok []
    | d :: ds, v :: p' => x <- map_category d v ;; r <- map_point ds p' ;; Ok (x :: r)
    | _, _ => Raise NotModelled
    end.
  Definition map_categories (dims : list (dim N)) (points : list (list val)) (minimum : list val)
    : res (list (list N) * list N * list bool) :=
    ps <- mapM (map_point dims) points ;; m <- map_point dims minimum ;; Ok (ps, m, map (@is_cat N) dims).
  (** _cat_format, plots.py 1334-1337: [str(categories[int(x)])]; negative indices count from the end. *)
  Definition cat_format (c : cat_dim N) (x : N) : res string :=
    let z := ntoint O x in
    let k := Z.of_nat (length (c_cats c)) in
    match znat (if (z <? 0)%Z then (z + k)%Z else z) with
    | Some i => match nth_error (c_cats c) i with Some v => Ok (py_str O v) | None => Raise IndexError end
    | None => Raise IndexError
    end.

  (** collections.Counter over a list. *)
  Fixpoint count_in (v : val) (m : list (val * nat)) : list (val * nat) :=
    match m with
    | [] => [(v, 1)]
    | (k, n) :: m' => if py_eqb O k v then (k, S n) :: m' else (k, n) :: count_in v m'
    end.
  Definition counter (l : list val) : list (val * nat) := fold_left (fun m v => count_in v m) l [].

  (** A histogram: bars of a categorical dimension, or the samples with bins and range. [HLog]: bins evenly spaced on
      the log scale between the bounds. *)
  Inductive bins := BNumber (n : nat) | BLog (low high : N) (n : nat).
  Inductive hist := HBars (names : list val) (counts : list nat) | HHist (samples : list val) (b : bins) (range : option (N * N)).
  Definition dim_bounds (d : dim N) : option (N * N) :=
    match d with
    | DReal r => Some (r_low r, r_high r)
    | DInt i => Some (nofZ O (i_low i), nofZ O (i_high i))
    | DCat _ => None
    end.
  Definition is_log (d : dim N) : bool :=
    match d with
    | DReal r => prior_eqb (r_prior r) PLogUniform | DInt i => prior_eqb (i_prior i) PLogUniform | DCat _ => false
    end.
  Definition coordinate (i : nat) (p : list val) : res val :=
    match nth_error p i with Some v => Ok v | None => Raise IndexError end.
  (** plot_histogram, plots.py 1174-1261; an unknown dimension gives (None, None) and then TypeError. *)
  Definition plot_histogram (dims : list (dim N)) (x_iters : list (list val)) (k : gkey) (nbins : nat) : res hist :=
    match space_get dims k with
    | None => Raise TypeError
    | Some (i, d) =>
      samples <- mapM (coordinate i) x_iters ;;
      match d with
      | DCat _ => let c := counter samples in Ok (HBars (map fst c) (map snd c))
      | _ =>
        match dim_bounds d with
        | Some (lo, hi) => Ok (HHist samples (if is_log d then BLog lo hi nbins else BNumber nbins) (Some (lo, hi)))
        | None => Raise NotModelled
        end
      end
    end.

  (** The dimensions shown: all but the constant ones, or those asked for; plots.py 683-691, 806-814. *)
  Definition shown (dims : list (dim N)) (keys : option (list gkey)) : list (option (nat * dim N)) :=
    match keys with
    | None => map Some (filter (fun id => negb (is_constant O (snd id))) (enumerate dims))
    | Some ks => space_get_list dims ks
    end.
  (** The diagonal panel [j] of plot_evaluations, plots.py 803, 828-842: [iscat] is indexed by the panel. The categories of
      a Categorical are given to numpy as range: it raises ValueError unless there are two. *)
  Definition diagonal (dims : list (dim N)) (plot_dims : list (option (nat * dim N))) (samples : list (list N)) (nbins : nat) (j : nat)
    : res (list N * bins * option (N * N)) :=
    match nth_error plot_dims j with
    | None => Raise IndexError
    | Some None => Raise AttributeError
    | Some (Some (index, d)) =>
      match nth_error (map (@is_cat N) dims) j with
      | None => Raise IndexError
      | Some iscat =>
        b <- (if iscat then match d with DCat c => Ok (BNumber (length (c_cats c))) | _ => Raise AttributeError end
              else match dim_bounds d with
                   | Some (lo, hi) => Ok (if is_log d then BLog lo hi nbins else BNumber nbins)
                   | None => Ok (BNumber nbins) end) ;;
        col <- mapM (fun r : list N => match nth_error r index with Some v => Ok v | None => Raise IndexError end) samples ;;
        range <- (if iscat then Ok None
                  else match d with
                       | DCat c =>
                         if negb (Nat.eqb (length (c_cats c)) 2) then Raise ValueError
                         else match nums O (c_cats c) with
                              | Ok [lo; hi] => if nltb O hi lo then Raise ValueError else Ok (Some (lo, hi))
                              | _ => Raise NotModelled
                              end
                       | _ => Ok (dim_bounds d) end) ;;
        Ok (col, b, range)
      end
    end.
End Categories.
