(** skopt/plots.py: plot_objective, plot_objective_2D and _evaluate_min_params; the data that are drawn. *)
From Coq Require Import String List ZArith Bool.
From Verif Require Import Base Num Values Transformers Dimension Space Optimizer Plots Expected.
Import ListNotations.
Open Scope string_scope.
Open Scope list_scope.
Set Implicit Arguments.

Section Objective.
  Context {N RNG : Type} (O : numops N) (G : rng_ops N RNG).
  Notation val := (pyval N).
  Variable predict : list (list val) -> res (list N).
  Variable below_inf : N -> bool.
  Variable sp_minimize : (list N -> res N) -> list val -> list (N * N) -> res (list N * N).

  Inductive min_params := MName (s : string) | MList (l : list val) | MOther.
  (** _evaluate_min_params, plots.py 1340-1397; [x]: the best observed point. *)
  Definition evaluate_min_params (dims : list (dim N)) (x : list val) (p : min_params) (n_search : option nat) (g : RNG)
    : res (list val) :=
    match p with
    | MName s =>
      if String.eqb s "result" then Ok x
      else if String.eqb s "expected_minimum" then
        if is_partly_categorical dims then Raise ValueError
        else
          let n := match n_search with Some 0 | None => 20 | Some n => n end in
          r <- expected_minimum O G predict below_inf sp_minimize dims x (Z.of_nat n) g ;; Ok (fst r)
      else if String.eqb s "expected_minimum_random" then
        let n := match n_search with Some n => n | None => Nat.pow 10 (length x) end in
        r <- expected_minimum_random_sampling O G predict dims n g ;; Ok (fst r)
      else Raise ValueError
    | MList l => if Nat.eqb (length l) (length x) then Ok l else Raise AssertionError
    | MOther => Raise ValueError
    end.

  (** A panel: the dependence on one dimension with a vertical line, or on two with points and a star. *)
  Inductive panel :=
  | PLine (xi : list val) (yi : list N) (vline : N)
  | PContour (xi yi : list val) (zi : list (list N)) (points : list (N * N)) (star : N * N).
  Definition entry (l : list N) (i : nat) : res N := match nth_error l i with Some v => Ok v | None => Raise IndexError end.
  Definition pair_at (i j : nat) (l : list N) : res (N * N) := a <- entry l i ;; b <- entry l j ;; Ok (a, b).
  Definition unpack (d : option (nat * dim N)) : res (nat * dim N) := match d with Some p => Ok p | None => Raise TypeError end.

  (** Panel (i, j), j <= i, of plot_objective; plots.py 720-749. *)
  Definition objective_panel (dims : list (dim N)) (plot_dims : list (option (nat * dim N))) (samples : list (list val))
             (pts : list (list N)) (minimum : list N) (show_points : bool) (n_points i j : nat) : res panel :=
    match nth_error plot_dims i, nth_error plot_dims j with
    | Some di, Some dj =>
      a <- unpack di ;;
      if Nat.eqb i j then
        r <- partial_dependence_1D O predict dims (fst a) samples n_points ;;
        m <- entry minimum (fst a) ;;
        Ok (PLine (fst r) (snd r) m)
      else
        b <- unpack dj ;;
        r <- partial_dependence_2D O predict dims (fst a) (fst b) samples n_points ;;
        ps <- (if show_points then mapM (pair_at (fst b) (fst a)) pts else Ok []) ;;
        star <- pair_at (fst b) (fst a) minimum ;;
        Ok (PContour (fst (fst r)) (snd (fst r)) (snd r) ps star)
    | _, _ => Raise IndexError
    end.
  (** plots.py 696-704 and 1110-1118: the samples to average over, the evaluated points and the minimum with categories
      replaced by indices. [g1], [g2], [g3]: the generators behind the minimum, the samples and the point of evaluation
      (each call makes its own). *)
  Definition objective_data (dims : list (dim N)) (x : list val) (x_iters : list (list val)) (sample_source minimum : min_params)
             (n_samples : nat) (n_search : option nat) (g1 g2 g3 : RNG) : res (list (list val) * list (list N) * list N) :=
    x_vals <- evaluate_min_params dims x minimum n_search g1 ;;
    samples <- (match sample_source with
                | MName "random" => P <- fst (space_rvs O G dims n_samples g2) ;; space_transform O dims P
                | s => x_eval <- evaluate_min_params dims x s n_search g3 ;; space_transform O dims [x_eval]
                end) ;;
    m <- map_categories O dims x_iters x_vals ;;
    Ok (samples, fst (fst m), snd (fst m)).
  (** plot_objective, plots.py 542-755. matplotlib refuses an empty grid of panels: not modelled. *)
  Definition plot_objective (dims : list (dim N)) (x : list val) (x_iters : list (list val)) (keys : option (list gkey))
             (sample_source minimum : min_params) (n_samples n_points : nat) (n_search : option nat) (zscale : string)
             (show_points : bool) (g1 g2 g3 : RNG) : res (list (list panel)) :=
    let plot_dims := shown O dims keys in
    m <- objective_data dims x x_iters sample_source minimum n_samples n_search g1 g2 g3 ;;
    _ <- (if String.eqb zscale "log" || String.eqb zscale "linear" then Ok tt else Raise ValueError) ;;
    mapM (fun i => mapM (objective_panel dims plot_dims (fst (fst m)) (snd (fst m)) (snd m) show_points n_points i) (seq 0 (S i)))
         (seq 0 (length plot_dims)).
  (** plot_objective_2D, plots.py 1058-1171: dimension 1 runs along the x-axis. *)
  Definition plot_objective_2D (dims : list (dim N)) (x : list val) (x_iters : list (list val)) (k1 k2 : gkey)
             (sample_source minimum : min_params) (n_samples n_points : nat) (n_search : option nat) (g1 g2 g3 : RNG) : res panel :=
    m <- objective_data dims x x_iters sample_source minimum n_samples n_search g1 g2 g3 ;;
    a <- unpack (space_get dims k1) ;;
    b <- unpack (space_get dims k2) ;;
    ps <- mapM (pair_at (fst a) (fst b)) (snd (fst m)) ;;
    star <- pair_at (fst a) (fst b) (snd m) ;;
    r <- partial_dependence_2D O predict dims (fst b) (fst a) (fst (fst m)) n_points ;;
    Ok (PContour (fst (fst r)) (snd (fst r)) (snd r) ps star).

  (** plot_evaluations, plots.py 758-857: a histogram on the diagonal, below it the evaluated points and the best one. *)
  Inductive eval_panel := EHist (column : list N) (b : bins (N:=N)) (range : option (N * N)) | EScatter (points : list (N * N)) (star : N * N).
  Definition evaluations_panel (dims : list (dim N)) (plot_dims : list (option (nat * dim N))) (pts : list (list N)) (minimum : list N)
             (nbins i j : nat) : res eval_panel :=
    if Nat.eqb i j then r <- diagonal O dims plot_dims pts nbins i ;; Ok (EHist (fst (fst r)) (snd (fst r)) (snd r))
    else
      match nth_error plot_dims i, nth_error plot_dims j with
      | Some di, Some dj =>
        a <- unpack di ;; b <- unpack dj ;;
        ps <- mapM (pair_at (fst b) (fst a)) pts ;;
        star <- pair_at (fst b) (fst a) minimum ;;
        Ok (EScatter ps star)
      | _, _ => Raise IndexError
      end.
  Definition plot_evaluations (dims : list (dim N)) (x : list val) (x_iters : list (list val)) (keys : option (list gkey)) (nbins : nat)
    : res (list (list eval_panel)) :=
    m <- map_categories O dims x_iters x ;;
    let plot_dims := shown O dims keys in
    mapM (fun i => mapM (evaluations_panel dims plot_dims (fst (fst m)) (snd (fst m)) nbins i) (seq 0 (S i))) (seq 0 (length plot_dims)).
End Objective.
