(** Vocabulary for plots with several panels (C69-C73). *)
From Coq Require Import String List ZArith Bool Reals.
From Verif Require Import Base Num Values Transformers Dimension Space NumLaws SpaceSpec ForestSpec Optimizer Plots DependSpec Expected Objective.
Import ListNotations.
Open Scope list_scope.
Set Implicit Arguments.

Section Axes.
  Context {N : Type} (O : numops N).
  Notation val := (pyval N).
  (** The coordinate of a value on the axis: the index of the category, the number itself. *)
  Definition axis_value (d : dim N) (v : val) (x : N) : Prop :=
    match d with
    | DCat c => exists k, nth_error (c_cats c) k = Some v /\ x = nofZ O (Z.of_nat k)
    | _ => to_num O v = Some x
    end.
  (** How often [v] occurs; the values that occur, each once, with their numbers. *)
  Definition times (v : val) (l : list val) : nat := length (filter (fun w => py_eqb O w v) l).
  Definition tally (l : list val) (m : list (val * nat)) : Prop :=
    NoDup (map fst m) /\ (forall v n, In (v, n) m -> In v l /\ n = times v l) /\ (forall v, In v l -> In v (map fst m)).
  (** The coordinates [i] and [j] of a point on the axes. *)
  Definition placed (dims : list (dim N)) (i j : nat) (p : list val) (ab : N * N) : Prop :=
    exists di dj vi vj, nth_error dims i = Some di /\ nth_error dims j = Some dj /\ nth_error p i = Some vi /\ nth_error p j = Some vj /\
      axis_value di vi (fst ab) /\ axis_value dj vj (snd ab).
  (** Panel [i] is for dimension [a]: the i-th that is not constant, or the i-th asked for. *)
  Definition asked (dims : list (dim N)) (keys : option (list gkey)) (i a : nat) (d : dim N) : Prop :=
    match keys with
    | None => nth_error dims a = Some d /\ is_constant O d = false /\ length (filter (fun d => negb (is_constant O d)) (firstn a dims)) = i
    | Some ks => exists k, nth_error ks i = Some k /\ space_get dims k = Some (a, d)
    end.
  Definition panels_asked (dims : list (dim N)) (keys : option (list gkey)) : nat :=
    match keys with None => length (filter (fun d => negb (is_constant O d)) dims) | Some ks => length ks end.
End Axes.

Section Panels.
  Notation val := (pyval R).
  Variable predict : list (list val) -> res (list R).
  (** A contour panel: along the x-axis dimension [j], along the y-axis dimension [i]. The heights are mean predictions over
      the points [P] with both coordinates replaced; the evaluated points and [x_vals] are drawn on the same axes. *)
  Definition contour_of (dims : list (dim R)) (i j : nat) (P x_iters : list (list val)) (x_vals : list val) (show : bool) (n : nat) (c : panel (N:=R)) : Prop :=
    exists di dj xi yi zi ps star vx vy, c = PContour xi yi zi ps star /\ nth_error dims i = Some di /\ nth_error dims j = Some dj /\
      plotted dj n xi vx /\ plotted di n yi vy /\
      Forall2 (fun y zs => Forall2 (fun x z => mean_at predict dims (map (fun p => with_part i y (with_part j x p)) P) z) vx zs) vy zi /\
      (if show then Forall2 (placed Rops dims j i) x_iters ps else ps = []) /\ placed Rops dims j i x_vals star.
  (** A panel on the diagonal: the dependence on dimension [i] alone, with a vertical line at [x_vals]. *)
  Definition line_of (dims : list (dim R)) (i : nat) (P : list (list val)) (x_vals : list val) (n : nat) (c : panel (N:=R)) : Prop :=
    exists d xi yi m vals v, c = PLine xi yi m /\ nth_error dims i = Some d /\ plotted d n xi vals /\
      Forall2 (fun v y => mean_at predict dims (map (with_part i v) P) y) vals yi /\
      nth_error x_vals i = Some v /\ axis_value Rops d v m.

  Context {RNG : Type} (G : rng_ops R RNG).
  Variable below_inf : R -> bool.
  Variable sp : (list R -> res R) -> list val -> list (R * R) -> res (list R * R).
  (** Which point the argument [minimum] stands for: the best observed one, a minimum of the surrogate's predictions, or
      the point given, which has to have as many coordinates. *)
  Inductive meant (dims : list (dim R)) (x : list val) (n_search : option nat) (g : RNG) : min_params (N:=R) -> list val -> Prop :=
  | meant_result : meant dims x n_search g (MName "result") x
  | meant_expected n p v : Forall (fun d => is_cat d = false) dims ->
      match n_search with Some (S m) => n = Z.of_nat (S m) | _ => n = 20%Z end ->
      expected_minimum Rops G predict below_inf sp dims x n g = Ok (p, v) -> meant dims x n_search g (MName "expected_minimum") p
  | meant_random n p v : match n_search with Some m => n = m | None => n = Nat.pow 10 (length x) end ->
      expected_minimum_random_sampling Rops G predict dims n g = Ok (p, v) -> meant dims x n_search g (MName "expected_minimum_random") p
  | meant_given l : length l = length x -> meant dims x n_search g (MList l) l.
  (** The points averaged over: random ones, or the one asked for. *)
  Inductive sources (dims : list (dim R)) (x : list val) (n_samples : nat) (n_search : option nat) (g2 g3 : RNG) : min_params (N:=R) -> list (list val) -> Prop :=
  | source_random P : fst (space_rvs Rops G dims n_samples g2) = Ok P -> sources dims x n_samples n_search g2 g3 (MName "random") P
  | source_point s p : meant dims x n_search g3 s p -> sources dims x n_samples n_search g2 g3 s [p].
End Panels.

Section Evaluations.
  Context {N : Type} (O : numops N).
  Notation val := (pyval N).
  (** The histogram of coordinate [a]: one bin for each category, or bins between the bounds of the dimension, evenly
      spaced on a log scale for a log-uniform prior. *)
  Definition bins_of (d : dim N) (nbins : nat) (b : bins (N:=N)) (range : option (N * N)) : Prop :=
    let numeric p lo hi := range = Some (lo, hi) /\ b = match p with PLogUniform => BLog lo hi nbins | PUniform => BNumber nbins end in
    match d with
    | DCat c => b = BNumber (length (c_cats c)) /\ range = None
    | DReal r => numeric (r_prior r) (r_low r) (r_high r)
    | DInt i => numeric (i_prior i) (nofZ O (i_low i)) (nofZ O (i_high i))
    end.
  Definition hist_of (a : nat) (d : dim N) (x_iters : list (list val)) (nbins : nat) (c : eval_panel (N:=N)) : Prop :=
    exists col b range, c = EHist col b range /\ bins_of d nbins b range /\
      Forall2 (fun p x => exists v, nth_error p a = Some v /\ axis_value O d v x) x_iters col.
  (** What plot_histogram shows. *)
  Definition bars_of (d : dim N) (samples : list val) (nbins : nat) (h : hist (N:=N)) : Prop :=
    match h with
    | HBars names counts => is_cat d = true /\ length names = length counts /\ tally O samples (combine names counts) /\
        fold_right Nat.add 0%nat counts = length samples
    | HHist s b range => is_cat d = false /\ s = samples /\ bins_of d nbins b range
    end.
End Evaluations.

(** Read off the axis at [x], the value is the one meant: the label of the tick is the name of the category. *)
Definition labelled (L : libm) (dv : dim float * pyval float) (x : float) : Prop :=
  match fst dv with
  | DCat c => (Z.of_nat (length (c_cats c)) <= 2 ^ 53)%Z -> cat_format (F64 L) c x = Ok (py_str (F64 L) (snd dv))
  | _ => to_num (F64 L) (snd dv) = Some x
  end.
