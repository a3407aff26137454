(** C58, C59: what the plots show. *)
From Coq Require Import String List ZArith Bool Reals.
From Verif Require Import Base Num Values Transformers Dimension Space NumLaws SpaceSpec NormLaws Optimizer OptSpec CbSpec ForestSpec Samples SpaceProps2
  Plots PlotSpec PlotLemmas PlotCases DependSpec DependLemmas DependPoints DependTotal.
Import ListNotations.

(** plot_convergence draws, for every argument, the least of the first i values for every i (and for a list of results the
    mean of those traces). *)
Theorem C58_convergence : forall RNG M (args : list (named R RNG M)) t, args <> [] ->
  Forall (fun a => all_in (complete Rops) (snd a)) args ->
  exists ch lss, plot_convergence Rops args t = Ok ch /\ ch_lines ch = concat lss /\
    Forall2 (fun a ls => drawn (running_least Rops) is_mean (snd a) ls) args lss.
Proof. exact (fun RNG M => @convergence_R RNG M). Qed.
Print Assumptions C58_convergence.

(** For the result of a run, in float64: as many values as evaluations, never increasing, ending at result.fun. *)
Theorem C58_trace : forall L RNG M Xi yi dims (g : RNG) (ms : list M) r name,
  create_result (F64 L) Xi yi dims g ms = Ok r -> length Xi = length yi -> no_nan (F64 L) (map y_obj yi) ->
  exists ch ys, plot_convergence (F64 L) [(name, TOne r)] None = Ok ch /\ ch_lines ch = [mkLine (seq 1 (length yi)) ys] /\
    running_least (F64 L) (length yi) (map y_obj yi) ys /\
    (forall i j v w, (i <= j)%nat -> nth_error ys i = Some v -> nth_error ys j = Some w -> fleb w v = true) /\
    last (map Some ys) None = Some (res_fun r).
Proof. exact (fun L RNG M => @convergence_one float RNG M (F64 L) (F64_order L)). Qed.
Print Assumptions C58_trace.
Example C58_trace_case : (exists r, run1 = Ok r /\ no_nan O0 (map (@y_obj float) (map (fun z => YS (fofZ z)) [5; 2; 7; -1]%Z))) /\
  run1_trace = Ok (map (fun z => view (VFloat (fofZ z))) [5; 2; 2; -1]%Z).
Proof. exact (conj run1_ok run1_trace_ok). Qed.

(** plot_regret draws the sums of the excesses of the first i values over the true minimum, or over the least value seen. *)
Theorem C58_regret : forall RNG M (args : list (named R RNG M)) t, args <> [] ->
  Forall (fun a => all_in (complete Rops) (snd a)) args ->
  exists ch lss m, plot_regret Rops args t = Ok ch /\ ch_lines ch = concat lss /\ ch_hline ch = None /\
    (match t with Some v => m = v | None => least Rops (seen args) m end) /\
    Forall2 (fun a ls => drawn (running_regret m) is_mean (snd a) ls) args lss.
Proof. exact (fun RNG M => @regrets RNG M). Qed.
Print Assumptions C58_regret.

(** The regret is not negative and never falls, when no value is below the given minimum. *)
Theorem C58_regret_grows : forall RNG M (r : result R RNG M) name t, complete Rops r ->
  (forall v, t = Some v -> Forall (fun w => v <= w)%R (res_func_vals r)) ->
  exists ch ys m, plot_regret Rops [(name, TOne r)] t = Ok ch /\ ch_lines ch = [mkLine (seq 1 (length (res_func_vals r))) ys] /\
    (match t with Some v => m = v | None => least Rops (res_func_vals r) m end) /\
    running_regret m (length (res_func_vals r)) (res_func_vals r) ys /\
    (forall i j v w, (i <= j)%nat -> nth_error ys i = Some v -> nth_error ys j = Some w -> (0 <= v <= w)%R).
Proof. exact (fun RNG M => @regret_one RNG M). Qed.
Print Assumptions C58_regret_grows.
Example C58_regret_case : complete Rops run2.
Proof. exact run2_ok. Qed.

(** With a larger true_minimum it falls: values 3, 1, 2 against 2. *)
Theorem C58_regret_refuted : exists ch ys v w, complete Rops run2 /\ plot_regret Rops [(None, TOne run2)] (Some 2%R) = Ok ch /\
  ch_lines ch = [mkLine [1; 2; 3]%nat ys] /\ nth_error ys 0 = Some v /\ nth_error ys 1 = Some w /\ (w < v)%R.
Proof. exact regret_falls. Qed.
Print Assumptions C58_regret_refuted.

(** partial_dependence_1D: at every plotted value, the average of the predictions for the samples with the part of the
    plotted dimension replaced by the warped value and nothing else changed. *)
Theorem C59_1D : forall predict dims i d samples pss n xi ys, nth_error dims i = Some d -> plottable d ->
  Forall2 (split_row dims) samples pss -> partial_dependence_1D Rops predict dims i samples n = Ok (xi, ys) ->
  exists vals, plotted d n xi vals /\
    Forall2 (fun v y => exists part p, warped_by (O:=Rops) d v part /\ length part = tsize d /\
      predict (map (fun parts => concat (with_part i part parts)) pss) = Ok p /\ y = avg p) vals ys.
Proof. exact c59_1D. Qed.
Print Assumptions C59_1D.

(** The same with two dimensions; rows of the result belong to values of dimension [i], columns to values of [j]. *)
Theorem C59_2D : forall predict dims i j di dj samples pss n xi yi zi, nth_error dims i = Some di -> nth_error dims j = Some dj ->
  plottable di -> plottable dj -> Forall2 (split_row dims) samples pss ->
  partial_dependence_2D Rops predict dims i j samples n = Ok (xi, yi, zi) ->
  exists vx vy, plotted dj n xi vx /\ plotted di n yi vy /\
    Forall2 (fun y row => Forall2 (fun x z => exists py px p, warped_by (O:=Rops) di y py /\ warped_by (O:=Rops) dj x px /\
      length py = tsize di /\ length px = tsize dj /\
      predict (map (fun parts => concat (with_part i py (with_part j px parts))) pss) = Ok p /\ z = avg p) vx row) vy zi.
Proof. exact c59_2D. Qed.
Print Assumptions C59_2D.

(** In terms of points: for the samples of points of the space, the average prediction over those points with the
    coordinate replaced by the plotted value. *)
Theorem C59_points : forall predict dims i d P rows n xi ys, dims <> [] -> Forall ideal_dim dims -> nth_error dims i = Some d ->
  P <> [] -> Forall (in_space Rops dims) P -> space_transform Rops dims P = Ok rows ->
  partial_dependence_1D Rops predict dims i rows n = Ok (xi, ys) ->
  exists vals, plotted d n xi vals /\ Forall2 (fun v y => exists Xt p,
    space_transform Rops dims (map (with_part i v) P) = Ok Xt /\ predict Xt = Ok p /\ y = avg p) vals ys.
Proof. exact c59_points. Qed.
Print Assumptions C59_points.

(** The plotted values of Real and Categorical dimensions lie in the dimension. *)
Theorem C59_plotted : forall d n xi vals, ideal_dim d -> (forall i, d <> DInt i) -> plotted d n xi vals ->
  Forall (in_dim Rops d) vals.
Proof. exact plotted_in. Qed.
Print Assumptions C59_plotted.

(** The functions succeed on the samples of any points, for a model that predicts something. *)
Theorem C59_total : forall predict, (forall rows, rows <> [] -> exists p, predict rows = Ok p /\ p <> []) ->
  forall dims i d P n, dims <> [] -> Forall ideal_dim dims -> nth_error dims i = Some d ->
  P <> [] -> Forall (in_space Rops dims) P -> (0 < n)%nat ->
  exists rows r, space_transform Rops dims P = Ok rows /\ partial_dependence_1D Rops predict dims i rows n = Ok r.
Proof. exact depend_total. Qed.
Print Assumptions C59_total.
Example C59_case : Forall ideal_dim rspace /\ Forall (in_space Rops rspace) [rpoint; rpoint] /\
  exists rows xi ys, space_transform Rops rspace [rpoint; rpoint] = Ok rows /\ partial_dependence_1D Rops row_sums rspace 3 rows 5 = Ok (xi, ys) /\
  exists xj yj zs, partial_dependence_2D Rops row_sums rspace 3 1 rows 5 = Ok (xj, yj, zs).
Proof. exact (conj (proj1 C05_real_sample) (conj (proj2 C05_real_sample) depend_case)). Qed.
