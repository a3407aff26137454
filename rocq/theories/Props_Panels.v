(** C69-C73: known minimum, categories on axes, histograms, grids of panels. *)
From Coq Require Import String List ZArith Bool Reals.
From Verif Require Import Base Num Values Transformers Dimension Space NumLaws SpaceSpec NormLaws Optimizer OptSpec CbSpec ForestSpec Samples SpaceProps2 SamplerSamples
  Plots PlotSpec PlotCases DependSpec DependTotal Expected Objective PanelSpec ObjectiveLemmas EvalLemmas ObjectiveTotal ObjectiveMin PanelCases ConstantDim.
Import ListNotations.

(** plot_convergence draws a horizontal line at the known minimum, unless that is 0 (full claim: whenever it is given). *)
Theorem C69_partial : forall L RNG M (args : list (named float RNG M)) t, args <> [] ->
  Forall (fun a => all_in (complete (F64 L)) (snd a)) args -> (forall v, t = Some v -> neqb (F64 L) v (fofZ 0) = false) ->
  exists ch, plot_convergence (F64 L) args t = Ok ch /\ ch_hline ch = t.
Proof. exact (fun L RNG M => @known_line L RNG M). Qed.
Print Assumptions C69_partial.
Example C69_case : (exists r, run1 = Ok r /\ no_nan O0 (map (@y_obj float) (map (fun z => YS (fofZ z)) [5; 2; 7; -1]%Z))) /\ neqb O0 (fofZ (-1)) (fofZ 0) = false.
Proof. exact (conj run1_ok eq_refl). Qed.

(** A known minimum of 0 is not drawn. *)
Theorem C69_refuted : exists ch, plot_convergence Rops [(None, TOne run2)] (Some 0%R) = Ok ch /\ ch_hline ch = None.
Proof. exact zero_minimum. Qed.
Print Assumptions C69_refuted.

(** For points of the space: the evaluated points and the minimum are placed where the axis shows their values, a category
    at the tick that carries its name. *)
Theorem C70_labels : forall L dims P m, Forall (wf_dim (F64 L)) dims -> Forall (in_space (F64 L) dims) P -> in_space (F64 L) dims m ->
  exists xss ms, map_categories (F64 L) dims P m = Ok (xss, ms, map (@is_cat float) dims) /\
    Forall2 (fun p xs => Forall2 (labelled L) (combine dims p) xs) P xss /\ Forall2 (labelled L) (combine dims m) ms.
Proof. exact labels. Qed.
Print Assumptions C70_labels.
Example C70_case : (Forall (wf_dim O0) space4 /\ Forall (in_space O0 space4) points4 /\ Forall (fun d => is_constant O0 d = false) space4) /\
  rmap (fun r => map (map (fun x => view (VFloat x))) (fst (fst r))) (map_categories O0 space4 points4 [VFloat (fofZ 3); VInt 5; VStr "c"; VInt 3]%string) =
  Ok (map (map (fun z => view (VFloat z))) [[fofZ 3; fofZ 5; fofZ 2; fofZ 1]; [fhalf; fofZ (-3); fofZ 0; fofZ 0]]).
Proof. exact (conj space4_ok labels_case). Qed.

(** plot_histogram: for a Categorical dimension one bar for each category that occurs, as high as it occurs often; for a
    number the evaluated values, with bins between the bounds of the dimension. *)
Theorem C71_histogram : forall L dims x_iters k i d nbins, Forall (wf_dim (F64 L)) dims -> Forall (in_space (F64 L) dims) x_iters ->
  space_get dims k = Some (i, d) ->
  exists h samples, plot_histogram (F64 L) dims x_iters k nbins = Ok h /\
    Forall2 (fun p v => nth_error p i = Some v) x_iters samples /\ bars_of (F64 L) d samples nbins h.
Proof. exact (fun L => @histogram float (F64 L)). Qed.
Print Assumptions C71_histogram.
Example C71_case : space_get space4 (GName "c") = Some (2%nat, cat3 KOnehot) /\ space_get space4 (GIndex 1) = Some (1%nat, int1 KNormalize) /\
  plot_histogram O0 space4 points4 (GName "c") 10 = Ok (HBars [VStr "c"; VStr "b"]%string [1; 1]%nat).
Proof. exact histogram_case. Qed.

(** plot_evaluations, when no dimension is constant and all are shown: histograms on the diagonal, the evaluated points and
    the best one below it (full claim: for every choice of dimensions). *)
Theorem C72_partial : forall L dims x x_iters nbins, Forall (wf_dim (F64 L)) dims -> Forall (fun d => is_constant (F64 L) d = false) dims ->
  in_space (F64 L) dims x -> Forall (in_space (F64 L) dims) x_iters ->
  exists grid, plot_evaluations (F64 L) dims x x_iters None nbins = Ok grid /\ length grid = length dims /\
    forall i d, nth_error dims i = Some d -> exists row c, nth_error grid i = Some row /\ length row = S i /\
      nth_error row i = Some c /\ hist_of (F64 L) i d x_iters nbins c /\
      forall j, (j < i)%nat -> exists ps star, nth_error row j = Some (EScatter ps star) /\
        Forall2 (placed (F64 L) dims j i) x_iters ps /\ placed (F64 L) dims j i x star.
Proof. exact (fun L => @evaluations_all float (F64 L)). Qed.
Print Assumptions C72_partial.
Example C72_case : Forall (wf_dim O0) space4 /\ Forall (in_space O0 space4) points4 /\ Forall (fun d => is_constant O0 d = false) space4.
Proof. exact space4_ok. Qed.

(** With a constant Categorical dimension before a Real one it raises AttributeError. *)
Theorem C72_refuted : Forall (wf_dim O0) odd_space /\ in_space O0 odd_space odd_point /\
  plot_evaluations O0 odd_space odd_point [odd_point] None 10 = Raise AttributeError.
Proof. exact odd_case. Qed.
Print Assumptions C72_refuted.

(** plot_objective: on the diagonal the dependence on one dimension, below it on two, over the points asked for, with the
    evaluated points and the minimum on the same axes. *)
Theorem C73_objective : forall predict, (forall rows, rows <> [] -> exists p, predict rows = Ok p /\ p <> []) ->
  forall RNG (G : rng_ops R RNG) below_inf sp dims x x_iters keys src mn n_samples n n_search zscale show g1 g2 g3 P x_vals,
  dims <> [] -> Forall ideal_dim dims -> Forall (in_space Rops dims) x_iters ->
  sources predict G below_inf sp dims x n_samples n_search g2 g3 src P -> P <> [] -> Forall (in_space Rops dims) P ->
  meant predict G below_inf sp dims x n_search g1 mn x_vals -> in_space Rops dims x_vals ->
  (forall i, (i < panels_asked Rops dims keys)%nat -> exists a d, asked Rops dims keys i a d) -> (0 < n)%nat ->
  zscale = "linear"%string \/ zscale = "log"%string ->
  exists grid, plot_objective Rops G predict below_inf sp dims x x_iters keys src mn n_samples n n_search zscale show g1 g2 g3 = Ok grid /\
    length grid = panels_asked Rops dims keys /\
    forall i a d, asked Rops dims keys i a d -> exists row c, nth_error grid i = Some row /\ length row = S i /\
      nth_error row i = Some c /\ line_of predict dims a P x_vals n c /\
      forall j b d', (j < i)%nat -> asked Rops dims keys j b d' ->
        exists c, nth_error row j = Some c /\ contour_of predict dims a b P x_iters x_vals show n c.
Proof. exact (fun predict H RNG G below_inf sp => @objective_meant predict RNG G below_inf sp H). Qed.
Print Assumptions C73_objective.
Example C73_case : rspace <> [] /\ Forall ideal_dim rspace /\ Forall (in_space Rops rspace) [rpoint; rpoint] /\
  sources row_sums GR (fun _ => true) no_sp rspace rpoint 5 None 0%nat 0%nat (MName "result") [rpoint] /\
  meant row_sums GR (fun _ => true) no_sp rspace rpoint None 0%nat (MName "result") rpoint /\
  asked Rops rspace (Some [GIndex 0; GIndex 3; GIndex 1]) 2 1 (DInt rint) /\
  forall i, (i < panels_asked Rops rspace (Some [GIndex 0; GIndex 3; GIndex 1]))%nat -> exists a d, asked Rops rspace (Some [GIndex 0; GIndex 3; GIndex 1]) i a d.
Proof. exact objective_case. Qed.

(** Without a choice every dimension that is not constant is shown. *)
Theorem C73_asked : forall N (O : numops N) dims i, (i < panels_asked O dims None)%nat -> exists a d, asked O dims None i a d.
Proof. exact (fun N O => @asked_every N O). Qed.
Print Assumptions C73_asked.

(** A dimension counts as constant when all its values are equal. *)
Theorem C73_constant : forall L,
  (forall d, wf_dim (F64 L) d -> (is_constant (F64 L) d = true <-> forall u v, in_dim (F64 L) d u -> in_dim (F64 L) d v -> py_eqb (F64 L) u v = true)) /\
  (forall d, wf_dim Rops d -> (is_constant Rops d = true <-> forall u v, in_dim Rops d u -> in_dim Rops d v -> py_eqb Rops u v = true)).
Proof. exact constant_dims. Qed.
Print Assumptions C73_constant.
Example C73_constant_case : Forall (wf_dim O0) odd_space /\ map (is_constant O0) odd_space = [true; false].
Proof. exact (conj (proj1 odd_case) eq_refl). Qed.

(** plot_objective_2D: the first dimension runs along the x-axis, the second along the y-axis. *)
Theorem C73_2D : forall predict RNG (G : rng_ops R RNG) below_inf sp dims x x_iters k1 k2 src mn n_samples n n_search g1 g2 g3 c,
  dims <> [] -> Forall ideal_dim dims -> Forall (in_space Rops dims) x_iters ->
  plot_objective_2D Rops G predict below_inf sp dims x x_iters k1 k2 src mn n_samples n n_search g1 g2 g3 = Ok c ->
  exists P x_vals a d1 b d2, sources predict G below_inf sp dims x n_samples n_search g2 g3 src P /\
    meant predict G below_inf sp dims x n_search g1 mn x_vals /\
    space_get dims k1 = Some (a, d1) /\ space_get dims k2 = Some (b, d2) /\
    (P <> [] -> Forall (in_space Rops dims) P -> in_space Rops dims x_vals -> contour_of predict dims b a P x_iters x_vals true n c).
Proof. exact (fun predict RNG => @panel_2D_meant predict RNG). Qed.
Print Assumptions C73_2D.

(** A minimum given as a list of another length, one searched for among categories, or one of another name is refused. *)
Theorem C73_refused : forall predict RNG (G : rng_ops R RNG) below_inf sp dims x x_iters keys src mn n_samples n n_search zscale show g1 g2 g3,
  let outcome := plot_objective Rops G predict below_inf sp dims x x_iters keys src mn n_samples n n_search zscale show g1 g2 g3 in
  (forall l, mn = MList l -> length l <> length x -> outcome = Raise AssertionError) /\
  (mn = MName "expected_minimum" -> Exists (fun d => is_cat d = true) dims -> outcome = Raise ValueError) /\
  (forall s, mn = MName s -> ~ In s ["result"; "expected_minimum"; "expected_minimum_random"]%string -> outcome = Raise ValueError).
Proof. exact (fun predict RNG => @objective_refused predict RNG). Qed.
Print Assumptions C73_refused.
