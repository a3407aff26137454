(** C74 and C75: what the models of a run were fitted to, and the plot of a model. *)
From Coq Require Import String List ZArith Bool Reals Sorted.
From Verif Require Import Base Num Values Transformers Dimension Space SpaceSpec RealLemmas MetricLemmas Samples SpaceProps SpaceProps2 Optimizer OptSpec OptLemmas2 OptSamples Minimize MinSpec MinSamples
  Plots DependSpec FitSpec FitLemmas GpPlot GpPlotSpec GpPlotLemmas GpCases.
Import ListNotations.
Open Scope list_scope.
Open Scope nat_scope.

(** Every model an optimizer keeps was fitted to the first n of its points and observations, for some n, and later models to at least
    as many; at most model_queue_size of them are kept. *)
Theorem C74_optimizer : forall N RNG M (O : numops N) (G : rng_ops N RNG) (W : world N M) a g g' o cs o' outs,
  make_optimizer O G W a g = (g', Ok o) -> Forall matched cs -> exec O G W cs o = (o', outs) ->
  exists ms ns, o_models o' = keep (a_queue a) ms /\ StronglySorted le ns /\
    Forall2 (fun m n => n <= length (o_yi o') /\ fitted_to O W (c_dims (o_cfg o')) (firstn n (o_Xi o')) (firstn n (o_yi o')) m) ms ns.
Proof. exact (@c74_optimizer). Qed.
Print Assumptions C74_optimizer.
Example C74_case : is_ok (snd (make_optimizer O0 G0 W0 (args0 "gp_hedge" "auto" (Some 2%Z) true 2) 7)) = true /\ Forall matched calls0 /\
  o_models (fst (exec O0 G0 W0 calls0 opt0)) = [4; 5].
Proof. exact fit_case. Qed.

(** In the result of a minimisation there is a model for every observation from the last initial one on, fitted to the observations
    up to that one. *)
Theorem C74_minimizer : forall N RNG M (O : numops N) (G : rng_ops N RNG) (W : world N M) m f a g t o' r,
  minimize O G W m f a g = (t, o', Ok (Some r)) -> m <> MDummy ->
  a_est (m_opt a) <> None -> a_queue (m_opt a) = None -> (0 <= n_initial a)%Z ->
  exists x0, given (m_x0 a) x0 /\ let n := Z.to_nat (n_initial a) + length x0 in
    length (res_models r) = length (res_func_vals r) + 1 - n /\
    forall i md, nth_error (res_models r) i = Some md ->
      fitted_on O W (res_space r) (firstn (n + i) (res_x_iters r)) (firstn (n + i) (res_func_vals r)) md.
Proof. exact (@c74_minimizer). Qed.
Print Assumptions C74_minimizer.
Example C74_run_case : succeeds (run_min MBase 6 2 pts0 Y0None CBNone) = true /\ (0 <= n_initial (margs0 6 2 pts0 Y0None CBNone))%Z /\
  rmap (option_map (@res_models _ _ _)) (snd (run_min MBase 6 2 pts0 Y0None CBNone)) = Ok (Some [4; 5; 6]).
Proof. exact fit_run_case. Qed.

(** plot_gaussian_process, over the reals and for a dimension whose values are warped to one number: everything is drawn over the
    evenly spread values of the dimension and computed from one model at these values, warped. The bands reach 1.96 deviations to
    both sides. The acquisition function is drawn upside down and its best value is marked; the best observed value it is given is
    the least of the observations shown. *)
Theorem C75_picture : forall RNG M KW v_predict v_acq (r : result R RNG M) d (sp : option (specs KW)) a pic,
  res_space r = [d] -> ideal_dim d -> tsize d = 1 -> 0 < gp_points a ->
  (forall m rows p, v_predict m rows = Ok p -> length (fst p) = length (snd p)) ->
  plot_gaussian_process Rops v_predict v_acq r sp a = Ok pic ->
  exists s xs vals rows m cx cy, sp = Some s /\ plotted d (gp_points a) xs vals /\ space_transform Rops [d] (map (fun v => [v]) vals) = Ok rows /\
    ((0 <= before r s)%Z -> subject r s (gp_calls a) m cx cy) /\
    (match gp_objective a with
     | None => pic_true pic = None
     | Some f => exists b ys, pic_true pic = Some b /\ Forall2 (fun x y => f x = Ok y) xs ys /\ around b xs ys (repeat (gp_noise a) (length ys))
     end) /\
    (if gp_mu a then exists b mean std, pic_mu pic = Some b /\ v_predict m rows = Ok (mean, std) /\ around b xs mean std else pic_mu pic = None) /\
    (pic_obs pic = if gp_obs a then Some (cx, cy) else None) /\
    (if gp_acq a then
       exists k y_opt values, acq_of (sp_acq s) = Some k /\ In y_opt cy /\ (forall y, In y cy -> y_opt <= y)%R /\
         v_acq (match k with AHedge => EI | AOne k1 => k1 end) (sp_kwargs s) m y_opt rows = Ok values /\
         pic_acq pic = Some (mkPath xs (map Ropp values)) /\ length xs = length values /\
         (if gp_next a then exists i x v, pic_next pic = Some (x, - v)%R /\ nth_error xs i = Some x /\ nth_error values i = Some v /\ forall u, In u values -> (v <= u)%R
          else pic_next pic = None)
     else pic_acq pic = None /\ pic_next pic = None).
Proof. exact (@c75_picture). Qed.
Print Assumptions C75_picture.
Example C75_case : ideal_dim rdim1 /\ tsize rdim1 = 1 /\ (0 <= before r_result r_specs)%Z /\
  subject r_result r_specs (gp_calls r_show) 2 [X1 [VFloat 2%R]; X1 [VFloat 4%R]] [3; 1]%R /\
  exists pic, plot_gaussian_process Rops r_predict r_acq r_result (Some r_specs) r_show = Ok pic.
Proof. exact picture_case. Qed.

(** It can be drawn whenever the model and some observation exist. *)
Theorem C75_total : forall RNG M KW v_predict v_acq (r : result R RNG M) d (s : specs KW) a m cx cy,
  res_space r = [d] -> ideal_dim d -> tsize d = 1 -> 0 < gp_points a ->
  (forall m rows, exists mean std, v_predict m rows = Ok (mean, std) /\ length mean = length rows /\ length std = length rows) ->
  (forall k kw m y rows, exists values, v_acq k kw m y rows = Ok values /\ length values = length rows) ->
  (forall f, gp_objective a = Some f -> forall x, exists y, f x = Ok y) ->
  (0 <= before r s)%Z -> subject r s (gp_calls a) m cx cy -> (gp_acq a = true -> cy <> [] /\ acq_of (sp_acq s) <> None) ->
  (gp_title a = true -> exists v p x, res_x r = X1 (v :: p) /\ to_num Rops v = Some x) ->
  exists pic, plot_gaussian_process Rops v_predict v_acq r (Some s) a = Ok pic.
Proof. exact (@c75_total). Qed.
Print Assumptions C75_total.

(** The observations shown are those the model shown was fitted to if it is the last one, or if n_random_starts and no x0 was given
    (full claim: always). *)
Theorem C75_observations_partial : forall N RNG M KW (O : numops N) (G : rng_ops N RNG) (W : world N M) m f a g t o' r c cx cy md,
  minimize O G W m f a g = (t, o', Ok (Some r)) -> m <> MDummy ->
  a_est (m_opt a) <> None -> a_queue (m_opt a) = None -> (0 <= n_initial a)%Z ->
  (c < 0)%Z \/ (m_random_starts a <> None /\ m_x0 a = X0None) ->
  subject r (specs_of (KW:=KW) a) c md cx cy -> fitted_on O W (res_space r) cx cy md.
Proof. exact (@c75_observations). Qed.
Print Assumptions C75_observations_partial.
Example C75_observations_case : succeeds (run1 0 (Some 3%Z) X0None) = true /\ (0 <= n_initial (margs1 0 (Some 3%Z) X0None))%Z /\
  shown_count (plot1 0 (Some 3%Z) X0None 1) = Ok (Some (4, 4)) /\ res_models (result_of res0 (run1 0 (Some 3%Z) X0None)) = [3; 4; 5].
Proof. exact right_case. Qed.

(** In general: a model fitted to n observations is shown with n - 1 of them if n_random_starts was not given, and without as many of
    them as there were points in x0 if it was. *)
Theorem C75_counts : forall N RNG M KW (O : numops N) (G : rng_ops N RNG) (W : world N M) m f a g t o' r c cx cy md,
  minimize O G W m f a g = (t, o', Ok (Some r)) -> m <> MDummy ->
  a_est (m_opt a) <> None -> a_queue (m_opt a) = None -> (0 <= n_initial a)%Z ->
  subject r (specs_of (KW:=KW) a) c md cx cy ->
  exists x0 n k, given (m_x0 a) x0 /\ fitted_on O W (res_space r) (firstn n (res_x_iters r)) (firstn n (res_func_vals r)) md /\
    cx = firstn k (res_x_iters r) /\ cy = firstn k (res_func_vals r) /\
    if (c <? 0)%Z then n = k /\ k = length (res_func_vals r)
    else Z.of_nat n = (n_initial a + Z.of_nat (length x0) + c)%Z /\
         Z.of_nat k = match m_random_starts a with Some s => (s + c)%Z | None => (Z.of_nat n - 1)%Z end.
Proof. exact (@c75_counts). Qed.
Print Assumptions C75_counts.

(** With three initial points the first model, fitted to three observations, is shown with two. *)
Theorem C75_observations_refuted : exists t o r pic cx cy, run1 3 None X0None = (t, Some o, Ok (Some r)) /\
  plot_gaussian_process O0 flat_predict flat_acq r (Some (specs_of (margs1 3 None X0None))) (show1 0) = Ok pic /\
  pic_obs pic = Some (cx, cy) /\ model_of r 0 3 /\ ~ fitted_on O0 W1 (res_space r) cx cy 3.
Proof. exact short_default. Qed.
Print Assumptions C75_observations_refuted.
(** With two given points and n_random_starts = 1 it is shown with one. *)
Theorem C75_given_refuted : exists t o r pic cx cy, run1 0 (Some 1%Z) given1 = (t, Some o, Ok (Some r)) /\
  plot_gaussian_process O0 flat_predict flat_acq r (Some (specs_of (margs1 0 (Some 1%Z) given1))) (show1 0) = Ok pic /\
  pic_obs pic = Some (cx, cy) /\ model_of r 0 3 /\ ~ fitted_on O0 W1 (res_space r) cx cy 3.
Proof. exact short_given. Qed.
Print Assumptions C75_given_refuted.
(** With one initial point the acquisition function cannot be drawn for the first model. *)
Theorem C75_first_refuted : succeeds (run1 1 None X0None) = true /\ plot1 1 None X0None 0 = Raise ValueError.
Proof. exact first_fails. Qed.
Print Assumptions C75_first_refuted.
(** A Categorical dimension fails if it is one-hot encoded, and otherwise with a title if the categories are strings. *)
Theorem C75_categories_refuted : Forall (wf_dim O0) [cat3 KOnehot; cat3 KNormalize] /\
  Forall (fun x => exists p, x = X1 p /\ in_space O0 [cat3 KOnehot] p /\ in_space O0 [cat3 KNormalize] p) (res_x_iters (cat_result KOnehot)) /\
  plot_gaussian_process O0 flat_predict flat_acq (cat_result KOnehot) (Some cat_specs) (mkGpArgs 0 None (fofZ 0) 4 false false true true false) = Raise ValueError /\
  plot_gaussian_process O0 flat_predict flat_acq (cat_result KNormalize) (Some cat_specs) (mkGpArgs 0 None (fofZ 0) 4 false false true true true) = Raise TypeError.
Proof. exact cat_fails. Qed.
Print Assumptions C75_categories_refuted.
