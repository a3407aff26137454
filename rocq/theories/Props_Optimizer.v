(** Properties of the optimizer (C13-C26, C61, C62, C76). [O0], [O1] are float64 with sample libraries, [W0]
    a sample surrogate, [opt0], [after0], ... sample optimizers (OptSamples.v). *)
From Coq Require Import String List ZArith Bool Reals.
From Flocq Require Import IEEE754.BinarySingleNaN.
From Verif Require Import Base Num Values Transformers Dimension Space Optimizer NumLaws SpaceSpec
  Samples SpaceProps2 OptSpec OptLemmas2 OptLemmas5 OptLemmas6 OptProps OptBatch OptSamples PickCases.
Import ListNotations.
Open Scope list_scope.

(** ** C13 *)
(** If every call of a sequence succeeds and batches come with one value per point, the stored points
    and values are the told ones, in order ([logs], [told], [evaluated] in OptSpec.v). *)
Theorem C13_history : forall N RNG M (O : numops N) (G : rng_ops N RNG) (W : world N M) a g g' o cs o' outs,
  make_optimizer O G W a g = (g', Ok o) -> exec O G W cs o = (o', outs) ->
  Forall (fun r => is_ok r = true) outs -> Forall (@matched N) cs ->
  exists Ls, Forall2 (logs O (ps_of o)) cs Ls /\
    o_Xi o' = map (fun a => X1 (fst a)) (concat Ls) /\ o_yi o' = map snd (concat Ls).
Proof. exact (@history_fresh). Qed.
Print Assumptions C13_history.
(** Points and values stay aligned even when calls fail. *)
Theorem C13_aligned : forall N RNG M (O : numops N) (G : rng_ops N RNG) (W : world N M) a g g' o cs,
  make_optimizer O G W a g = (g', Ok o) -> Forall (@matched N) cs ->
  length (o_Xi (fst (exec O G W cs o))) = length (o_yi (fst (exec O G W cs o))).
Proof. exact (@aligned_fresh). Qed.
Print Assumptions C13_aligned.
(** Every result lists exactly the stored history. *)
Theorem C13_result : forall N RNG M (O : numops N) (G : rng_ops N RNG) (W : world N M) c o o' r,
  do_call O G W c o = (o', Ok (RResult r)) ->
  res_x_iters r = o_Xi o' /\ res_func_vals r = map y_obj (o_yi o').
Proof. exact (@result_history). Qed.
Print Assumptions C13_result.
Example C13_example : Forall (fun r => is_ok r = true) (snd (exec O0 G0 W0 calls0 opt0)) /\
  Forall (@matched float) calls0 /\ length (o_Xi after0) = 5.
Proof.
  split; [exact calls0_ok|]. split; [|exact (proj1 (proj2 (proj2 after0_facts)))].
  repeat (constructor; try exact I). exists [num 1; num 2]. split; reflexivity.
Qed.
(** A batch with fewer values than points is accepted and misaligns the history. *)
Theorem C13_mismatched_refuted : exists o pts ys o' r, reachable O0 G0 W0 o /\ aligned o /\
  tell O0 G0 W0 (X2 pts) (YLst ys) true o = (o', Ok r) /\ ~ aligned o'.
Proof. exact mismatched_batch. Qed.
Print Assumptions C13_mismatched_refuted.
(** A batch told with one number is stored as if it were one point. *)
Theorem C13_batch_scalar_refuted : exists o pts y o' r pts', reachable O0 G0 W0 o /\
  tell O0 G0 W0 (X2 pts) (YNum y) true o = (o', Ok r) /\
  o_Xi o = [] /\ o_Xi o' = [X2 pts'] /\ length pts' = 2 /\ length (o_yi o') = 1.
Proof. exact batch_with_scalar. Qed.
Print Assumptions C13_batch_scalar_refuted.

(** ** C14, C15 *)
Theorem C14_best_observation : forall N RNG M (O : numops N) (G : rng_ops N RNG) (W : world N M),
  order_laws O -> forall c o o' r,
  do_call O G W c o = (o', Ok (RResult r)) -> no_nan O (res_func_vals r) -> best_first O r.
Proof. exact (@c14). Qed.
Print Assumptions C14_best_observation.
Theorem C15_never_worse : forall N RNG M (O : numops N) (G : rng_ops N RNG) (W : world N M),
  order_laws O -> forall c1 c2 cs o o1 o2 o3 outs r1 r2,
  do_call O G W c1 o = (o1, Ok (RResult r1)) -> exec O G W cs o1 = (o2, outs) ->
  do_call O G W c2 o2 = (o3, Ok (RResult r2)) -> no_nan O (res_func_vals r2) ->
  nleb O (res_fun r2) (res_fun r1) = true.
Proof. exact (@c15). Qed.
Print Assumptions C15_never_worse.
Example C14_C15_example : exists o1 o2 o3 outs r1 r2,
  do_call O0 G0 W0 (CTell (X1 pa) (num 3) true) opt0 = (o1, Ok (RResult r1)) /\
  exec O0 G0 W0 [CTell (X2 [pb; pc]) (YLst [num 1; num 2]) true] o1 = (o2, outs) /\
  do_call O0 G0 W0 CResult o2 = (o3, Ok (RResult r2)) /\
  no_nan O0 (res_func_vals r2) /\ length (res_func_vals r2) = 3 /\
  nltb O0 (res_fun r2) (res_fun r1) = true.
Proof. exact two_results. Qed.

(** ** C16, C61 *)
Theorem C16_suggestions_in_space : forall L RNG (G : rng_ops float RNG) M (W : world float M) o n s o' a,
  rng_ok (F64 L) G -> pow_ok L -> reachable (F64 L) G W o -> gen_ok (F64 L) W (c_dims (o_cfg o)) (c_n0 (o_cfg o)) ->
  c_dims (o_cfg o) <> [] -> Forall (samplable L) (c_dims (o_cfg o)) ->
  ask (F64 L) G W n s o = (o', Ok a) ->
  match a with
  | A1pt p => member (F64 L) (c_dims (o_cfg o)) p
  | Apts l => Forall (member (F64 L) (c_dims (o_cfg o))) l
  end.
Proof. exact (@c16_F64). Qed.
Print Assumptions C16_suggestions_in_space.
Theorem C61_suggestion_can_be_told : forall L RNG (G : rng_ops float RNG) M (W : world float M) o n s o' a p y fit,
  rng_ok (F64 L) G -> pow_ok L -> reachable (F64 L) G W o -> gen_ok (F64 L) W (c_dims (o_cfg o)) (c_n0 (o_cfg o)) ->
  c_dims (o_cfg o) <> [] -> Forall (samplable L) (c_dims (o_cfg o)) ->
  ask (F64 L) G W n s o = (o', Ok a) -> (a = A1pt p \/ exists l, a = Apts l /\ In p l) ->
  valid_y1 (F64 L) (ps_of o) y ->
  exists v, observation (F64 L) (ps_of o) y v /\
    o_Xi (fst (tell (F64 L) G W (X1 p) y fit o')) = o_Xi o' ++ [X1 p] /\
    o_yi (fst (tell (F64 L) G W (X1 p) y fit o')) = o_yi o' ++ [v].
Proof. exact (@c61_F64). Qed.
Print Assumptions C61_suggestion_can_be_told.
Example C16_example : rng_ok O0 G0 /\ pow_ok L0 /\ gen_ok O0 W0 (c_dims (o_cfg after0)) (c_n0 (o_cfg after0)) /\ reachable O0 G0 W0 after0 /\
  Forall (samplable L0) (c_dims (o_cfg after0)) /\ c_dims (o_cfg after0) <> [] /\
  (exists p, ask O0 G0 W0 NPNone "cl_min" after0 = (after0, Ok (A1pt p))) /\
  (exists o' X, ask O0 G0 W0 (NPInt 2) "cl_min" after0 = (o', Ok (Apts X))) /\
  valid_y1 O0 (ps_of after0) (num 4).
Proof.
  split; [apply G0_ok|]. split; [apply L0_pow|]. split; [apply W0_gen|]. split; [apply after0_reachable|].
  split; [apply after0_samplable|]. split; [apply after0_samplable|]. split; [apply after0_asks|].
  split; [apply (after0_asks "cl_min")|]. unfold valid_y1.
  replace (ps_of after0) with false by (vm_compute; reflexivity). now exists (fofZ 4).
Qed.

(** ** C17 *)
(** The initial design has the requested size and lies in the space. *)
Theorem C17_design : forall N RNG M (O : numops N) (G : rng_ops N RNG) (W : world N M) a g g' o,
  make_optimizer O G W a g = (g', Ok o) -> gen_ok O W (c_dims (o_cfg o)) (c_n0 (o_cfg o)) ->
  match o_init o with
  | Some l => a_gen a = true /\ length l = Z.to_nat (a_n0 a) /\ Forall (member O (c_dims (o_cfg o))) l
  | None => a_gen a = false
  end /\ o_yi o = [] /\ c_n0 (o_cfg o) = a_n0 a.
Proof. exact (@c17_design). Qed.
Print Assumptions C17_design.
(** Before n_initial_points observations (or without a surrogate) nothing is fitted, and ask returns the
    next point of the design or a random point. *)
Theorem C17_initial_phase : forall N RNG M (O : numops N) (G : rng_ops N RNG) (W : world N M) s o,
  reachable O G W o ->
  (Z.of_nat (length (o_yi o)) < c_n0 (o_cfg o))%Z \/ c_est (o_cfg o) = None ->
  o_models o = [] /\
  match o_init o with
  | Some l => gen_ok O W (c_dims (o_cfg o)) (c_n0 (o_cfg o)) -> (Z.of_nat (length (o_yi o)) < c_n0 (o_cfg o))%Z ->
      exists p, nth_error l (length (o_yi o)) = Some p /\ ask O G W NPNone s o = (o, Ok (A1pt p))
  | None => forall o' p, ask O G W NPNone s o = (o', Ok (A1pt p)) ->
      exists P g, space_rvs O G (c_dims (o_cfg o)) 1 (o_rng o) = (Ok (p :: P), g)
  end.
Proof. exact (@c17_initial). Qed.
Print Assumptions C17_initial_phase.
(** A tell that is not allowed to fit, comes too early, or has no surrogate to fit, fits nothing. *)
Theorem C17_no_fit : forall N RNG M (O : numops N) (G : rng_ops N RNG) (W : world N M) x y fit o o' r,
  reachable O G W o -> tell O G W x y fit o = (o', Ok r) ->
  fit = false \/ (Z.of_nat (length (o_yi o')) < c_n0 (o_cfg o'))%Z \/ c_est (o_cfg o') = None ->
  o_models o' = o_models o /\ o_next o' = o_next o.
Proof. exact (@c17_unfitted). Qed.
Print Assumptions C17_no_fit.
(** Every other tell fits a surrogate to the whole (transformed) history, and ask returns the suggestion
    derived from it. *)
Theorem C17_surrogate_phase : forall N RNG M (O : numops N) (G : rng_ops N RNG) (W : world N M) x y o o' r,
  reachable O G W o -> tell O G W x y true o = (o', Ok r) ->
  (c_n0 (o_cfg o') <= Z.of_nat (length (o_yi o')))%Z -> c_est (o_cfg o') <> None ->
  exists P Xt m ms nx p rest,
    o_Xi o' = map (@X1 N) P /\ space_transform O (c_dims (o_cfg o')) P = Ok Xt /\ w_fit W Xt (o_yi o') = Ok m /\
    o_models o' = ms ++ [m] /\
    space_inverse O (c_dims (o_cfg o')) [nx] = Ok (p :: rest) /\ o_next o' = Some p /\
    forall s o2 q, ask O G W NPNone s o' = (o2, Ok (A1pt q)) -> o2 = o' /\ q = p.
Proof. exact (@c17_surrogate). Qed.
Print Assumptions C17_surrogate_phase.
Example C17_example : gen_ok O0 W0 (c_dims (o_cfg mid0)) (c_n0 (o_cfg mid0)) /\ reachable O0 G0 W0 mid0 /\ o_init mid0 <> None /\
  (Z.of_nat (length (o_yi mid0)) < c_n0 (o_cfg mid0))%Z /\ length (o_yi mid0) = 1 /\
  reachable O0 G0 W0 after0 /\
  exists o' r, tell O0 G0 W0 (X1 pc) (num 8) true after0 = (o', Ok r) /\
    (c_n0 (o_cfg o') <= Z.of_nat (length (o_yi o')))%Z /\ c_est (o_cfg o') <> None.
Proof.
  destruct mid0_copies as (H1 & _ & H2 & H3 & H4 & _). destruct after0_tells as (o' & r & H5 & H6 & H7 & _).
  exact (conj (W0_gen _ _) (conj H1 (conj H2 (conj H3 (conj H4 (conj after0_reachable (ex_intro _ o' (ex_intro _ r (conj H5 (conj H6 H7)))))))))).
Qed.
(** Told n_initial_points observations with fit=False, the optimizer has no suggestion. *)
Theorem C17_unfitted_ask_refuted : exists o, reachable O0 G0 W0 o /\
  (c_n0 (o_cfg o) <= Z.of_nat (length (o_yi o)))%Z /\
  c_est (o_cfg o) <> None /\ exists o', ask O0 G0 W0 NPNone "cl_min" o = (o', Raise RuntimeError).
Proof. exact unfitted_ask. Qed.
Print Assumptions C17_unfitted_ask_refuted.

(** ** C18 *)
Theorem C18_ask_changes_nothing : forall N RNG M (O : numops N) (G : rng_ops N RNG) (W : world N M) n s o o' r,
  ask O G W n s o = (o', r) ->
  o_Xi o' = o_Xi o /\ o_yi o' = o_yi o /\ o_models o' = o_models o /\ o_left o' = o_left o /\
  o_init o' = o_init o /\ o_cfg o' = o_cfg o /\ o_next o' = o_next o.
Proof. exact (@c18_frame). Qed.
Print Assumptions C18_ask_changes_nothing.
Theorem C18_ask_repeats : forall N RNG M (O : numops N) (G : rng_ops N RNG) (W : world N M) s s' o,
  reachable O G W o -> (c_n0 (o_cfg o) <= Z.of_nat (length (o_yi o)))%Z -> c_est (o_cfg o) <> None ->
  ask O G W NPNone s' (fst (ask O G W NPNone s o)) = ask O G W NPNone s o.
Proof. exact (@c18_repeat). Qed.
Print Assumptions C18_ask_repeats.
Example C18_example : reachable O0 G0 W0 after0 /\ c_n0 (o_cfg after0) = 2%Z /\ length (o_yi after0) = 5 /\
  c_est (o_cfg after0) <> None /\ exists p, ask O0 G0 W0 NPNone "" after0 = (after0, Ok (A1pt p)).
Proof.
  destruct after0_facts as (_ & H1 & _ & H2 & H3 & _). split; [apply after0_reachable|].
  split; [exact H3|]. split; [exact H1|]. split; [exact H2|]. apply after0_asks.
Qed.

(** ** C19 *)
Theorem C19_batch_size : forall N RNG M (O : numops N) (G : rng_ops N RNG) (W : world N M) z s o o' a,
  reachable O G W o -> ask O G W (NPInt z) s o = (o', Ok a) ->
  exists X, a = Apts X /\ Z.of_nat (length X) = z /\ liar_of s <> None.
Proof. exact (@c19_size). Qed.
Print Assumptions C19_batch_size.
(** The same batch is returned again, also after any number of plain asks and get_results (whether or not
    they succeed). *)
Theorem C19_batch_stable : forall N RNG M (O : numops N) (G : rng_ops N RNG) (W : world N M) z s o o1 a cs o2 outs,
  ask O G W (NPInt z) s o = (o1, Ok a) -> Forall (@quiet N) cs -> exec O G W cs o1 = (o2, outs) ->
  ask O G W (NPInt z) s o2 = (o2, Ok a).
Proof. exact (@c19_stable). Qed.
Print Assumptions C19_batch_stable.
Theorem C19_rejects : forall N RNG M (O : numops N) (G : rng_ops N RNG) (W : world N M) n s o,
  match n with NPNone => False | NPInt z => (z <= 0)%Z \/ liar_of s = None | NPOther => True end ->
  ask O G W n s o = (o, Raise ValueError).
Proof. exact (@c19_rejects). Qed.
Print Assumptions C19_rejects.
Example C19_example : reachable O0 G0 W0 after0 /\
  (exists o' X, ask O0 G0 W0 (NPInt 2) "cl_min" after0 = (o', Ok (Apts X))) /\
  Forall (@quiet float) [CAsk NPNone "cl_max"; CResult] /\ liar_of "cl_median" = None.
Proof. split; [apply after0_reachable|]. split; [apply (after0_asks "")|]. split; [repeat constructor|reflexivity]. Qed.
(** While the generated initial design lasts, a batch is the next points of the design. *)
Theorem C19_initial_batch : forall N RNG M (O : numops N) (G : rng_ops N RNG) (W : world N M) z s o l,
  reachable O G W o -> aligned o -> gen_ok O W (c_dims (o_cfg o)) (c_n0 (o_cfg o)) ->
  (forall seed, is_ok (w_generate W (c_dims (o_cfg o)) (c_n0 (o_cfg o)) seed) = true) ->
  o_init o = Some l -> o_cache o = [] -> liar_of s <> None -> (0 < z)%Z ->
  (Z.of_nat (length (o_yi o)) + z < c_n0 (o_cfg o))%Z ->
  exists o', ask O G W (NPInt z) s o = (o', Ok (Apts (firstn (Z.to_nat z) (skipn (length (o_yi o)) l)))).
Proof. exact (@initial_batch). Qed.
Print Assumptions C19_initial_batch.
Example C19_initial_example : reachable O0 G0 W0 opt4 /\ aligned opt4 /\ gen_ok O0 W0 (c_dims (o_cfg opt4)) (c_n0 (o_cfg opt4)) /\
  (forall seed, is_ok (w_generate W0 (c_dims (o_cfg opt4)) (c_n0 (o_cfg opt4)) seed) = true) /\
  o_init opt4 <> None /\ o_cache opt4 = [] /\ (Z.of_nat (length (o_yi opt4)) + 2 < c_n0 (o_cfg opt4))%Z.
Proof. exact opt4_sample. Qed.

(** ** C20 *)
(** Full claim: every lie is the minimum/mean/maximum of the observed values (and log times). Missing:
    per-second acquisition, where it is false (C20_per_second_refuted). *)
Theorem C20_min_max_lies_partial : forall N RNG M (O : numops N) (G : rng_ops N RNG) (W : world N M),
  order_laws O -> forall z s o o' X,
  reachable O G W o -> aligned o -> o_yi o <> [] -> no_nan O (map y_obj (o_yi o)) -> ps_of o = false ->
  s = "cl_min"%string \/ s = "cl_max"%string -> o_cache o = [] -> ask O G W (NPInt z) s o = (o', Ok (Apts X)) ->
  exists l v g g' cp cp', liar_of s = Some l /\ copy O G W o g = (g', Ok cp) /\
    lie_loop O G W l false (Z.to_nat z) cp = (cp', Ok X) /\
    o_Xi cp = o_Xi o /\ o_yi cp = o_yi o /\
    o_Xi cp' = o_Xi o ++ map (@X1 N) X /\ o_yi cp' = o_yi o ++ repeat (YS v) (length X) /\
    In v (map y_obj (o_yi o)) /\
    forall w, In w (map y_obj (o_yi o)) ->
      if String.eqb s "cl_min" then nleb O v w = true else nleb O w v = true.
Proof. exact (@c20_min_max). Qed.
Print Assumptions C20_min_max_lies_partial.
Example C20_example : reachable O0 G0 W0 opt1 /\ aligned opt1 /\ o_yi opt1 <> [] /\
  no_nan O0 (map y_obj (o_yi opt1)) /\ ps_of opt1 = false /\ o_cache opt1 = [] /\
  exists o' X, ask O0 G0 W0 (NPInt 3) "cl_max" opt1 = (o', Ok (Apts X)).
Proof. split; [exact opt1_reachable|exact opt1_plain]. Qed.
(** The mean, in exact arithmetic. *)
Theorem C20_mean_lies_partial : forall RNG M (G : rng_ops R RNG) (W : world R M) z o o' X,
  reachable Rops G W o -> aligned o -> o_yi o <> [] -> ps_of o = false ->
  o_cache o = [] -> ask Rops G W (NPInt z) "cl_mean" o = (o', Ok (Apts X)) ->
  exists g g' cp cp', copy Rops G W o g = (g', Ok cp) /\
    lie_loop Rops G W ClMean false (Z.to_nat z) cp = (cp', Ok X) /\
    o_Xi cp = o_Xi o /\ o_yi cp = o_yi o /\
    o_Xi cp' = o_Xi o ++ map (@X1 R) X /\
    o_yi cp' = o_yi o ++ repeat (YS (Rsum (map y_obj (o_yi o)) / INR (length (o_yi o)))%R) (length X).
Proof. exact (@c20_mean). Qed.
Print Assumptions C20_mean_lies_partial.
Example C20_mean_example : reachable Rops GR WR optR /\ aligned optR /\ o_yi optR = [YS 2%R] /\ ps_of optR = false /\
  o_cache optR = [] /\ exists o' X, ask Rops GR WR (NPInt 3) "cl_mean" optR = (o', Ok (Apts X)).
Proof. exact optR_sample. Qed.
(** With per-second acquisition the lie is not a statistic of the objective values: told only the value 5
    (in one second), the optimizer lies with another value. The surrogate here accepts exactly the data
    whose objective values are all 5. *)
Theorem C20_per_second_refuted : l_log L1 (fofZ 1) = fofZ 0 /\
  (forall X y, forallb (fun v => feqb (y_obj v) (fofZ 5)) y = true -> is_ok (w_fit W1 X y) = true) /\
  exists o, reachable O1 G0 W1 o /\ map (fun v => B2SF (y_obj v)) (o_yi o) = [B2SF (fofZ 5)] /\
  exists o', ask O1 G0 W1 (NPInt 2) "cl_min" o = (o', Raise ValueError).
Proof. exact ps_lie. Qed.
Print Assumptions C20_per_second_refuted.

(** ** C21 *)
(** Arguments that are not a point of the space with a number (or a value and a positive time), nor
    a list of such points with a list of values, are rejected without any effect. [batch_scalar] is the
    combination that slips through (C13_batch_scalar_refuted). *)
Theorem C21_rejected_unchanged : forall N RNG M (O : numops N) (G : rng_ops N RNG) (W : world N M) x y fit o,
  ~ batch_scalar x y -> ~ (valid_x O (c_dims (o_cfg o)) x /\ valid_y O (ps_of o) x y) ->
  exists e, tell O G W x y fit o = (o, Raise e).
Proof. exact (@tell_invalid). Qed.
Print Assumptions C21_rejected_unchanged.
Example C21_example : let x := X1 [VFloat (fofZ 11); VInt 2] in
  ~ batch_scalar x (num 1) /\ ~ valid_x O0 dims2 x.
Proof.
  split; [intros (pts & v & H & _); discriminate|]. intros H. simpl in H. apply MetricLemmas.check_point_ok in H.
  vm_compute in H. discriminate.
Qed.

(** ** C22 *)
Theorem C22_recent_models : forall N RNG M (O : numops N) (G : rng_ops N RNG) (W : world N M) a g g' o cs o' outs,
  make_optimizer O G W a g = (g', Ok o) -> exec O G W cs o = (o', outs) ->
  exists ms, Forall (is_fit W) ms /\ o_models o' = keep (a_queue a) ms.
Proof. exact (@c22). Qed.
Print Assumptions C22_recent_models.
Theorem C22_newest_last : forall N RNG M (O : numops N) (G : rng_ops N RNG) (W : world N M) x y o o' r,
  reachable O G W o -> tell O G W x y true o = (o', Ok r) ->
  (c_n0 (o_cfg o') <= Z.of_nat (length (o_yi o')))%Z -> c_est (o_cfg o') <> None ->
  (forall q, c_queue (o_cfg o) = Some q -> (1 <= q)%Z) /\
  exists m, is_fit W m /\ o_models o' = keep (c_queue (o_cfg o)) (o_models o ++ [m]) /\
    res_models r = o_models o' /\ exists ms, o_models o' = ms ++ [m].
Proof. exact (@c22_newest). Qed.
Print Assumptions C22_newest_last.
(** Five observations, three fits after the first two, a queue of two. *)
Example C22_example : o_models after0 = [4; 5] /\ length (o_yi after0) = 5.
Proof. destruct after0_facts as (_ & H1 & _ & _ & _ & H2 & _). auto. Qed.
(** With model_queue_size=0 the first fit fails. *)
Theorem C22_empty_queue_refuted : exists o, reachable O0 G0 W0 o /\ c_queue (o_cfg o) = Some 0%Z /\
  exists o', tell O0 G0 W0 (X1 pa) (num 3) true o = (o', Raise IndexError).
Proof. exact empty_queue. Qed.
Print Assumptions C22_empty_queue_refuted.

(** ** C23 *)
Theorem C23_weights : forall eta g1 g2 g3, exists w1 w2 w3,
  hedge_weights Rops eta [g1; g2; g3] = Ok [w1; w2; w3] /\
  (0 <= w1 /\ 0 <= w2 /\ 0 <= w3 /\ w1 + w2 + w3 = 1)%R.
Proof. exact c23_weights. Qed.
Print Assumptions C23_weights.
Theorem C23_choice_and_gains : forall N RNG M (O : numops N) (G : rng_ops N RNG) (W : world N M) x y o o' r,
  reachable O G W o -> tell O G W x y true o = (o', Ok r) ->
  (c_n0 (o_cfg o') <= Z.of_nat (length (o_yi o')))%Z -> c_est (o_cfg o') <> None -> c_acq (o_cfg o') = AHedge ->
  exists m ms c1 c2 c3 ps i nx p rest,
    o_models o' = ms ++ [m] /\ o_next_xs o' = Some [c1; c2; c3] /\
    hedge_weights O (c_eta (o_cfg o')) (o_gains o') = Ok ps /\
    (exists g, i = fst (rg_multinomial G g ps)) /\
    nth_error [c1; c2; c3] i = Some nx /\
    space_inverse O (c_dims (o_cfg o')) [nx] = Ok (p :: rest) /\ o_next o' = Some p /\
    exists g1 g2 g3, o_gains o = [g1; g2; g3] /\
    match o_next_xs o with
    | None => o_gains o' = o_gains o
    | Some xs => exists p1 p2 p3, w_predict W m xs = Ok [p1; p2; p3] /\
        o_gains o' = [nsub O g1 p1; nsub O g2 p2; nsub O g3 p3]
    end.
Proof. exact (@c23). Qed.
Print Assumptions C23_choice_and_gains.
Example C23_example : reachable O0 G0 W0 after0 /\
  exists o' r, tell O0 G0 W0 (X1 pc) (num 8) true after0 = (o', Ok r) /\
  (c_n0 (o_cfg o') <= Z.of_nat (length (o_yi o')))%Z /\ c_est (o_cfg o') <> None /\ c_acq (o_cfg o') = AHedge /\
  o_next_xs after0 <> None.
Proof. split; [exact after0_reachable|exact after0_tells]. Qed.

(** ** C24 *)
Theorem C24_run_by_hand : forall N RNG M (O : numops N) (G : rng_ops N RNG) (W : world N M) f n o o' r,
  run O G W f n o = (o', Ok r) ->
  exists last, by_hand O G W f 0 n o o' last /\ get_result O o' = (o', Ok r) /\
    match last with Some r' => r' = r | None => n = 0 end.
Proof. exact (@c24). Qed.
Print Assumptions C24_run_by_hand.
Theorem C24_by_hand_run : forall N RNG M (O : numops N) (G : rng_ops N RNG) (W : world N M) f n o o' last r,
  by_hand O G W f 0 n o o' last -> get_result O o' = (o', Ok r) -> run O G W f n o = (o', Ok r).
Proof. exact (@c24_conv). Qed.
Print Assumptions C24_by_hand_run.
Theorem C24_get_result : forall N RNG M (O : numops N) (G : rng_ops N RNG) (W : world N M) c o o' r,
  do_call O G W c o = (o', Ok (RResult r)) -> do_call O G W CResult o' = (o', Ok (RResult r)).
Proof. exact (@c24_result). Qed.
Print Assumptions C24_get_result.
Example C24_example : exists o' r, run O0 G0 W0 (fun k _ => Ok (num (3 - Z.of_nat k))) 3 opt0 = (o', Ok r).
Proof. exact runs3. Qed.

(** ** C25 *)
Theorem C25_copy_same : forall N RNG M (O : numops N) (G : rng_ops N RNG) (W : world N M) o g g' o',
  reachable O G W o -> aligned o -> copy O G W o g = (g', Ok o') ->
  c_dims (o_cfg o') = c_dims (o_cfg o) /\ c_acq (o_cfg o') = c_acq (o_cfg o) /\
  c_est (o_cfg o') = c_est (o_cfg o) /\ c_n0 (o_cfg o') = c_n0 (o_cfg o) /\
  o_Xi o' = o_Xi o /\ o_yi o' = o_yi o /\ o_left o' = o_left o /\ o_init o' = o_init o.
Proof. exact (@c25). Qed.
Print Assumptions C25_copy_same.
(** During a generated initial design, original and copy suggest the same point. *)
Theorem C25_copy_suggests : forall N RNG M (O : numops N) (G : rng_ops N RNG) (W : world N M) s o g g' o',
  gen_ok O W (c_dims (o_cfg o)) (c_n0 (o_cfg o)) -> reachable O G W o -> aligned o -> copy O G W o g = (g', Ok o') -> o_init o <> None ->
  (Z.of_nat (length (o_yi o)) < c_n0 (o_cfg o))%Z ->
  exists p, ask O G W NPNone s o = (o, Ok (A1pt p)) /\ ask O G W NPNone s o' = (o', Ok (A1pt p)).
Proof. exact (@c25_ask). Qed.
Print Assumptions C25_copy_suggests.
Example C25_example : reachable O0 G0 W0 mid0 /\ aligned mid0 /\ o_init mid0 <> None /\
  (Z.of_nat (length (o_yi mid0)) < c_n0 (o_cfg mid0))%Z /\ length (o_yi mid0) = 1 /\
  exists g' o', copy O0 G0 W0 mid0 5 = (g', Ok o').
Proof. exact mid0_copies. Qed.
(** The size of the model queue is not copied. *)
Theorem C25_queue_refuted : exists o g' o', reachable O0 G0 W0 o /\ copy O0 G0 W0 o 5 = (g', Ok o') /\
  c_queue (o_cfg o) = Some 2%Z /\ c_queue (o_cfg o') = None.
Proof. exact copy_queue. Qed.
Print Assumptions C25_queue_refuted.

(** ** C26 *)
(** Full claim: the stored pairs hold the value and the log of a positive time, and the incumbent is the
    least value. Missing: the incumbent, where it is false (C26_incumbent_refuted). *)
Theorem C26_log_times_partial : forall N RNG M (O : numops N) (G : rng_ops N RNG) (W : world N M) x y fit o o' r,
  ps_of o = true -> tell O G W x y fit o = (o', Ok r) ->
  exists vs, o_yi o' = o_yi o ++ vs /\
    Forall (fun v => exists y t, v = YP y (nlog O t) /\ nleb O t (nofZ O 0) = false) vs /\ valid_y O true x y /\
    Forall2 (fun a v => exists w t, a = YLst [YNum w; YNum t] /\ v = YP w (nlog O t))
            (match x, y with X2 _, YLst l => l | _, y => [y] end) vs.
Proof. exact (@c26). Qed.
Print Assumptions C26_log_times_partial.
Example C26_example : exists o' r, reachable O1 G0 W0 (new_ps W0) /\ ps_of (new_ps W0) = true /\
  tell O1 G0 W0 (X2 [pa; pb]) (YLst [five_sec; YLst [num 2; num 3]]) true (new_ps W0) = (o', Ok r).
Proof. exact ps_tells. Qed.
(** The incumbent handed to the acquisition function is not the least objective value: the only value is
    5, and an acquisition function that accepts every incumbent of 5 is handed another one. *)
Theorem C26_incumbent_refuted : l_log L1 (fofZ 1) = fofZ 0 /\
  (forall a m X, is_ok (w_acq W2 a m (fofZ 5) X) = true) /\
  exists o, reachable O1 G0 W2 o /\ o_yi o = [] /\
  exists o', tell O1 G0 W2 (X1 pa) (YLst [YNum (fofZ 5); YNum (fofZ 1)]) true o = (o', Raise ValueError) /\
    map (fun v => B2SF (y_obj v)) (o_yi o') = [B2SF (fofZ 5)].
Proof. exact ps_incumbent. Qed.
Print Assumptions C26_incumbent_refuted.

(** ** C62 *)
(** With sampling, the suggestion is the candidate with the least acquisition value, computed with the
    newest surrogate and the least observed value; it is clipped to the warped bounds before being mapped
    back. *)
Theorem C62_best_candidate : forall N RNG M (O : numops N) (G : rng_ops N RNG) (W : world N M),
  order_laws O -> forall x y o o' r a, reachable O G W o -> tell O G W x y true o = (o', Ok r) ->
  (c_n0 (o_cfg o') <= Z.of_nat (length (o_yi o')))%Z -> c_est (o_cfg o') <> None ->
  c_lbfgs (o_cfg o') = false -> c_acq (o_cfg o') = AOne a -> ps_of o' = false -> no_nan O (map y_obj (o_yi o')) ->
  exists ms m g P X yopt vals i x0 nx p rest,
    o_models o' = ms ++ [m] /\
    fst (space_rvs O G (c_dims (o_cfg o')) (c_npoints (o_cfg o')) g) = Ok P /\
    space_transform O (c_dims (o_cfg o')) P = Ok X /\
    (In yopt (map y_obj (o_yi o')) /\ forall v, In v (map y_obj (o_yi o')) -> nleb O yopt v = true) /\
    w_acq W a m yopt X = Ok vals /\ nth_error X i = Some x0 /\
    (no_nan O vals -> exists v, nth_error vals i = Some v /\ forall v', In v' vals -> nleb O v v' = true) /\
    (if is_categorical (c_dims (o_cfg o')) then nx = x0
     else clipped_row O (space_tbounds O (c_dims (o_cfg o'))) x0 nx) /\
    space_inverse O (c_dims (o_cfg o')) [nx] = Ok (p :: rest) /\ o_next o' = Some p.
Proof. exact (@c62). Qed.
Print Assumptions C62_best_candidate.
Example C62_example : reachable O0 G0 W0 opt1 /\
  exists o' r, tell O0 G0 W0 (X1 pb) (num 2) true opt1 = (o', Ok r) /\
  (c_n0 (o_cfg o') <= Z.of_nat (length (o_yi o')))%Z /\ c_est (o_cfg o') <> None /\
  c_lbfgs (o_cfg o') = false /\ c_acq (o_cfg o') = AOne EI /\ ps_of o' = false /\ no_nan O0 (map y_obj (o_yi o')).
Proof. split; [exact opt1_reachable|exact opt1_tells]. Qed.

(** ** C76 *)
(** With lbfgs, a search is started from each of the [n_restarts] candidates with the least acquisition
    values ([is], their places); the suggestion is the end with the least value, clipped and mapped back
    ([argsort_ok] in OptSpec.v: numpy's sort sorts numbers). *)
Theorem C76_best_search : forall N RNG M (O : numops N) (G : rng_ops N RNG) (W : world N M),
  order_laws O -> forall x y o o' r a, argsort_ok O W -> reachable O G W o -> tell O G W x y true o = (o', Ok r) ->
  (c_n0 (o_cfg o') <= Z.of_nat (length (o_yi o')))%Z -> c_est (o_cfg o') <> None ->
  c_lbfgs (o_cfg o') = true -> c_acq (o_cfg o') = AOne a -> ps_of o' = false -> no_nan O (map y_obj (o_yi o')) ->
  exists ms m g P X yopt vals is starts ends i x0 nx p rest,
    o_models o' = ms ++ [m] /\
    fst (space_rvs O G (c_dims (o_cfg o')) (c_npoints (o_cfg o')) g) = Ok P /\
    space_transform O (c_dims (o_cfg o')) P = Ok X /\
    (In yopt (map y_obj (o_yi o')) /\ forall v, In v (map y_obj (o_yi o')) -> nleb O yopt v = true) /\
    w_acq W a m yopt X = Ok vals /\
    (no_nan O vals -> NoDup is /\ length is = Nat.min (c_restarts (o_cfg o')) (length vals) /\
      forall i j u v, In i is -> ~ In j is -> nth_error vals i = Some u -> nth_error vals j = Some v -> nleb O u v = true) /\
    Forall2 (fun i s => nth_error X i = Some s) is starts /\
    Forall2 (fun s e => w_lbfgs W a m yopt (space_tbounds O (c_dims (o_cfg o'))) s = Ok e) starts ends /\
    (exists f, nth_error ends i = Some (x0, f) /\ (no_nan O (map snd ends) -> forall e, In e ends -> nleb O f (snd e) = true)) /\
    (if is_categorical (c_dims (o_cfg o')) then nx = x0
     else clipped_row O (space_tbounds O (c_dims (o_cfg o'))) x0 nx) /\
    space_inverse O (c_dims (o_cfg o')) [nx] = Ok (p :: rest) /\ o_next o' = Some p.
Proof. exact (@c76). Qed.
Print Assumptions C76_best_search.
Example C76_example : argsort_ok O0 W3 /\ reachable O0 G0 W3 opt3 /\
  exists o' r, tell O0 G0 W3 (X1 pb) (num 2) true opt3 = (o', Ok r) /\
  (c_n0 (o_cfg o') <= Z.of_nat (length (o_yi o')))%Z /\ c_est (o_cfg o') <> None /\
  c_lbfgs (o_cfg o') = true /\ c_acq (o_cfg o') = AOne EI /\ ps_of o' = false /\ no_nan O0 (map y_obj (o_yi o')).
Proof. exact opt3_case. Qed.
