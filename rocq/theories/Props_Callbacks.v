(** Properties of callbacks and dump (C29, C32-C37). [delta_y], [delta_x], [hollow] and [threshold] are the
    criteria of the stoppers, on the newest result; the vocabulary is in CbSpec.v and DumpSpec.v. *)
From Coq Require Import String List ZArith Bool Reals Permutation.
From Flocq Require Import IEEE754.BinarySingleNaN.
From Verif Require Import Base Num Values Dimension Space Optimizer NumLaws SpaceSpec Samples SpaceProps2 OptSpec OptSamples
  Minimize MinSpec MinSamples Callbacks CbSpec CbLemmas CbLemmas2 Dump DumpSpec DumpLemmas CbSamples.
Import ListNotations.
Open Scope list_scope.

(** ** C29, whatever the outcome *)
(** However a run ends, every result shown to a callback has all observations made so far. *)
Theorem C29_any_outcome : forall N RNG M (O : numops N) (G : rng_ops N RNG) (W : world N M) m f a g t o' res x0,
  minimize O G W m f a g = (t, o', res) -> given (m_x0 a) x0 ->
  forall p i r q, t = p ++ ECall i r :: q ->
  i < length (callbacks_of a) /\
  length (res_func_vals r) = length (evals p) + match values_of (m_y0 a) with Some _ => length x0 | None => 0 end.
Proof. exact (@c29_any). Qed.
Print Assumptions C29_any_outcome.
Example C29_any_example : let run := minimize O0 G0 W0 MBase fail3 (margs0 5 2 pts0 Y0None CBNone) 7 in
  raises ValueError (snd run) = true /\ length (filter (is_call 0) (trace_of run)) = 2 /\ length (evals (trace_of run)) = 4 /\
  given pts0 [pb; pc].
Proof. exact C29_any_sample. Qed.

(** ** C32 *)
(** In any arithmetic: with n_best observations or more, the n_best-th smallest minus the smallest is compared
    with delta. *)
Theorem C32_delta_y : forall N RNG M (O : numops N), order_laws O -> forall delta n_best (r : result N RNG M),
  (1 <= n_best)%Z -> no_nan O (res_func_vals r) ->
  if (n_best <=? Z.of_nat (length (res_func_vals r)))%Z then
    exists worst best, kth_smallest O (Z.to_nat n_best) (res_func_vals r) worst /\ least O (res_func_vals r) best /\
      delta_y O delta n_best r = Ok (Some (nltb O (nsub O worst best) delta))
  else delta_y O delta n_best r = Ok None.
Proof. exact (fun N RNG M O => @c32 N RNG M O). Qed.
Print Assumptions C32_delta_y.
(** In exact arithmetic: a stop is asked for exactly when any two of the n_best smallest differ by less than delta. *)
Theorem C32_delta_y_exact : forall RNG M delta n_best (r : result R RNG M), (1 <= n_best)%Z ->
  (delta_y Rops delta n_best r = Ok (Some true) <->
   (n_best <= Z.of_nat (length (res_func_vals r)))%Z /\
   exists smallest rest, Permutation (res_func_vals r) (smallest ++ rest) /\ length smallest = Z.to_nat n_best /\
     (forall a b, In a smallest -> In b rest -> (a <= b)%R) /\
     (forall a b, In a smallest -> In b smallest -> (Rabs (a - b) < delta)%R)).
Proof. exact (@c32_R). Qed.
Print Assumptions C32_delta_y_exact.
Example C32_example : delta_y O0 (fofZ 2) 3 h5 = Ok (Some true) /\ delta_y O0 (fofZ 1) 3 h5 = Ok (Some false) /\
  delta_y O0 (fofZ 9) 6 h5 = Ok None /\ (1 <= 3)%Z /\ no_nan O0 (res_func_vals h5).
Proof. exact C32_sample. Qed.

(** ** C33 *)
Theorem C33_delta_x : forall N RNG M (O : numops N) delta (r : result N RNG M),
  (length (res_x_iters r) < 2 -> delta_x O delta r = Ok None) /\
  (forall a b d, last_two r a b -> space_distance O (res_space r) a b = Ok d ->
     delta_x O delta r = Ok (Some (nltb O d delta))).
Proof. exact (@c33). Qed.
Print Assumptions C33_delta_x.
(** In exact arithmetic there is an answer for every history of points of the space. *)
Theorem C33_delta_x_exact : forall RNG M delta (r : result R RNG M), Forall (wf_dim Rops) (res_space r) ->
  (forall x, In x (res_x_iters r) -> exists p, x = X1 p /\ in_space Rops (res_space r) p) ->
  2 <= length (res_x_iters r) ->
  exists a b d, last_two r a b /\ space_distance Rops (res_space r) a b = Ok d /\
    exists s, delta_x Rops delta r = Ok (Some s) /\ (s = true <-> (d < delta)%R).
Proof. exact (@c33_R). Qed.
Print Assumptions C33_delta_x_exact.
Example C33_example : Forall (wf_dim Rops) (res_space h2) /\
  (forall x, In x (res_x_iters h2) -> exists p, x = X1 p /\ in_space Rops (res_space h2) p) /\ 2 <= length (res_x_iters h2).
Proof. exact C33_sample. Qed.

(** ** C34 *)
(** The best of all but the last n observations minus the best of all is compared with the threshold. *)
Theorem C34_hollow : forall N RNG M (O : numops N), order_laws O -> forall n thr (r : result N RNG M),
  no_nan O (res_func_vals r) ->
  if Nat.leb (length (res_func_vals r)) n then hollow O (Z.of_nat n) thr r = Ok (Some false)
  else exists before now, least O (firstn (length (res_func_vals r) - n) (res_func_vals r)) before /\
    least O (res_func_vals r) now /\
    hollow O (Z.of_nat n) thr r = Ok (Some (nleb O (nsub O before now) (nabs O thr))).
Proof. exact (fun N RNG M O => @c34 N RNG M O). Qed.
Print Assumptions C34_hollow.
Example C34_example : hollow O0 2 (fofZ 0) h5 = Ok (Some true) /\ hollow O0 4 (fofZ 0) h5 = Ok (Some false) /\
  hollow O0 5 (fofZ 0) h5 = Ok (Some false) /\ hollow O0 4 (fofZ (-3)) h5 = Ok (Some true).
Proof. exact C34_sample. Qed.

(** ** C35 *)
Theorem C35_threshold : forall N RNG M (O : numops N) t (r : result N RNG M), exists b,
  threshold O t r = Ok (Some b) /\ (b = true <-> exists v, In v (res_func_vals r) /\ nleb O v t = true).
Proof. exact (@c35_threshold). Qed.
Print Assumptions C35_threshold.
(** Inside a minimisation: no result before the last reaches the threshold; the last does, or the budget is
    used up. *)
Theorem C35_threshold_minimise : forall N RNG M (O : numops N) (G : rng_ops N RNG) (W : world N M) m f a g t o' res thr,
  minimize O G W m f a g = (t, o', Ok res) -> m_callback a = CBOne (early (threshold O thr)) ->
  exists x0 rds rd, given (m_x0 a) x0 /\ t = flat_map (round_events (length (callbacks_of a))) (rds ++ [rd]) /\ res = Some (snd rd) /\
    (forall rd' v, In rd' rds -> In v (res_func_vals (snd rd')) -> nleb O v thr = false) /\
    ((exists v, In v (res_func_vals (snd rd)) /\ nleb O v thr = true) \/
     Z.of_nat (length (evals t)) =
       Z.max (m_ncalls a) (match values_of (m_y0 a) with None => Z.of_nat (length x0) | Some _ => 0 end)).
Proof. exact (@c35_minimise). Qed.
Print Assumptions C35_threshold_minimise.
Example C35_minimise_example : let run := run_min MBase 6 2 pts0 Y0None (CBOne (early (threshold O0 (fofZ 2)))) in
  succeeds run = true /\ length (evals (trace_of run)) = 4.
Proof. exact C35_min_sample. Qed.
(** The k-th duration is between the (2k)-th and the (2k+1)-th reading of the clock; [seen] are the earlier results. *)
Theorem C35_deadline : forall N RNG M (O : numops N), order_laws O -> forall total clk seen (r : result N RNG M),
  res_x_iters r <> [] -> no_nan O (durations O clk (S (length seen))) ->
  exists longest, In longest (durations O clk (S (length seen))) /\
    (forall t, In t (durations O clk (S (length seen))) -> nleb O t longest = true) /\
    deadline O total clk (seen ++ [r]) =
      Ok (Some (nleb O (nsub O total (np_sum O (durations O clk (S (length seen))))) longest)).
Proof. exact (fun N RNG M O => @c35_deadline N RNG M O). Qed.
Print Assumptions C35_deadline.
(** In exact arithmetic, after a step with no stop, a step that is no longer than some earlier one stays
    within the budget. *)
Theorem C35_in_time : forall RNG M total clk (seen : list (result R RNG M)) r, res_x_iters r <> [] ->
  deadline Rops total clk (seen ++ [r]) = Ok (Some false) ->
  forall t, In t (durations Rops clk (S (length seen))) ->
  let n := S (length seen) in
  (clk (2 * n + 1)%nat - clk (2 * n)%nat <= t)%R -> (np_sum Rops (durations Rops clk (S n)) < total)%R.
Proof. exact (@c35_in_time). Qed.
Print Assumptions C35_in_time.
(** The durations add up to the elapsed time but for the time between the two readings in each step. *)
Theorem C35_durations_partial : forall clk n,
  (np_sum Rops (durations Rops clk (S n)) + np_sum Rops (gaps clk n) = clk (2 * n + 1)%nat - clk 0%nat)%R.
Proof. exact c35_sum. Qed.
Print Assumptions C35_durations_partial.
Theorem C35_durations_refuted : exists clk : nat -> R, (forall k, (clk k <= clk (S k))%R) /\
  np_sum Rops (durations Rops clk 2) <> (clk 3%nat - clk 0%nat)%R.
Proof. exact C35_sum_sample. Qed.
Print Assumptions C35_durations_refuted.
Example C35_example : threshold O0 (fofZ 2) h5 = Ok (Some true) /\ threshold O0 (fofZ 1) h5 = Ok (Some false) /\
  deadline O0 (fofZ 4) ticks [h5; h5] = Ok (Some false) /\ deadline O0 (fofZ 4) ticks [h5; h5; h5] = Ok (Some true) /\
  no_nan O0 (durations O0 ticks 3).
Proof. exact C35_sample. Qed.

(** ** C36 *)
(** Between two events of any run with the saver as i-th callback, however the run ends: the file is as it was
    and the first results are not there yet, or it holds the whole result of a step, with all observations
    made so far but at most one. Missing: moments during the write. *)
Theorem C36_checkpoint_partial : forall N RNG M (O : numops N) (G : rng_ops N RNG) (W : world N M) B
    (ser : result N RNG M -> list B) m f a g t o' res x0 i d,
  minimize O G W m f a g = (t, o', res) -> given (m_x0 a) x0 -> nth_error (callbacks_of a) i = Some saver ->
  forall before after, t = before ++ after ->
  (disk_after ser i d before = d /\ length (evals before) <= Nat.max 1 (length x0)) \/
  (exists r, disk_after ser i d before = Some (ser r) /\ In (ECall i r) before /\
     length (evals before) + match values_of (m_y0 a) with Some _ => length x0 | None => 0 end <= length (res_func_vals r) + 1).
Proof. exact (@c36). Qed.
Print Assumptions C36_checkpoint_partial.
Example C36_example : succeeds saved = true /\ length (filter (is_call 0) (trace_of saved)) = 4 /\
  nth_error (callbacks_of (margs0 5 2 pts0 Y0None (CBOne saver))) 0 = Some saver.
Proof. exact C36_sample. Qed.
(** During the write the file holds no result. *)
Theorem C36_torn_refuted : forall B (ser : result float nat nat -> list B), (forall r, ser r <> []) ->
  exists t o r d, saved = (t, Some o, Ok (Some r)) /\ In d (disks ser 0 None t) /\ d <> None /\
    forall r', d <> Some (ser r').
Proof. exact (@C36_torn). Qed.
Print Assumptions C36_torn_refuted.

(** ** C37 *)
(** What is written is a copy without the objective that shares nothing with the objects in memory, which are
    unchanged. *)
Theorem C37_without_objective : forall h r specs args, wf_heap h -> wf_ref (length h) r ->
  get_attr h r "specs" = Ok specs -> get_item h specs "args" = Ok (RObj args) -> has_key h (RObj args) "func" = Ok true ->
  exists h' r', dump h r false = Ok (h', (h', r')) /\ firstn (length h) h' = h /\
    copy_without "func" args (length h) h r h' r'.
Proof. exact c37_copy. Qed.
Print Assumptions C37_without_objective.
Theorem C37_no_objective : forall h r specs args,
  get_attr h r "specs" = Ok specs -> get_item h specs "args" = Ok (RObj args) -> has_key h (RObj args) "func" = Ok false ->
  dump h r false = Ok (h, (h, r)).
Proof. exact c37_absent. Qed.
Print Assumptions C37_no_objective.
Example C37_example : wf_heap heap0 /\ wf_ref (length heap0) (RObj 0) /\ get_attr heap0 (RObj 0) "specs" = Ok (RObj 1) /\
  get_item heap0 (RObj 1) "args" = Ok (RObj 2) /\ has_key heap0 (RObj 2) "func" = Ok true /\
  dump heap0 (RObj 0) false =
    let h' := heap0 ++ [CDict [("x", RAtom "1"); ("space", RObj 5); ("specs", RObj 6)]; CSeq [RObj 4; RAtom "d"];
                        CDict [("function", RAtom "base_minimize"); ("args", RObj 7)];
                        CDict [("n_calls", RAtom "5"); ("dimensions", RObj 5)]]%string in
    Ok (h', (h', RObj 4)).
Proof. exact C37_sample. Qed.
(** A result straight from an Optimizer, whose specs is None, can be dumped with its objective only. *)
Theorem C37_no_specs_refuted : exists h r, wf_heap h /\ dump h r false = Raise TypeError /\ dump h r true = Ok (h, (h, r)).
Proof. exact (ex_intro _ heap1 (ex_intro _ (RObj 0) C37_no_specs)). Qed.
Print Assumptions C37_no_specs_refuted.
