(** Properties of base_minimize, dummy_minimize, forest_minimize, gbrt_minimize and gp_minimize (C27-C31, C63).
    [minimize m] is any of the five; it yields the events (evaluations and callback calls), the optimizer and
    the returned value. The vocabulary is in MinSpec.v, the samples in MinSamples.v. *)
From Coq Require Import String List ZArith Bool.
From Flocq Require Import IEEE754.BinarySingleNaN.
From Verif Require Import Base Num Values Transformers Dimension Space Optimizer NumLaws SpaceSpec
  Samples SpaceProps2 OptSpec OptLemmas4 OptSamples Minimize MinSpec MinProps MinDummy MinConv MinSamples.
Import ListNotations.
Open Scope list_scope.

(** ** C27 *)
(** On success: at most max(n_calls, number of points that had to be evaluated) evaluations, exactly so many
    if no callback stops; the result has one observation for each, plus those given. *)
Theorem C27_evaluations : forall N RNG M (O : numops N) (G : rng_ops N RNG) (W : world N M) m f a g t o' res,
  minimize O G W m f a g = (t, o', Ok res) ->
  exists x0 r, given (m_x0 a) x0 /\ res = Some r /\
    (let most := Z.max (m_ncalls a) (match values_of (m_y0 a) with None => Z.of_nat (length x0) | Some _ => 0 end) in
     (Z.of_nat (length (evals t)) <= most)%Z /\
     (never_stops (callbacks_of a) -> Z.of_nat (length (evals t)) = most)) /\
    let n := length (evals t) + (match values_of (m_y0 a) with None => 0 | Some _ => length x0 end) in
    length (res_func_vals r) = n /\ length (res_x_iters r) = n.
Proof. exact (@c27_budget). Qed.
Print Assumptions C27_evaluations.
(** With a number of initial points that is not negative that is n_calls. *)
Theorem C27_exactly_n_calls : forall N RNG M (O : numops N) (G : rng_ops N RNG) (W : world N M) m f a g t o' res,
  minimize O G W m f a g = (t, o', Ok res) ->
  m <> MDummy -> (0 <= n_initial a)%Z -> never_stops (callbacks_of a) ->
  Z.of_nat (length (evals t)) = m_ncalls a.
Proof. exact (@c27_exact). Qed.
Print Assumptions C27_exactly_n_calls.
Example C27_example : succeeds (run_min MBase 5 2 pts0 Y0None CBNone) = true /\
  length (evals (trace_of (run_min MBase 5 2 pts0 Y0None CBNone))) = 5 /\
  never_stops (callbacks_of (margs0 5 2 pts0 Y0None CBNone)).
Proof. exact min_base. Qed.
(** A negative number of initial points passes the checks and more than n_calls points are evaluated. *)
Theorem C27_negative_refuted : exists n_calls n0 x0, (0 < n_calls)%Z /\
  exists t o r, base_minimize O0 G0 W0 fm (margs0 n_calls n0 x0 Y0None CBNone) 7 = (t, Some o, Ok (Some r)) /\
    (n_calls < Z.of_nat (length (evals t)))%Z.
Proof. exact min_negative. Qed.
Print Assumptions C27_negative_refuted.
(** So it does in dummy_minimize when there are more given points than calls. *)
Theorem C27_dummy_refuted : exists n_calls x0, (0 < n_calls)%Z /\
  exists t o r, dummy_minimize O0 G0 W0 fm (margs0 n_calls 0 x0 Y0None CBNone) 7 = (t, Some o, Ok (Some r)) /\
    (n_calls < Z.of_nat (length (evals t)))%Z.
Proof. exact min_dummy_many. Qed.
Print Assumptions C27_dummy_refuted.

(** ** C28 *)
(** [E] lists the evaluated points with what was recorded of the objective's k-th value at the k-th of them. *)
Theorem C28_given_points_first : forall N RNG M (O : numops N) (G : rng_ops N RNG) (W : world N M) m f a g t o' res,
  minimize O G W m f a g = (t, o', Ok res) ->
  exists x0 ps r E, given (m_x0 a) x0 /\ res = Some r /\ evaluated O ps f 0 E /\ map fst E = evals t /\
    match values_of (m_y0 a), x0 with
    | Some ys, _ :: _ => exists vs, Forall2 (observation O ps) ys vs /\ length ys = length x0 /\
        res_x_iters r = map (@X1 N) (x0 ++ map fst E) /\ res_func_vals r = map y_obj (vs ++ map snd E)
    | _, _ => firstn (length x0) (map fst E) = x0 /\
        res_x_iters r = map (@X1 N) (map fst E) /\ res_func_vals r = map y_obj (map snd E)
    end.
Proof. exact (@c28). Qed.
Print Assumptions C28_given_points_first.

(** ** C29 *)
(** The events are rounds: evaluations, then every callback in turn shown the same result. No callback wants
    to stop after a round that is not the last; the last is either one after which some callback wants to
    stop, or the budget is used up. The first round evaluates the given points, the others one point each. *)
Theorem C29_callbacks : forall N RNG M (O : numops N) (G : rng_ops N RNG) (W : world N M) m f a g t o' res,
  minimize O G W m f a g = (t, o', Ok res) ->
  exists x0 rds rd, given (m_x0 a) x0 /\
    t = flat_map (round_events (length (callbacks_of a))) (rds ++ [rd]) /\ res = Some (snd rd) /\
    (forall i, i < length rds -> ~ wants_stop (callbacks_of a) (map snd (firstn (S i) rds))) /\
    (wants_stop (callbacks_of a) (map snd (rds ++ [rd])) \/
     Z.of_nat (length (evals t)) =
       Z.max (m_ncalls a) (match values_of (m_y0 a) with None => Z.of_nat (length x0) | Some _ => 0 end)) /\
    map fst (rds ++ [rd]) = match x0, values_of (m_y0 a) with
                            | [], _ => map (fun p => [p]) (evals t)
                            | _, None => x0 :: map (fun p => [p]) (skipn (length x0) (evals t))
                            | _, Some _ => [] :: map (fun p => [p]) (evals t)
                            end.
Proof. exact (@c29). Qed.
Print Assumptions C29_callbacks.
(** Two values given, at most four calls, a stop at the third result: two evaluations. *)
Example C28_C29_example : forall m, m = MBase \/ m = MForest \/ m = MGbrt \/ m = MGp true \/ m = MGp false ->
  succeeds (run_min m 4 1 pts0 (Y0Seq [num 1; num 2]) (CBOne (stopper 3))) = true /\
  length (evals (trace_of (run_min m 4 1 pts0 (Y0Seq [num 1; num 2]) (CBOne (stopper 3))))) = 2.
Proof. exact min_all. Qed.

(** ** C30 *)
Theorem C30_minimise_by_hand : forall N RNG M (O : numops N) (G : rng_ops N RNG) (W : world N M) f a g t o' res,
  base_minimize O G W f a g = (t, o', Ok res) -> never_stops (callbacks_of a) ->
  exists x0 g' o0 o1 r, given (m_x0 a) x0 /\ o' = Some o1 /\ res = Some r /\
    make_optimizer O G W (set_n0 (n_initial a + Z.of_nat (length x0)) (m_opt a)) g = (g', Ok o0) /\
    hand_session O G W f a x0 o0 o1 r.
Proof. exact (@c30). Qed.
Print Assumptions C30_minimise_by_hand.
(** Conversely, what succeeds by hand succeeds with base_minimize if its arguments pass the checks. *)
Theorem C30_by_hand_minimise : forall N RNG M (O : numops N) (G : rng_ops N RNG) (W : world N M) f a g x0 g' o0 o1 r,
  given (m_x0 a) x0 -> (x0 = [] \/ m_y0 a <> Y0Other) ->
  (x0 = [] -> (0 < n_initial a)%Z) ->
  (n_initial a + match values_of (m_y0 a) with Some (_ :: _) => 0 | _ => Z.of_nat (length x0) end <= m_ncalls a)%Z ->
  answers (callbacks_of a) -> never_stops (callbacks_of a) -> match m_callback a with CBOther => False | _ => True end ->
  make_optimizer O G W (set_n0 (n_initial a + Z.of_nat (length x0)) (m_opt a)) g = (g', Ok o0) ->
  Forall (fun p => length p = length (c_dims (o_cfg o0))) x0 ->
  hand_session O G W f a x0 o0 o1 r ->
  exists t, base_minimize O G W f a g = (t, Some o1, Ok (Some r)).
Proof. exact (@c30_conv). Qed.
Print Assumptions C30_by_hand_minimise.

(** ** C31 *)
(** For a list of points (or none) in the space, dummy_minimize succeeds: any space of samplable dimensions,
    any objective with numeric values, any callbacks that do not raise. *)
Theorem C31_dummy_succeeds_partial : forall L RNG (G : rng_ops float RNG) M (W : world float M) f a g x0,
  rng_ok (F64 L) G -> pow_ok L -> (forall n, (1 <= n <= m_ncalls a + Z.of_nat (length x0))%Z -> gen_ok (F64 L) W (a_dims (m_opt a)) n) ->
  a_dims (m_opt a) <> [] -> Forall (samplable L) (a_dims (m_opt a)) ->
  (a_gen (m_opt a) = true -> forall n seed, (1 <= n <= m_ncalls a + Z.of_nat (length x0))%Z -> is_ok (w_generate W (a_dims (m_opt a)) n seed) = true) ->
  good_input (F64 L) (a_dims (m_opt a)) (m_x0 a) (m_y0 a) x0 -> (0 <= m_ncalls a)%Z -> (x0 = [] -> (0 < m_ncalls a)%Z) ->
  (m_y0 a = Y0None -> (Z.of_nat (length x0) <= m_ncalls a)%Z) ->
  numeric (F64 L) f (a_dims (m_opt a)) -> answers (callbacks_of a) -> match m_callback a with CBOther => False | _ => True end ->
  exists t o r, dummy_minimize (F64 L) G W f a g = (t, Some o, Ok (Some r)).
Proof. exact (@c31_F64). Qed.
Print Assumptions C31_dummy_succeeds_partial.
(** No model is ever fitted; the points that were not given are the generator's, in its order, or drawn at
    random ([drawn] in MinDummy.v). *)
Theorem C31_dummy_unfitted : forall N RNG M (O : numops N) (G : rng_ops N RNG) (W : world N M) f a g t o r,
  dummy_minimize O G W f a g = (t, Some o, Ok (Some r)) -> gen_ok O W (c_dims (o_cfg o)) (c_n0 (o_cfg o)) ->
  res_models r = [] /\
  exists x0, given (m_x0 a) x0 /\
    forall i p, nth_error (evals t) i = Some p ->
    match values_of (m_y0 a) with
    | None => length x0 <= i -> drawn O G o i p
    | Some _ => drawn O G o (length x0 + i) p
    end.
Proof. exact (@c31_unfitted). Qed.
Print Assumptions C31_dummy_unfitted.
Example C31_example : (good_input O0 dims2 pts0 Y0None [pb; pc] /\ numeric O0 fm dims2 /\ Forall (samplable L0) dims2 /\
    answers (callbacks_of (dummy_args true)) /\
    (forall n seed, (0 <= n)%Z -> is_ok (w_generate W0 dims2 n seed) = true)) /\
  forall gen, succeeds (dummy_minimize O0 G0 W0 fm (dummy_args gen) 7) = true /\
    length (evals (trace_of (dummy_minimize O0 G0 W0 fm (dummy_args gen) 7))) = 4.
Proof. exact (conj dummy_input dummy_runs). Qed.
(** One point instead of a list: its number of coordinates is taken for the number of points. *)
Theorem C31_one_point_refuted : given one0 [pa] /\ member O0 dims2 pa /\
  (forall n seed, (0 <= n)%Z -> is_ok (w_generate W0 dims2 n seed) = true) /\
  exists t o, dummy_minimize O0 G0 W0 fm (margs0 3 0 one0 Y0None CBNone) 7 = (t, o, Raise IndexError).
Proof. exact min_dummy_one. Qed.
Print Assumptions C31_one_point_refuted.
Theorem C31_many_dimensions_refuted : exists p, given (m_x0 wide_args) [p] /\ member O0 (a_dims (m_opt wide_args)) p /\
  exists t o, dummy_minimize O0 G0 W0 fm wide_args 7 = (t, o, Raise ValueError).
Proof. exact min_dummy_wide. Qed.
Print Assumptions C31_many_dimensions_refuted.

(** ** C63 *)
Theorem C63_result_in_space : forall N RNG M (O : numops N) (G : rng_ops N RNG) (W : world N M) m f a g t o r,
  minimize O G W m f a g = (t, Some o, Ok (Some r)) ->
  Forall (fun x => match x with X1 p => member O (res_space r) p | X2 _ => False end) (res_x_iters r).
Proof. exact (@c63). Qed.
Print Assumptions C63_result_in_space.
Theorem C63_result_is_best : forall N RNG M (O : numops N) (G : rng_ops N RNG) (W : world N M),
  order_laws O -> forall m f a g t o r,
  minimize O G W m f a g = (t, Some o, Ok (Some r)) -> no_nan O (res_func_vals r) -> best_first O r.
Proof. exact (@c63_best). Qed.
Print Assumptions C63_result_is_best.
