(** Properties of named points (C40, C41) and of BayesSearchCV (C38, C39). The vocabulary is in SearchSpec.v. *)
From Coq Require Import String List ZArith Bool Permutation Sorted.
From Flocq Require Import IEEE754.BinarySingleNaN.
From Verif Require Import Base Num Values Dimension Space Optimizer NumLaws SpaceSpec Samples SpaceProps2 OptSpec OptSamples
  Minimize Named Search SearchSpec NamedLemmas SearchLemmas SearchSamples.
Import ListNotations.
Open Scope list_scope.

(** ** C38 *)
(** Without a callback asking to stop, each space gets exactly its number of iterations, n_points at a time. *)
Theorem C38_batches : forall N RNG M (O : numops N) (G : rng_ops N RNG) (W : world N M) neg s scorer cbs g os log rs,
  all_dicts (given_spaces (s_spaces s)) -> never_stops cbs ->
  search_fit O G W neg s scorer cbs g = Ok (os, log, rs) ->
  exists parts, log = concat parts /\
    Forall2 (fun e part => batched (s_npoints s) (budget (s_niter s) e) (map (@length _) part))
            (given_spaces (s_spaces s)) parts.
Proof. exact (@c38_batches). Qed.
Print Assumptions C38_batches.
(** With any callbacks: never more, and no batch is empty or larger than n_points. *)
Theorem C38_bounded : forall N RNG M (O : numops N) (G : rng_ops N RNG) (W : world N M) neg s scorer cbs g os log rs,
  all_dicts (given_spaces (s_spaces s)) ->
  search_fit O G W neg s scorer cbs g = Ok (os, log, rs) ->
  exists parts, log = concat parts /\
    Forall2 (fun e part => Z.of_nat (length (concat part)) <= Z.max 0 (budget (s_niter s) e) /\
      Forall (fun b => 1 <= Z.of_nat (length b) <= s_npoints s) part)%Z (given_spaces (s_spaces s)) parts.
Proof. exact (@c38_bounded). Qed.
Print Assumptions C38_bounded.
(** For a list of spaces, total_iterations is the number of candidates. *)
Theorem C38_total_partial : forall N RNG M (O : numops N) (G : rng_ops N RNG) (W : world N M) neg scorer s l cbs g os log rs,
  s_spaces s = SList l -> (0 <= s_niter s)%Z -> all_dicts l -> never_stops cbs ->
  search_fit O G W neg s scorer cbs g = Ok (os, log, rs) ->
  Z.of_nat (length (concat log)) = total_iterations s.
Proof. exact (@c38_total). Qed.
Print Assumptions C38_total_partial.
Example C38_example : is_ok (fit0 two_spaces 3 2 []) = true /\ sizes (fit0 two_spaces 3 2 []) = [2; 2; 1; 2; 1] /\
  total_iterations (search0 two_spaces 3 2) = 8%Z /\ all_dicts (given_spaces two_spaces) /\ @never_stops float nat nat [].
Proof. exact C38_sample. Qed.
Example C38_stop_example : sizes (fit0 two_spaces 3 2 [stop_now]) = [2; 2].
Proof. exact C38_stop_sample. Qed.
(** For a single dict it is not: total_iterations counts n_iter once for each name in the dict. *)
Theorem C38_total_refuted : exists N RNG M (O : numops N) (G : rng_ops N RNG) (W : world N M) neg s scorer g os log rs,
  search_fit O G W neg s scorer [] g = Ok (os, log, rs) /\ all_dicts (given_spaces (s_spaces s)) /\
  Z.of_nat (length (concat log)) <> total_iterations s.
Proof. exact c38_dict_refuted. Qed.
Print Assumptions C38_total_refuted.
(** A first space with no iterations, which the constructor accepts, makes every fit raise. *)
Theorem C38_zero_iterations : forall N RNG M (O : numops N) (G : rng_ops N RNG) (W : world N M) neg s scorer cbs g e l g' os,
  given_spaces (s_spaces s) = e :: l -> check_search_space (s_spaces s) = Ok tt ->
  make_all O G W (s_kwargs s) (e :: l) g = (g', Ok os) ->
  (budget (s_niter s) e <= 0)%Z -> search_fit O G W neg s scorer cbs g = Raise UnboundLocalError.
Proof. exact (@c38_unbound). Qed.
Print Assumptions C38_zero_iterations.
Example C38_zero_example : failed UnboundLocalError (fit0 (SList [EPair spA 0; EDict spB]) 3 2 []) = true /\
  check_search_space (SList [EPair spA 0; EDict spB]) = Ok tt.
Proof. exact c38_zero. Qed.
(** A later one is reported with the result of the space before: 3 evaluations where its optimizer has none. *)
Example C38_stale_example : stale (fit0 (SList [EDict spB; EPair spA 0]) 3 2 []) = [(3, 3); (0, 3)].
Proof. exact c38_stale. Qed.

(** ** C39 *)
(** The optimizers know exactly the evaluated candidates, each with minus the score computed for it. *)
Theorem C39_own_scores : forall N RNG M (O : numops N) (G : rng_ops N RNG) (W : world N M) neg s scorer cbs g os log rs,
  all_dicts (given_spaces (s_spaces s)) ->
  search_fit O G W neg s scorer cbs g = Ok (os, log, rs) ->
  accounted neg (given_spaces (s_spaces s)) os rs (concat log) /\
  forall k c v, nth_error (concat log) k = Some (c, v) -> scorer k c = Ok v.
Proof. exact (@c39_rows). Qed.
Print Assumptions C39_own_scores.
Example C39_example : told_values (fit0 two_spaces 3 2 []) =
    [view_y (YS (Bopp (fofZ 0))) :: map score_view [1; 2; 3; 4]; map score_view [5; 6; 7]]%Z /\
  first_names (fit0 two_spaces 3 2 []) =
    [["depth"; "rate"]; ["depth"; "rate"]; ["depth"; "rate"]; ["alpha"]; ["alpha"]]%string.
Proof. exact C39_sample. Qed.

(** ** C40 *)
Theorem C40_roundtrip : forall D V (sp : list (string * D)) (x : list V), is_dict sp -> length x = length sp ->
  point_aslist sp (point_asdict sp x) = Ok x.
Proof. exact (@c40_roundtrip). Qed.
Print Assumptions C40_roundtrip.
(** The i-th coordinate and the i-th dimension go under the i-th name in alphabetical order. *)
Theorem C40_names : forall D V (sp : list (string * D)) ds (x : list V) ks i k d v,
  is_dict sp -> length x = length sp -> ordered_names sp ks -> dimensions_aslist sp = Ok ds ->
  nth_error ks i = Some k -> nth_error ds i = Some d -> nth_error x i = Some v ->
  holds sp k d /\ holds (point_asdict sp x) k v.
Proof. exact (@c40_coordinate). Qed.
Print Assumptions C40_names.
Theorem C40_dimensions : forall D (sp : list (string * D)) ks, is_dict sp -> ordered_names sp ks ->
  exists ds, dimensions_aslist sp = Ok ds /\ Forall2 (fun k d => In (k, d) sp) ks ds.
Proof. exact (@c40_dims). Qed.
Print Assumptions C40_dimensions.
(** From a dict to a list and back. *)
Theorem C40_back : forall D V (sp : list (string * D)) (d : list (string * V)) x, is_dict sp -> is_dict d ->
  point_aslist sp d = Ok x ->
  length x = length sp /\ forall k v, In k (map fst sp) -> holds (point_asdict sp x) k v <-> holds d k v.
Proof. exact (@c40_back). Qed.
Print Assumptions C40_back.
Theorem C40_missing : forall D V (sp : list (string * D)) (d : list (string * V)) k, In k (map fst sp) -> ~ In k (map fst d) ->
  point_aslist sp d = Raise KeyError.
Proof. exact (@c40_missing). Qed.
Print Assumptions C40_missing.
Theorem C40_any_order : forall D V (sp sp' : list (string * D)) (x : list V), is_dict sp -> Permutation sp sp' ->
  point_asdict sp x = point_asdict sp' x /\ dimensions_aslist sp = dimensions_aslist sp'.
Proof. exact (@c40_order). Qed.
Print Assumptions C40_any_order.
Example C40_example : is_dict spC /\ point_asdict spC [10; 20; 30] = [("alpha", 10); ("depth", 20); ("rate", 30)]%string /\
  dimensions_aslist spC = Ok [3; 2; 1] /\ point_aslist spC [("depth", 5); ("rate", 6); ("alpha", 7)]%string = Ok [7; 5; 6].
Proof. exact C40_sample. Qed.

(** ** C41 *)
Theorem C41_keywords_partial : forall V Y (func : list (string * V) -> res Y) names x, NoDup names -> length x = length names ->
  exists w, use_named_args (map (fun n => NDim (Some n)) names) func = Ok w /\ w x = func (combine names x).
Proof. exact (@c41_call). Qed.
Print Assumptions C41_keywords_partial.
Theorem C41_length : forall V Y (func : list (string * V) -> res Y) ds w x, use_named_args ds func = Ok w ->
  length x <> length ds -> w x = Raise ValueError.
Proof. exact (@c41_length). Qed.
Print Assumptions C41_length.
Theorem C41_unnamed : forall V Y (func : list (string * V) -> res Y) ds,
  use_named_args ds func = Raise ValueError <-> exists d, In d ds /\ forall n, d <> NDim (Some n).
Proof. exact (@c41_reject). Qed.
Print Assumptions C41_unnamed.
Example C41_example : apply_named [NDim (Some "foo"); NDim (Some "bar")]%string [1; 2] = Ok [("foo", 1); ("bar", 2)]%string /\
  apply_named [NDim (Some "foo"); NDim (Some "bar")]%string [1] = Raise ValueError /\
  use_named_args [NDim (Some "foo"); NDim None]%string echo = Raise ValueError.
Proof. exact C41_sample. Qed.
(** Two dimensions of the same name are accepted and one coordinate is lost. *)
Theorem C41_same_name_refuted : exists (V Y : Type) (func : list (string * V) -> res Y) names x w,
  use_named_args (map (fun n => NDim (Some n)) names) func = Ok w /\ length x = length names /\
  w x <> func (combine names x).
Proof. exact c41_dup_refuted. Qed.
Print Assumptions C41_same_name_refuted.
