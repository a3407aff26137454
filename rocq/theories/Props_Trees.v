(** C56, C57: the tree based regressors. *)
From Coq Require Import String List ZArith Bool Reals.
From Verif Require Import Base Num Forest ForestSpec ForestLemmas Gbrt GbrtLemmas.
Import ListNotations.
Open Scope R_scope.

(** The deviation of a forest: mean leaf variance (at least min_variance) plus variance of the tree means. *)
Theorem C56_total_variance : forall f X ans, forest_predict f X true = Ok ans -> (forall x, In x X -> Forall (sound_tree x) (f_trees f)) ->
  exists means stds, ans = (means, Some stds) /\ means = map (fun x => avg (map (fun t => t_predict t x) (f_trees f))) X /\
    Forall2 (fun x s =>
      s = sqrt (avg (map (leaf_var (f_minvar f) x) (f_trees f)) + variance (map (fun t => t_predict t x) (f_trees f))) /\
      0 <= s /\ sqrt (f_minvar f) <= s /\
      sqrt (avg (map (leaf_var (f_minvar f) x) (f_trees f))) <= s /\ sqrt (variance (map (fun t => t_predict t x) (f_trees f))) <= s) X stds.
Proof. exact c56. Qed.
Print Assumptions C56_total_variance.
Theorem C56_total : forall f X, f_criterion f = "mse"%string -> f_trees f <> [] -> (forall x, In x X -> Forall (sound_tree x) (f_trees f)) ->
  exists ans, forest_predict f X true = Ok ans.
Proof. exact c56_total. Qed.
Print Assumptions C56_total.
(** It is the variance of an observation of a random tree's leaf. *)
Theorem C56_mixture : forall f x m s leaves, forest_predict f [x] true = Ok ([m], Some [s]) -> f_minvar f <= 0 ->
  Forall2 (leaf_of x) (f_trees f) leaves ->
  m = avg (map avg leaves) /\ s ^ 2 = avg (map (fun ys => avg (map (fun y => (y - m) ^ 2) ys)) leaves).
Proof. exact c56_mixture. Qed.
Print Assumptions C56_mixture.
Example C56_case : forest_predict forest2 [[5]] true = Ok ([2], Some [sqrt (3 / 2)]) /\ Forall2 (leaf_of [5]) (f_trees forest2) [[0; 2]; [3]].
Proof. exact (conj forest2_predict forest2_leaves). Qed.

(** The deviation is half the distance of the 0.16 and 0.84 quantile models, fitted on the same data from the same random
    state; it is non-negative where these do not cross. Missing: they may cross. *)
Theorem C57_std_partial : forall RNG D (gb_fit : R -> RNG -> D -> list (list R) -> res (list R)) e rng data e' X ans,
  gbrt_fit gb_fit e rng data = Ok e' -> gbrt_predict Rops e' X true false = Ok ans ->
  exists p16 p50 p84 s, gb_fit (16 / 100) rng data X = Ok p16 /\ gb_fit (/ 2) rng data X = Ok p50 /\ gb_fit (84 / 100) rng data X = Ok p84 /\
    ans = GStd p50 s /\ length s = length p16 /\ length s = length p84 /\
    forall k l h sk, nth_error p16 k = Some l -> nth_error p84 k = Some h -> nth_error s k = Some sk -> sk = (h - l) / 2 /\ (l <= h -> 0 <= sk).
Proof. exact @c57. Qed.
Print Assumptions C57_std_partial.
(** It is available exactly when the three quantiles were asked for, and the mean is then that of a plain predict. *)
Theorem C57_total : forall RNG D (gb_fit : R -> RNG -> D -> list (list R) -> res (list R)) e rng data e' X n,
  gbrt_fit gb_fit e rng data = Ok e' -> (forall q, In q (q_quantiles e) -> exists p, gb_fit q rng data X = Ok p /\ length p = n) ->
  (In (16 / 100) (q_quantiles e) -> In (/ 2) (q_quantiles e) -> In (84 / 100) (q_quantiles e) ->
    exists m s, gbrt_predict Rops e' X true false = Ok (GStd m s) /\ gbrt_predict Rops e' X false false = Ok (GMean m)) /\
  (~ (In (16 / 100) (q_quantiles e) /\ In (/ 2) (q_quantiles e) /\ In (84 / 100) (q_quantiles e)) ->
    gbrt_predict Rops e' X true false = Raise ValueError).
Proof. exact @c57_total. Qed.
Print Assumptions C57_total.
(** Quantile models that cross give a negative deviation. *)
Theorem C57_negative_refuted : gbrt_fit crossing three tt tt = Ok (three_fit crossing) /\
  exists s, gbrt_predict Rops (three_fit crossing) [[0]] true false = Ok (GStd [- / 2] [s]) /\ s < 0.
Proof. exact crossing_refuted. Qed.
Print Assumptions C57_negative_refuted.
(** Mean plus and minus deviation need not cover the quantile predictions, even when these are ordered. *)
Theorem C57_cover_refuted : exists s, gbrt_fit skewed three tt tt = Ok (three_fit skewed) /\
  gbrt_predict Rops (three_fit skewed) [[0]] true false = Ok (GStd [0] [s]) /\
  skewed (16 / 100) tt tt [[0]] = Ok [0] /\ skewed (84 / 100) tt tt [[0]] = Ok [4] /\ 0 + s < 4.
Proof. exact cover_refuted. Qed.
Print Assumptions C57_cover_refuted.
