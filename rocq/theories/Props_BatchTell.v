(** C96: telling several observations at once and one after the other. *)
From Coq Require Import String List ZArith Bool.
From Verif Require Import Base Num Values Dimension Space Optimizer Samples SpaceProps SpaceProps2 OptSpec OptSamples BatchSpec BatchTell BatchSamples.
Import ListNotations.
Open Scope list_scope.

(** tell(points, values) leaves the optimizer exactly where telling the observations one after the other does, all but the
    last with fit=False, and answers what the last of these calls answers. *)
Theorem C96_batch : forall N RNG M (O : numops N) (G : rng_ops N RNG) (W : world N M) pts ys fit o, pts <> [] ->
  length (o_Xi o) = length (o_yi o) -> Forall2 (fun p y => member O (c_dims (o_cfg o)) p /\ valid_y1 O (ps_of o) y) pts ys ->
  tell O G W (X2 pts) (YLst ys) fit o = one_by_one O G W pts ys fit o.
Proof. exact (fun N RNG M O G W => @c96_batch N RNG M O G W). Qed.
Print Assumptions C96_batch.
Example C96_batch_case : length (o_Xi opt0) = length (o_yi opt0) /\
  Forall2 (fun p y => member O0 (c_dims (o_cfg opt0)) p /\ valid_y1 O0 (ps_of opt0) y) [pa; pb; pc] [num 3; num 1; num 2] /\
  is_ok (snd told3) = true /\ length (o_models (fst told3)) = 1.
Proof. exact batch_case. Qed.

(** If any of the observations is not acceptable none of them is recorded. *)
Theorem C96_refused : forall N RNG M (O : numops N) (G : rng_ops N RNG) (W : world N M) pts ys fit o, length pts = length ys ->
  ~ Forall2 (fun p y => member O (c_dims (o_cfg o)) p /\ valid_y1 O (ps_of o) y) pts ys ->
  exists e, tell O G W (X2 pts) (YLst ys) fit o = (o, Raise e).
Proof. exact (fun N RNG M O G W => @c96_refused N RNG M O G W). Qed.
Print Assumptions C96_refused.
Example C96_refused_case : ~ Forall2 (fun p y => member O0 (c_dims (o_cfg opt0)) p /\ valid_y1 O0 (ps_of opt0) y) [pa; pb] [num 3; YLst [num 1]].
Proof. exact refused_case. Qed.

(** Whatever was fitted in between: the same observations are recorded in the same order, as much of the initial design is
    left, and the results agree about the best point and all observations. *)
Theorem C96_history : forall N RNG M (O : numops N) (G : rng_ops N RNG) (W : world N M) l o o1 o2 r fit, told_singly O G W l o o1 -> l <> [] ->
  tell O G W (X2 (map (fun q => fst (fst q)) l)) (YLst (map (fun q => snd (fst q)) l)) fit o = (o2, Ok r) ->
  o_Xi o2 = o_Xi o1 /\ o_yi o2 = o_yi o1 /\ o_left o2 = o_left o1 /\
  forall s1 s2, get_result O o1 = (o1, Ok s1) -> get_result O o2 = (o2, Ok s2) ->
    res_x s2 = res_x s1 /\ res_fun s2 = res_fun s1 /\ res_x_iters s2 = res_x_iters s1 /\ res_func_vals s2 = res_func_vals s1.
Proof. exact (fun N RNG M O G W l o o1 o2 r => @c96_history N RNG M O G W l o o1 r o2). Qed.
Print Assumptions C96_history.
Example C96_history_case : exists o1, told_singly O0 G0 W0 [(pa, num 3, true); (pb, num 1, true); (pc, num 2, true)] opt0 o1 /\ length (o_models o1) = 2 /\
  is_ok (snd told3) = true /\ length (o_models (fst told3)) = 1.
Proof. exact singly_case. Qed.
