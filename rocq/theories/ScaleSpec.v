(** Measuring parameters in other units. *)
From Coq Require Import String List ZArith Bool Reals.
From Verif Require Import Base Num Values Dimension Space Optimizer OptSpec.
Import ListNotations.
Open Scope R_scope.
Open Scope list_scope.
Set Implicit Arguments.

(** The value of a parameter in the other unit; what is no number stays as it is. *)
Definition measured (h : R -> R) (v : pyval R) : pyval R := match to_num Rops v with Some x => VFloat (h x) | None => v end.
Definition moved (low high : R) (r : real_dim R) : dim R := DReal (mkReal low high (r_prior r) (r_base r) (r_kind r) (r_name r) (r_dtype r)).
(** A dimension, the same in another unit, and how values are converted. Uniform reals may be stretched and shifted,
    log-uniform ones stretched; other dimensions stay as they are. *)
Inductive rescaled : dim R -> dim R -> (pyval R -> pyval R) -> Prop :=
| rs_same d : rescaled d d (fun v => v)
| rs_linear s t r : 0 < s -> r_prior r = PUniform -> r_low r < r_high r ->
    rescaled (DReal r) (moved (s * r_low r + t) (s * r_high r + t) r) (measured (fun x => s * x + t))
| rs_log s r : 0 < s -> r_prior r = PLogUniform -> 0 < r_low r < r_high r -> 1 < r_base r ->
    rescaled (DReal r) (moved (s * r_low r) (s * r_high r) r) (measured (fun x => s * x)).
Inductive Forall3 {A B C} (P : A -> B -> C -> Prop) : list A -> list B -> list C -> Prop :=
| F3_nil : Forall3 P [] [] []
| F3_cons a b c la lb lc : P a b c -> Forall3 P la lb lc -> Forall3 P (a :: la) (b :: lb) (c :: lc).
Definition spaces : list (dim R) -> list (dim R) -> list (pyval R -> pyval R) -> Prop := Forall3 rescaled.
(** A dimension whose unit changes is normalised. *)
Definition normal (d d' : dim R) (f : pyval R -> pyval R) : Prop := (d' = d /\ f = fun v => v) \/ dim_kind d = KNormalize.

(** A value whose unit changes lies in its dimension. *)
Definition kept (d d' : dim R) (f : pyval R -> pyval R) (v : pyval R) : Prop := (d' = d /\ f = fun v => v) \/ contains Rops d v = Ok true.
Fixpoint keptp (ds ds' : list (dim R)) (fs : list (pyval R -> pyval R)) (p : point R) : Prop :=
  match ds, ds', fs, p with d :: ds, d' :: ds', f :: fs, v :: p => kept d d' f v /\ keptp ds ds' fs p | _, _, _, _ => True end.

Section Convert.
  Context {RNG M : Type} (G : rng_ops R RNG) (fs : list (pyval R -> pyval R)).
  Fixpoint conv_from (fs : list (pyval R -> pyval R)) (p : point R) : point R :=
    match fs, p with f :: fs', v :: p' => f v :: conv_from fs' p' | _, _ => p end.
  Definition conv (p : point R) : point R := conv_from fs p.
  Definition conv_x (x : xarg R) : xarg R := match x with X1 p => X1 (conv p) | X2 ps => X2 (map conv ps) end.
  Inductive same_call : call R -> call R -> Prop :=
  | sc_ask n s : same_call (CAsk n s) (CAsk n s)
  | sc_tell x y fit : same_call (CTell x y fit) (CTell (conv_x x) y fit)
  | sc_run f f' n : (forall k p, f' k (conv p) = f k p) -> same_call (CRun f n) (CRun f' n)
  | sc_result : same_call CResult CResult
  | sc_update : same_call CUpdate CUpdate.
  Definition conv_asked (q : asked R) : asked R := match q with A1pt p => A1pt (conv p) | Apts ps => Apts (map conv ps) end.
  (** The same observations at the converted points, in the other space *)
  Definition conv_result (ds' : list (dim R)) (r : result R RNG M) : result R RNG M :=
    mkResult (conv_x (res_x r)) (res_fun r) (res_func_vals r) (map conv_x (res_x_iters r)) (res_models r) (res_log_time r) ds' (res_rng r).
  Definition conv_answer (ds' : list (dim R)) (q : @answer R RNG M) : @answer R RNG M :=
    match q with RAsked q => RAsked (conv_asked q) | RResult r => RResult (conv_result ds' r) | RNone => RNone end.

  (** The same external components, but for the generator of initial points. *)
  Definition with_gen (W : world R M) (gen : list (dim R) -> Z -> Z -> res (list (point R))) : world R M :=
    {| w_fit := w_fit W; w_predict := w_predict W; w_acq := w_acq W; w_argsort := w_argsort W; w_lbfgs := w_lbfgs W; w_generate := gen; w_logmax := w_logmax W |}.
  (** It returns points in the bounds, and the same ones in the other unit. *)
  Definition gen_alike (W : world R M) gen : Prop := forall ds ds' n seed, spaces ds ds' fs ->
    gen ds' n seed = rmap (map conv) (w_generate W ds n seed) /\ forall l, w_generate W ds n seed = Ok l -> Forall (keptp ds ds' fs) l.
  Definition with_dims (ds : list (dim R)) (a : oargs R) : oargs R :=
    mkArgs ds (a_est a) (a_est_str a) (a_n0 a) (a_gen a) (a_acq a) (a_acqopt a) (a_queue a) (a_npoints a) (a_restarts a) (a_eta a).

  (** Two optimizers made from the same arguments but for the units, and called in the same way *)
  Inductive pair_of (W : world R M) gen : opt R RNG M -> opt R RNG M -> Prop :=
  | po_make a ds' g g1 o g1' o' : spaces (a_dims a) ds' fs -> make_optimizer Rops G W a g = (g1, Ok o) ->
      make_optimizer Rops G (with_gen W gen) (with_dims ds' a) g = (g1', Ok o') ->
      Forall3 normal (c_dims (o_cfg o)) (c_dims (o_cfg o')) fs -> pair_of W gen o o'
  | po_call c c' o o' : pair_of W gen o o' -> same_call c c' ->
      pair_of W gen (fst (do_call Rops G W c o)) (fst (do_call Rops G (with_gen W gen) c' o'))
  | po_copy o o' g g1 o1 g1' o1' : pair_of W gen o o' -> copy Rops G W o g = (g1, Ok o1) ->
      copy Rops G (with_gen W gen) o' g = (g1', Ok o1') -> pair_of W gen o1 o1'
  | po_rng g o o' : pair_of W gen o o' -> pair_of W gen (set_rng g o) (set_rng g o').
End Convert.
