(** Measuring the objective in another unit. *)
From Coq Require Import String List ZArith Bool Reals.
From Verif Require Import Base Num Values Dimension Space Optimizer OptSpec.
Import ListNotations.
Open Scope R_scope.
Open Scope list_scope.
Set Implicit Arguments.

Section UnitSpec.
  Context {RNG M : Type} (G : rng_ops R RNG) (W W' : world R M).
  (** [v] is [a * v + b] in the other unit. *)
  Context (a b : R).
  Fixpoint in_unit (y : yarg R) : yarg R :=
    match y with YNum v => YNum (a * v + b) | YLst l => YLst (map in_unit l) | YOther => YOther end.
  Definition call_in_unit (c : call R) : call R :=
    match c with
    | CTell x y fit => CTell x (in_unit y) fit
    | CRun f n => CRun (fun k p => rmap in_unit (f k p)) n
    | c => c
    end.

  (** The same points in the same order with the converted values, and as many models. *)
  Definition same_result (r r' : result R RNG M) : Prop :=
    res_x r' = res_x r /\ res_fun r' = a * res_fun r + b /\ res_func_vals r' = map (fun v => a * v + b) (res_func_vals r) /\
    res_x_iters r' = res_x_iters r /\ length (res_models r') = length (res_models r) /\ res_log_time r = None /\ res_log_time r' = None /\
    res_space r' = res_space r /\ res_rng r' = res_rng r.
  (** The same suggestions, the same exceptions. *)
  Inductive same_answer : res (@answer R RNG M) -> res (@answer R RNG M) -> Prop :=
  | sa_asked q : same_answer (Ok (RAsked q)) (Ok (RAsked q))
  | sa_result r r' : same_result r r' -> same_answer (Ok (RResult r)) (Ok (RResult r'))
  | sa_none : same_answer (Ok RNone) (Ok RNone)
  | sa_raise e : same_answer (Raise e) (Raise e).

  (** A batch is lied about with the value 0, whatever the unit, as long as nothing has been observed. This matters
      only once the initial points are used up. *)
  Definition settled (o : opt R RNG M) (c : call R) : Prop :=
    match c with
    | CAsk (NPInt n) _ => b = 0 \/ (o_Xi o <> [] /\ o_yi o <> []) \/ (o_Xi o = [] /\ n < c_n0 (o_cfg o))%Z
    | _ => True
    end.

  (** Two optimizers made from the same arguments and called in the same way, one of them in the other unit *)
  Inductive twins (acq : acq1) : opt R RNG M -> opt R RNG M -> Prop :=
  | tw_make args g g1 o g1' o' : make_optimizer Rops G W args g = (g1, Ok o) -> make_optimizer Rops G W' args g = (g1', Ok o') ->
      c_acq (o_cfg o) = AOne acq -> c_lbfgs (o_cfg o) = false -> twins acq o o'
  | tw_call c o o' : twins acq o o' -> settled o c -> twins acq (fst (do_call Rops G W c o)) (fst (do_call Rops G W' (call_in_unit c) o'))
  | tw_copy o o' g g1 o1 g1' o1' : twins acq o o' -> copy Rops G W o g = (g1, Ok o1) -> copy Rops G W' o' g = (g1', Ok o1') -> twins acq o1 o1'
  | tw_rng g o o' : twins acq o o' -> twins acq (set_rng g o) (set_rng g o').

  (** The surrogates of the two are fitted to the same data in the two units, and the acquisition function puts the
      candidates in the same order. *)
  Record unit_free (alike : M -> M -> Prop) (acq : acq1) : Prop := {
    uf_fit : forall X ys, match w_fit W X (map (@YS R) ys), w_fit W' X (map (fun v => YS (a * v + b)) ys) with
                          | Ok m, Ok m' => alike m m' | Raise e, Raise e' => e = e' | _, _ => False end;
    uf_acq : forall m m' y X, alike m m' -> exists h, (forall u v, u < v -> h u < h v) /\
               w_acq W' acq m' (a * y + b) X = rmap (map h) (w_acq W acq m y X);
    uf_gen : forall d n s, w_generate W' d n s = w_generate W d n s }.
End UnitSpec.
