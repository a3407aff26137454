(** Telling the same observations in another order. *)
From Coq Require Import String List ZArith Bool Reals Permutation.
From Verif Require Import Base Num Values Dimension Space Optimizer SpaceSpec OptSpec CampaignSpec.
From Verif Require Gpr GpWorld.
Import ListNotations.
Open Scope list_scope.
Set Implicit Arguments.

Section OrderSpec.
  Context {RNG M : Type} (G : rng_ops R RNG) (W : world R M) (need : list (yval R) -> Prop).
  Notation state := (opt R RNG M).

  (** The same call, except that a batch may be told in another order. *)
  Inductive reordered_call : call R -> call R -> Prop :=
  | rc_same c : reordered_call c c
  | rc_batch ps ys ps' ys' fit : length ps = length ys -> length ps' = length ys' -> Permutation (combine ps ys) (combine ps' ys') ->
      reordered_call (CTell (X2 ps) (YLst ys) fit) (CTell (X2 ps') (YLst ys') fit).

  (** Before a surrogate has been fitted: optimizers that differ in the order of their observations only *)
  Definition reordered (o o' : state) : Prop :=
    o_cfg o' = o_cfg o /\ o_left o' = o_left o /\ o_init o' = o_init o /\ o_models o = [] /\ o_models o' = [] /\
    length (o_Xi o) = length (o_yi o) /\ length (o_Xi o') = length (o_yi o') /\ Permutation (combine (o_Xi o) (o_yi o)) (combine (o_Xi o') (o_yi o')) /\
    o_cache o' = o_cache o /\ o_next o' = o_next o /\ o_next_xs o' = o_next_xs o /\ o_gains o' = o_gains o /\ o_rng o' = o_rng o.

  (** Two optimizers called in the same way but for the order of the observations *)
  Inductive shuffled : state -> state -> Prop :=
  | sh_start o o' : campaign G W need o -> campaign G W need o' -> reordered o o' -> shuffled o o'
  | sh_call c c' o o' o1 o1' a a' : shuffled o o' -> fine o c -> fine o' c' -> reordered_call c c' ->
      do_call Rops G W c o = (o1, Ok a) -> do_call Rops G W c' o' = (o1', Ok a') -> shuffled o1 o1'.

  (** The same suggestions; the same observations in some order and the same least value *)
  Definition same_but_order (r r' : result R RNG M) : Prop :=
    res_fun r' = res_fun r /\ Permutation (combine (res_x_iters r) (res_func_vals r)) (combine (res_x_iters r') (res_func_vals r')) /\
    length (res_models r') = length (res_models r) /\ res_space r' = res_space r /\ res_rng r' = res_rng r.
  Inductive same_reply : @answer R RNG M -> @answer R RNG M -> Prop :=
  | sr_asked q : same_reply (RAsked q) (RAsked q)
  | sr_result r r' : same_but_order r r' -> same_reply (RResult r) (RResult r')
  | sr_none : same_reply RNone RNone.

  (** A surrogate for which the order of the rows does not matter *)
  Record order_free (dims : list (dim R)) (alike : M -> M -> Prop) : Prop := {
    of_fit : forall X y X' y' m m', Forall (within (O := Rops) (space_tbounds Rops dims)) X -> length X = length y -> length X' = length y' -> Permutation (combine X y) (combine X' y') ->
               w_fit W X y = Ok m -> w_fit W X' y' = Ok m' -> alike m m';
    of_predict : forall m m' X v v', alike m m' -> w_predict W m X = Ok v -> w_predict W m' X = Ok v' -> v = v';
    of_acq : forall a m m' y X v v', alike m m' -> w_acq W a m y X = Ok v -> w_acq W a m' y X = Ok v' -> v = v';
    of_lbfgs : forall a m m' y b r v v', alike m m' -> w_lbfgs W a m y b r = Ok v -> w_lbfgs W a m' y b r = Ok v' -> v = v' }.
End OrderSpec.

(** Fitted Gaussian processes that make the same predictions *)
Definition same_gp (e e' : Gpr.gpr) : Prop := forall X rs rc mg sg ans, Gpr.predict e X rs rc mg sg = Ok ans <-> Gpr.predict e' X rs rc mg sg = Ok ans.
Definition same_surrogate (m m' : GpWorld.surrogate) : Prop :=
  match m, m' with
  | GpWorld.One e, GpWorld.One e' => same_gp e e'
  | GpWorld.Two e t, GpWorld.Two e' t' => same_gp e e' /\ same_gp t t'
  | _, _ => False
  end.
