(** Campaigns: what a user may rely on to succeed (C83), over the reals. *)
From Coq Require Import String List ZArith Bool Reals.
From Verif Require Import Base Num Values Transformers Dimension Space Optimizer SpaceSpec OptSpec.
Import ListNotations.
Open Scope list_scope.
Set Implicit Arguments.

(** Dimensions with sensible bounds ([boundedR] in SpaceSpec.v) and one weight per category. *)
Definition workable (d : dim R) : Prop :=
  boundedR d /\ match d with
                | DCat c => match c_prior c with None => True | Some p => length p = length (c_cats c) end
                | _ => True
                end.

(** Most estimators need nothing of the observations. *)
Definition anything (_ : list (yval R)) : Prop := True.
(** Some need two different values, and two different times if there are times. *)
Definition varied (ps : bool) (ys : list (yval R)) : Prop :=
  (exists a b, In a ys /\ In b ys /\ y_obj a <> y_obj b) /\
  (ps = true -> exists v t v' t', In (YP v t) ys /\ In (YP v' t') ys /\ t <> t').

Section Campaign.
  (** [need]: what the estimator needs of the observations to be fitted to them. *)
  Context {RNG M : Type} (G : rng_ops R RNG) (W : world R M) (need : list (yval R) -> Prop).
  Notation state := (opt R RNG M).

  (** Warped points as the estimator sees them: at least one row, each within the declared bounds. *)
  Definition proper_rows (dims : list (dim R)) (X : list (list (pyval R))) : Prop :=
    X <> [] /\ Forall (within (O := Rops) (space_tbounds Rops dims)) X.
  (** An observation is a value, or with a per-second acquisition a value and a time. *)
  Definition proper_obs (ps : bool) (v : yval R) : Prop :=
    match v with YS _ => ps = false | YP _ _ => ps = true end.

  (** The components handed to the optimizer do their job: the estimator can be fitted to any observations, unless
      these are not as it needs them, and then evaluated, the acquisition function has a value everywhere, the minimizer of the acquisition, where it is used
      ([lb]), stays within its bounds, the generator of initial points returns as many points of the space as asked for. *)
  Definition dependable (dims : list (dim R)) (acq : acqf) (lb : bool) : Prop :=
    (exists fitted : M -> Prop,
      (forall X ys, proper_rows dims X -> length X = length ys -> Forall (proper_obs (is_ps acq)) ys ->
         match w_fit W X ys with Ok m => fitted m | Raise _ => ~ need ys end) /\
      (forall m X, fitted m -> proper_rows dims X -> acq = AHedge -> exists v, w_predict W m X = Ok v /\ length v = length X) /\
      (forall m X a yopt, fitted m -> proper_rows dims X -> In a (cand_acqs acq) ->
         exists v, w_acq W a m yopt X = Ok v /\ length v = length X) /\
      (lb = true -> forall m a yopt r, fitted m -> In a (cand_acqs acq) -> within (O := Rops) (space_tbounds Rops dims) r ->
         exists r' v, w_lbfgs W a m yopt (space_tbounds Rops dims) r = Ok (r', v) /\
                      within (O := Rops) (space_tbounds Rops dims) r')) /\
    argsort_ok Rops W /\
    (forall n seed, (0 <= n)%Z -> exists l, w_generate W dims n seed = Ok l /\ length l = Z.to_nat n /\
                                            Forall (in_space Rops dims) l).

  (** Settings that make sense; without a surrogate only random initial points do. *)
  Definition sensible (c : cfg R) : Prop :=
    c_dims c <> [] /\ Forall workable (c_dims c) /\ c_npoints c <> 0 /\ c_restarts c <> 0 /\
    match c_queue c with None => True | Some q => (0 < q)%Z end /\ (c_est c = None -> c_gen c = false) /\
    dependable (c_dims c) (c_acq c) (c_lbfgs c).

  (** There is something to suggest from: the initial design is not used up, there is no surrogate, or it has been
      fitted. *)
  Definition open (o : state) : Prop := (0 < o_left o)%Z \/ c_est (o_cfg o) = None \/ o_models o <> [].

  (** Calls made as documented: points of the space with values of the right kind, one for each point of a batch. *)
  Inductive fine (o : state) : call R -> Prop :=
  | fine_ask s : open o -> fine o (CAsk NPNone s)
  | fine_ask_n n s : open o -> (0 < n)%Z -> In s ["cl_min"; "cl_mean"; "cl_max"]%string -> fine o (CAsk (NPInt n) s)
  | fine_tell p y fit : in_space Rops (c_dims (o_cfg o)) p -> valid_y1 Rops (ps_of o) y -> fine o (CTell (X1 p) y fit)
  | fine_tells ps ys fit : ps <> [] -> length ps = length ys -> Forall (in_space Rops (c_dims (o_cfg o))) ps ->
      Forall (valid_y1 Rops (ps_of o)) ys -> fine o (CTell (X2 ps) (YLst ys) fit)
  | fine_run f n : n <> 0 -> open o ->
      (forall k p, in_space Rops (c_dims (o_cfg o)) p -> exists y, f k p = Ok y /\ valid_y1 Rops (ps_of o) y) ->
      fine o (CRun f n)
  | fine_result : o_yi o <> [] -> fine o CResult
  | fine_update : fine o CUpdate.

  (** Such a call is answered as documented: a point, as many points as asked for, or a result. *)
  Definition answered (o : state) (c : call R) (a : @answer R RNG M) : Prop :=
    match c, a with
    | CAsk NPNone _, RAsked (A1pt p) => in_space Rops (c_dims (o_cfg o)) p
    | CAsk (NPInt n) _, RAsked (Apts X) => length X = Z.to_nat n /\ Forall (in_space Rops (c_dims (o_cfg o))) X
    | (CTell _ _ _ | CRun _ _ | CResult), RResult _ => True
    | CUpdate, RNone => True
    | _, _ => False
    end.

  (** The estimator is a Gaussian process, for which all dimensions are scaled to [0, 1]. *)
  Definition scales (a : oargs R) : Prop := match a_est a with Some e => ed_gp e = true | None => False end.

  (** Optimizers that arise from such calls alone. *)
  Inductive campaign : state -> Prop :=
  | camp_make a g g' o : make_optimizer Rops G W a g = (g', Ok o) -> sensible (o_cfg o) -> campaign o
  | camp_call c o o' a : campaign o -> fine o c -> do_call Rops G W c o = (o', Ok a) -> campaign o'
  | camp_copy o g g' o' : campaign o -> copy Rops G W o g = (g', Ok o') -> campaign o'
  | camp_rng g o : campaign o -> campaign (set_rng g o).
End Campaign.
