(** The optimizer with one of the tree based regressors of skopt/learning (forest.py, gbrt.py) as base_estimator
    (optimizer.py 250-254 and 530-565), over the reals: what the surrogate oracles of Optimizer.v are then. *)
From Coq Require Import String List ZArith Bool Reals.
From Verif Require Import Base Num Values Dimension Space Optimizer Acquisition Forest Gbrt GpWorld.
Import ListNotations.
Open Scope list_scope.
Set Implicit Arguments.

(** A regressor: fit(X, y), predict(X, return_std=True), predict(X) *)
Record regressor (E : Type) := mkRegressor {
  g_fit : list (list R) -> list R -> res E;
  g_std : E -> list (list R) -> res (list R * list R);
  g_mean : E -> list (list R) -> res (list R) }.

(** A forest; [grow]: the trees scikit-learn fits with the forest's settings and random state, an integer, so that
    every fit starts afresh. *)
Definition forest_reg (grow : list (list R) -> list R -> list tree) (criterion : string) (minvar : R) : regressor forest := {|
  g_fit := fun X y => Ok (mkForest (grow X y) criterion minvar);
  g_std := fun f X => a <- forest_predict f X true ;; match a with (m, Some s) => Ok (m, s) | (_, None) => Raise ValueError end;
  g_mean := fun f X => a <- forest_predict f X false ;; Ok (fst a) |}.

(** Boosted quantile regressors; clone copies the random state [rng] at every fit. *)
Definition gbrt_reg {RNG} (gb_fit : R -> RNG -> list (list R) * list R -> list (list R) -> res (list R)) (e0 : gbrt (N := R)) (rng : RNG) : regressor (gbrt (N := R)) := {|
  g_fit := fun X y => gbrt_fit gb_fit e0 rng (X, y);
  g_std := fun e X => a <- gbrt_predict Rops e X true false ;; match a with GStd m s => Ok (m, s) | _ => Raise ValueError end;
  g_mean := fun e X => a <- gbrt_predict Rops e X false false ;; match a with GMean m => Ok m | _ => Raise ValueError end |}.

(** A fitted surrogate: the regressor, or the MultiOutputRegressor with its two regressors (253-254). *)
Inductive tsurrogate (E : Type) := TOne (e : E) | TTwo (e time : E).
Arguments TOne {E} e.
Arguments TTwo {E} e time.

Section TreeWorld.
  Context {E : Type} (K : regressor E) (cdf pdf : R -> R) (xi : option R) (kappa : option (@kappa_arg R)).
  Context (argsort : list R -> list nat)
          (generate : list (dim R) -> Z -> Z -> res (list (point R))) (logmax : R).

  (** est = clone(base_estimator_); est.fit(X, yi), 531-535 *)
  Definition tree_fit (X : list (list (pyval R))) (y : list (yval R)) : res (tsurrogate E) :=
    X' <- mapM num_row X ;;
    match plain_col y, timed_cols y with
    | Some v, _ => e <- g_fit K X' v ;; Ok (TOne e)
    | None, Some (v, t) => e <- g_fit K X' v ;; e' <- g_fit K X' t ;; Ok (TTwo e e')
    | None, None => Raise ValueError
    end.
  (** est.predict(X), 538-539; with two outputs it is never called. *)
  Definition tree_predict (m : tsurrogate E) (X : list (list (pyval R))) : res (list R) :=
    match m with
    | TTwo _ _ => Raise NotModelled
    | TOne e => X' <- mapM num_row X ;; g_mean K e X'
    end.
  (** model.predict(X, return_std=True) in acquisition.py; there are no gradients. *)
  Definition reg_predictor (e : E) : @predictor R := fun X => a <- g_std K e X ;; Ok (mkPred true (fst a) (snd a) [] []).
  (** _gaussian_acquisition(X, est, np.min(yi), acq_func, acq_func_kwargs), 557-560 *)
  Definition tree_acq (a : acq1) (m : tsurrogate E) (yopt : R) (X : list (list (pyval R))) : res (list R) :=
    X' <- mapM num_row X ;;
    let mo := match m with
              | TOne e => Single (reg_predictor e)
              | TTwo e t => Multi (reg_predictor e) (reg_predictor t)
              end in
    out <- gaussian_acquisition Rops cdf pdf X' mo (Some yopt) (acq_string a) xi kappa false ;;
    Ok (fst out).

  (** fmin_l_bfgs_b calls gaussian_acquisition_1D, which asks predict for gradients by keywords it does not have
      (574-582 and acquisition.py 130-137, 196-204, 279-287). *)
  Definition tree_lbfgs (_ : acq1) (_ : tsurrogate E) (_ : R) (_ : list (R * R)) (_ : list (pyval R)) : res (list (pyval R) * R) :=
    Raise TypeError.

  Definition tree_world : world R (tsurrogate E) := {|
    w_fit := tree_fit; w_predict := tree_predict; w_acq := tree_acq; w_argsort := argsort; w_lbfgs := tree_lbfgs;
    w_generate := generate; w_logmax := logmax |}.
End TreeWorld.
