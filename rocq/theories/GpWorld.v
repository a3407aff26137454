(** The optimizer with a Gaussian process regressor of gpr.py as base_estimator (optimizer.py 250-254 and 530-565), over
    the reals: what the surrogate oracles of Optimizer.v are then. *)
From Coq Require Import String List ZArith Bool Reals.
From Verif Require Import Base Num Values Dimension Space Optimizer Acquisition Kernels Gpr GprAcq.
Import ListNotations.
Open Scope list_scope.
Set Implicit Arguments.

(** A row of the warped space as an array of floats; a string is refused by check_array. *)
Definition num_row (r : list (pyval R)) : res (list R) :=
  mapM (fun v => match to_num Rops v with Some x => Ok x | None => Raise ValueError end) r.
(** The observations as one column, or as the columns of values and log times. *)
Fixpoint plain_col (l : list (yval R)) : option (list R) :=
  match l with
  | [] => Some []
  | YS y :: l' => option_map (cons y) (plain_col l')
  | YP _ _ :: _ => None
  end.
Fixpoint timed_cols (l : list (yval R)) : option (list R * list R) :=
  match l with
  | [] => Some ([], [])
  | YP y t :: l' => option_map (fun c => (y :: fst c, t :: snd c)) (timed_cols l')
  | YS _ :: _ => None
  end.

(** A fitted surrogate: the regressor, or the MultiOutputRegressor with its two regressors (253-254). *)
Inductive surrogate := One (e : gpr) | Two (e time : gpr).

(** The names handed to _gaussian_acquisition, 556-565 *)
Definition acq_string (a : acq1) : string :=
  (match a with EI => "EI" | LCB => "LCB" | PI => "PI" | EIps => "EIps" | PIps => "PIps" end)%string.

Section GpWorld.
  (** sklearn's hyper-parameter search, scipy's Cholesky routines and scipy.stats.norm, as in Gpr.v and Acquisition.v *)
  Context (tune : kernel -> mat -> vec -> kernel) (linv : mat -> option mat) (solve : mat -> vec -> vec) (cdf pdf : R -> R).
  (** base_estimator and acq_func_kwargs *)
  Context (e0 : gpr) (xi : option R) (kappa : option (@kappa_arg R)).
  (** np.argsort, fmin_l_bfgs_b, the initial point generator, log(sys.float_info.max) *)
  Context (argsort : list R -> list nat)
          (lbfgs : acq1 -> surrogate -> R -> list (R * R) -> list (pyval R) -> res (list (pyval R) * R))
          (generate : list (dim R) -> Z -> Z -> res (list (point R))) (logmax : R).

  (** est = clone(base_estimator_); est.fit(X, yi), 531-535 *)
  Definition gp_fit (X : list (list (pyval R))) (y : list (yval R)) : res surrogate :=
    X' <- mapM num_row X ;;
    match plain_col y, timed_cols y with
    | Some v, _ => e <- Gpr.fit tune linv solve e0 X' v ;; Ok (One e)
    | None, Some (v, t) =>
      e <- Gpr.fit tune linv solve e0 X' v ;; e' <- Gpr.fit tune linv solve e0 X' t ;; Ok (Two e e')
    | None, None => Raise ValueError
    end.
  (** est.predict(X), 538-539; with two outputs it is never called. *)
  Definition gp_predict (m : surrogate) (X : list (list (pyval R))) : res (list R) :=
    match m with
    | Two _ _ => Raise NotModelled
    | One e => X' <- mapM num_row X ;; a <- Gpr.predict e X' false false false false ;; Ok (a_mean a)
    end.
  (** _gaussian_acquisition(X, est, np.min(yi), acq_func, acq_func_kwargs), 557-560 *)
  Definition gp_acq (a : acq1) (m : surrogate) (yopt : R) (X : list (list (pyval R))) : res (list R) :=
    X' <- mapM num_row X ;;
    let mo := match m with
              | One e => Single (gp_predictor e false)
              | Two e t => Multi (gp_predictor e false) (gp_predictor t false)
              end in
    out <- gaussian_acquisition Rops cdf pdf X' mo (Some yopt) (acq_string a) xi kappa false ;;
    Ok (fst out).

  Definition gp_world : world R surrogate := {|
    w_fit := gp_fit; w_predict := gp_predict; w_acq := gp_acq; w_argsort := argsort; w_lbfgs := lbfgs;
    w_generate := generate; w_logmax := logmax |}.
End GpWorld.
