(** skopt/learning/forest.py: RandomForestRegressor and ExtraTreesRegressor (predict), exact arithmetic.
    The trees, their fitting and the mean over the trees are scikit-learn's. *)
From Coq Require Import String List Reals.
From Verif Require Import Base.
Import ListNotations.
Open Scope R_scope.

(** What is read of a fitted tree: the leaf of a row, the impurity of each node, the predicted value. *)
Record tree := mkTree { t_apply : list R -> nat; t_impurity : list R; t_predict : list R -> R }.

(** forest.py 38-45: [impurity[apply(X)]], values below [min_variance] raised to it. *)
Definition var_tree (minvar : R) (t : tree) (x : list R) : res R :=
  match nth_error (t_impurity t) (t_apply t x) with
  | Some v => Ok (if Rlt_dec v minvar then minvar else v)
  | None => Raise IndexError
  end.
(** forest.py 34-48: the sum over the trees of [var_tree + mean_tree ** 2], for one row. *)
Fixpoint second_moment (minvar : R) (trees : list tree) (x : list R) : res R :=
  match trees with
  | [] => Ok 0
  | t :: ts => v <- var_tree minvar t x ;; s <- second_moment minvar ts x ;; Ok (v + (t_predict t x) ^ 2 + s)
  end.
(** _return_std, forest.py 6-52, row by row. Without trees numpy divides by zero and returns nan: not modelled. *)
Definition return_std1 (trees : list tree) (minvar : R) (x : list R) (mean : R) : res R :=
  match trees with
  | [] => Raise NotModelled
  | _ =>
    s <- second_moment minvar trees x ;;
    let v := s / INR (length trees) - mean ^ 2 in
    Ok (sqrt (if Rlt_dec v 0 then 0 else v))
  end.
Fixpoint return_std (trees : list tree) (minvar : R) (X : list (list R)) (means : list R) : res (list R) :=
  match X, means with
  | [], [] => Ok []
  | x :: X', m :: ms => s <- return_std1 trees minvar x m ;; r <- return_std trees minvar X' ms ;; Ok (s :: r)
  | _, _ => Raise ValueError
  end.

(** scikit-learn's forest prediction: the mean of the trees' predictions. *)
Definition forest_mean (trees : list tree) (x : list R) : R :=
  fold_right Rplus 0 (map (fun t => t_predict t x) trees) / INR (length trees).

(** A fitted forest. *)
Record forest := mkForest { f_trees : list tree; f_criterion : string; f_minvar : R }.
(** predict, forest.py 217-248 and 413-443 *)
Definition forest_predict (f : forest) (X : list (list R)) (std : bool) : res (list R * option (list R)) :=
  let mean := map (forest_mean (f_trees f)) X in
  if std then
    if String.eqb (f_criterion f) "mse" then
      s <- return_std (f_trees f) (f_minvar f) X mean ;; Ok (mean, Some s)
    else Raise ValueError
  else Ok (mean, None).
