(** Averages and variances (C56). *)
From Coq Require Import List Reals.
From Verif Require Import Base Forest.
Import ListNotations.
Open Scope R_scope.

Definition avg (l : list R) : R := fold_right Rplus 0 l / INR (length l).
Definition variance (l : list R) : R := avg (map (fun y => (y - avg l) ^ 2) l).
(** The variance of the leaf of [x], at least [minvar]. *)
Definition leaf_var (minvar : R) (x : list R) (t : tree) : R := Rmax minvar (nth (t_apply t x) (t_impurity t) 0).
(** Every row falls into a node with a non-negative impurity. *)
Definition sound_tree (x : list R) (t : tree) : Prop :=
  exists v, nth_error (t_impurity t) (t_apply t x) = Some v /\ 0 <= v.
(** The observations [ys] are those of the leaf of [x]. *)
Definition leaf_of (x : list R) (t : tree) (ys : list R) : Prop :=
  ys <> [] /\ nth_error (t_impurity t) (t_apply t x) = Some (variance ys) /\ t_predict t x = avg ys.
(** What a forest of [trees] predicts: the mean of the trees, and the root of the mean leaf variance plus the variance of
    the tree means. *)
Definition trees_mean (trees : list tree) (x : list R) : R := avg (map (fun t => t_predict t x) trees).
Definition trees_std (minvar : R) (trees : list tree) (x : list R) : R :=
  sqrt (avg (map (leaf_var minvar x) trees) + variance (map (fun t => t_predict t x) trees)).
