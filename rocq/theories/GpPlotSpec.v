(** Vocabulary of C75: what a plot of a surrogate shows. *)
From Coq Require Import String List ZArith Bool Reals.
From Verif Require Import Base Num Values Transformers Dimension Space Optimizer Minimize GpPlot.
Import ListNotations.
Open Scope list_scope.
Set Implicit Arguments.

(** [m] is the model asked for: the last one if [calls] is negative. *)
Definition model_of {N RNG M} (r : result N RNG M) (calls : Z) (m : M) : Prop :=
  if (calls <? 0)%Z then exists ms, res_models r = ms ++ [m] else nth_error (res_models r) (Z.to_nat calls) = Some m.
(** A polygon around a curve: at each x it reaches from [1.96 * w] below the curve to [1.96 * w] above it. *)
Definition around (b : banded R) (x : list (pyval R)) (y w : list R) : Prop :=
  exists l : list (pyval R * R * R),
    x = map (fun t => fst (fst t)) l /\ y = map (fun t => snd (fst t)) l /\ w = map snd l /\
    bd_line b = mkPath x y /\
    combine (pt_x (bd_band b)) (pt_y (bd_band b)) =
      map (fun t => (fst (fst t), snd (fst t) - 1.96 * snd t)%R) l ++ rev (map (fun t => (fst (fst t), snd (fst t) + 1.96 * snd t)%R) l) /\
    length (pt_x (bd_band b)) = length (pt_y (bd_band b)).
(** The number of observations before the first model, as far as the plot knows: the n_random_starts of the run or else the number of
    observations less that of models. *)
Definition before {N RNG M KW} (r : result N RNG M) (s : specs KW) : Z :=
  match sp_random s with Some n => n | None => (Z.of_nat (length (res_x_iters r)) - Z.of_nat (length (res_models r)))%Z end.
(** The model [m] and the observations [cx], [cy] that are shown. *)
Definition subject {N RNG M KW} (r : result N RNG M) (s : specs KW) (calls : Z) (m : M) (cx : list (xarg N)) (cy : list N) : Prop :=
  model_of r calls m /\
  if (calls <? 0)%Z then cx = res_x_iters r /\ cy = res_func_vals r
  else cx = firstn (Z.to_nat (before r s + calls)) (res_x_iters r) /\ cy = firstn (Z.to_nat (before r s + calls)) (res_func_vals r).
