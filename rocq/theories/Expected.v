(** skopt/utils.py 203-298: expected_minimum and expected_minimum_random_sampling. [predict] is the last model of the
    result. *)
From Coq Require Import String List ZArith Bool.
From Verif Require Import Base Num Values Transformers Dimension Space Optimizer.
Import ListNotations.
Open Scope list_scope.
Set Implicit Arguments.

Section Expected.
  Context {N RNG : Type} (O : numops N) (G : rng_ops N RNG).
  Notation val := (pyval N).
  Variable predict : list (list val) -> res (list N).
  (** [x < np.inf] *)
  Variable below_inf : N -> bool.
  (** scipy.optimize.minimize(func, x0, bounds): the point found and its value. *)
  Variable sp_minimize : (list N -> res N) -> list val -> list (N * N) -> res (list N * N).

  (** expected_minimum_random_sampling, utils.py 258-298. [g]: the state of random_state. *)
  Definition expected_minimum_random_sampling (dims : list (dim N)) (n : nat) (g : RNG) : res (list val * N) :=
    P <- fst (space_rvs O G dims n g) ;;
    Xt <- space_transform O dims P ;;
    y <- predict Xt ;;
    x <- nth_of P (np_argmin O y) ;;
    v <- nth_of y (np_argmin O y) ;;
    Ok (x, v).

  (** is_partly_categorical, space.py 1109-1112 *)
  Definition is_partly_categorical (dims : list (dim N)) : bool := existsb (@is_cat N) dims.
  (** space.bounds, space.py 1019-1030, for dimensions that are not categorical. *)
  Definition space_bounds (dims : list (dim N)) : list (N * N) :=
    flat_map (fun d => match d with
                       | DReal r => [(r_low r, r_high r)] | DInt i => [(nofZ O (i_low i), nofZ O (i_high i))] | DCat _ => []
                       end) dims.
  (** func, utils.py 236-239 *)
  Definition surface (dims : list (dim N)) (x : list N) : res N :=
    Xt <- space_transform O dims [map (@VFloat N) x] ;;
    y <- predict Xt ;;
    match y with v :: _ => Ok v | [] => Raise IndexError end.
  (** The loop, utils.py 245-253. *)
  Fixpoint best_of (f : list N -> res N) (bounds : list (N * N)) (xs : list (list val)) (best : option (list N * N))
    : res (option (list N * N)) :=
    match xs with
    | [] => Ok best
    | x0 :: xs' =>
      r <- sp_minimize f x0 bounds ;;
      let better := match best with None => below_inf (snd r) | Some b => nltb O (snd r) (snd b) end in
      best_of f bounds xs' (if better then Some r else best)
    end.
  (** expected_minimum, utils.py 203-255; [x]: the best observed point. *)
  Definition expected_minimum (dims : list (dim N)) (x : list val) (n_random_starts : Z) (g : RNG) : res (list val * N) :=
    if is_partly_categorical dims then expected_minimum_random_sampling dims (Z.to_nat 100000) g
    else
      starts <- (if (0 <? n_random_starts)%Z then fst (space_rvs O G dims (Z.to_nat n_random_starts) g) else Ok []) ;;
      b <- best_of (surface dims) (space_bounds dims) (x :: starts) None ;;
      match b with
      | Some (x, v) => Ok (map (@VFloat N) x, v)
      | None => Raise TypeError          (* iterating over None *)
      end.
End Expected.
