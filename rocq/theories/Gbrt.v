(** skopt/learning/gbrt.py: GradientBoostingQuantileRegressor. The boosted regressors are scikit-learn's: [gb_fit] is
    the prediction function that fitting with the quantile [alpha] and the state [rng] gives. *)
From Coq Require Import String List ZArith Bool.
From Verif Require Import Base Num.
Import ListNotations.

(** The base_estimator argument: None, a GradientBoostingRegressor with its loss, something else. *)
Inductive gb_base := GBNone | GBRegressor (loss : string) | GBOther.

Section Gbrt.
  Context {N RNG D : Type} (O : numops N).
  Notation row := (list N).
  Variable gb_fit : N -> RNG -> D -> list row -> res (list N).

  (** Constructor arguments and [regressors_] (None before fit). *)
  Record gbrt := mkGbrt { q_quantiles : list N; q_base : gb_base; q_regs : option (list (list row -> res (list N))) }.

  (** fit, gbrt.py 48-88. [rng]: the state [check_random_state(self.random_state)] gives; clone copies it, so every
      regressor starts from it. The number of jobs has no effect on the result. *)
  Definition gbrt_fit (e : gbrt) (rng : RNG) (data : D) : res gbrt :=
    let go := Ok (mkGbrt (q_quantiles e) (q_base e) (Some (map (fun q => gb_fit q rng data) (q_quantiles e)))) in
    match q_base e with
    | GBNone => go
    | GBRegressor loss => if String.eqb loss "quantile" then go else Raise ValueError
    | GBOther => Raise ValueError
    end.

  (** 0.16, 0.5, 0.84 *)
  Definition q16 : N := ndiv O (nofZ O 16) (nofZ O 100).
  Definition q50 : N := nhalf O.
  Definition q84 : N := ndiv O (nofZ O 84) (nofZ O 100).

  (** [list.index]: ValueError if absent. *)
  Fixpoint index (q : N) (l : list N) : res nat :=
    match l with
    | [] => Raise ValueError
    | a :: l' => if neqb O a q then Ok 0 else i <- index q l' ;; Ok (S i)
    end.
  Definition reg (e : gbrt) (q : N) : res (list row -> res (list N)) :=
    match q_regs e with
    | None => Raise AttributeError
    | Some rs => i <- index q (q_quantiles e) ;; match nth_error rs i with Some r => Ok r | None => Raise IndexError end
    end.

  Fixpoint half_range (high low : list N) : res (list N) :=
    match high, low with
    | [], [] => Ok []
    | h :: hs, l :: ls => r <- half_range hs ls ;; Ok (ndiv O (nsub O h l) (nofZ O 2) :: r)
    | _, _ => Raise ValueError
    end.

  Inductive gb_answer := GMean (m : list N) | GStd (m s : list N) | GQuantiles (q : list (list N)).

  (** predict, gbrt.py 90-123. [quantiles] is a list (an array has no method index). The quantile array is
      returned by quantile, before the transposition. *)
  Definition gbrt_predict (e : gbrt) (X : list row) (std quantiles : bool) : res gb_answer :=
    match q_regs e with
    | None => Raise AttributeError
    | Some rs =>
      all <- mapM (fun r => r X) rs ;;
      if quantiles then Ok (GQuantiles all)
      else if std then
        if forallb (fun q => existsb (fun a => neqb O a q) (q_quantiles e)) [q16; q50; q84] then
          rl <- reg e q16 ;; low <- rl X ;;
          rh <- reg e q84 ;; high <- rh X ;;
          rm <- reg e q50 ;; mean <- rm X ;;
          s <- half_range high low ;; Ok (GStd mean s)
        else Raise ValueError
      else r <- reg e q50 ;; mean <- r X ;; Ok (GMean mean)
    end.
End Gbrt.
