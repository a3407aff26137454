(** Vocabulary for the plots (C58, C59). *)
From Coq Require Import String List ZArith Bool Reals.
From Verif Require Import Base Num Values Dimension Space Optimizer OptSpec CbSpec ForestSpec Plots.
Import ListNotations.
Open Scope list_scope.

Section Trace.
  Context {N RNG M : Type} (O : numops N).
  (** A result with as many points as values, at least one, none of them NaN. *)
  Definition complete (r : result N RNG M) : Prop :=
    length (res_x_iters r) = length (res_func_vals r) /\ res_func_vals r <> [] /\ no_nan O (res_func_vals r).
  (** [ys]: the least of the first 1, 2, .. n values. *)
  Definition running_least (n : nat) (vals ys : list N) : Prop :=
    length ys = n /\ forall i v, nth_error ys i = Some v -> least O (firstn (S i) vals) v.
  Definition all_in (P : result N RNG M -> Prop) (a : traced N RNG M) : Prop :=
    match a with TOne r => P r | TMany rs => rs <> [] /\ Forall P rs end.
  (** One result gives one line over 1 .. n; a list gives one line for each of its results, then their mean. *)
  Definition drawn (trace : nat -> list N -> list N -> Prop) (mean : list (list N) -> nat -> N -> Prop) (a : traced N RNG M) (ls : list (line (N:=N))) : Prop :=
    match a with
    | TOne r => let n := length (res_func_vals r) in
        exists ys, ls = [mkLine (seq 1 n) ys] /\ trace n (res_func_vals r) ys
    | TMany rs => exists n yss ms, (exists r, hd_error rs = Some r /\ n = length (res_func_vals r)) /\
        ls = map (mkLine (seq 1 n)) yss ++ [mkLine (seq 1 n) ms] /\
        Forall2 (fun r => trace n (res_func_vals r)) rs yss /\
        length ms = n /\ forall j v, nth_error ms j = Some v -> mean yss j v
    end.
End Trace.

(** In exact arithmetic. *)
Open Scope R_scope.
Definition is_mean (yss : list (list R)) (j : nat) (v : R) : Prop :=
  exists col, Forall2 (fun ys c => nth_error ys j = Some c) yss col /\ v = avg col.
Fixpoint regret (m : R) (l : list R) : R := match l with [] => 0 | v :: r => (v - m) + regret m r end.
Definition running_regret (m : R) (n : nat) (vals ys : list R) : Prop :=
  length ys = n /\ forall i v, nth_error ys i = Some v -> v = regret m (firstn (S i) vals).
