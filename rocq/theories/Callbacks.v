(** skopt/callbacks.py: the stoppers (144-284), TimerCallback (116-141) and CheckpointSaver (287-319). A callback
    here is what Minimize.v calls one: it answers from all results it has been shown, newest last. *)
From Coq Require Import String List ZArith Bool.
From Verif Require Import Base Num Values Transformers Dimension Space Optimizer Minimize.
Import ListNotations.
Open Scope list_scope.
Set Implicit Arguments.

Section Numpy.
  Context {N : Type} (O : numops N).
  (** np.sort: NaN is last. Equal values may come in another order in numpy. *)
  Definition sort_le (a b : N) : bool := nisnan O b || nleb O a b.
  Fixpoint sort_insert (a : N) (l : list N) : list N :=
    match l with
    | [] => [a]
    | b :: l' => if sort_le a b then a :: l else b :: sort_insert a l'
    end.
  Definition np_sort (l : list N) : list N := fold_right sort_insert [] l.
  (** np.minimum and np.minimum.accumulate: NaN propagates. *)
  Definition np_minimum (a b : N) : N :=
    if nisnan O a then a else if nisnan O b then b else if nltb O b a then b else a.
  Fixpoint accumulate (acc : N) (l : list N) : list N :=
    match l with
    | [] => []
    | x :: l' => let m := np_minimum acc x in m :: accumulate m l'
    end.
  Definition cummin (l : list N) : list N := match l with [] => [] | x :: l' => x :: accumulate x l' end.
End Numpy.

Section Stoppers.
  Context {N RNG M : Type} (O : numops N).
  Notation result := (result N RNG M).
  Notation callback := (callback N RNG M).

  (** EarlyStopper.__call__ (144-176): the criterion is applied to the newest result. *)
  Definition early (criterion : result -> res (option bool)) : callback :=
    fun seen => match last (map Some seen) None with
                | Some r => criterion r
                | None => Raise NotModelled          (* never called without a result *)
                end.

  (** DeltaXStopper, 179-195. A batch stored as one entry has no modelled distance. *)
  Definition delta_x (delta : N) (r : result) : res (option bool) :=
    if (2 <=? Z.of_nat (length (res_x_iters r)))%Z then
      match py_index (res_x_iters r) (-2), py_index (res_x_iters r) (-1) with
      | Some (X1 a), Some (X1 b) =>
        d <- space_distance O (res_space r) a b ;; Ok (Some (nltb O d delta))
      | Some _, Some _ => Raise NotModelled
      | _, _ => Raise IndexError
      end
    else Ok None.

  (** DeltaYStopper, 198-219 *)
  Definition delta_y (delta : N) (n_best : Z) (r : result) : res (option bool) :=
    if (n_best <=? Z.of_nat (length (res_func_vals r)))%Z then
      let s := np_sort O (res_func_vals r) in
      match py_index s (n_best - 1), py_index s 0 with
      | Some worst, Some best => Ok (Some (nltb O (nsub O worst best) delta))
      | _, _ => Raise IndexError
      end
    else Ok None.

  (** HollowIterationsStopper, 222-238 *)
  Definition hollow (n : Z) (threshold : N) (r : result) : res (option bool) :=
    if (Z.of_nat (length (res_func_vals r)) <=? n)%Z then Ok (Some false)
    else
      let c := cummin O (res_func_vals r) in
      match py_index c (- n - 1), py_index c (-1) with
      | Some before, Some now => Ok (Some (nleb O (nsub O before now) (nabs O threshold)))
      | _, _ => Raise IndexError
      end.

  (** ThresholdStopper, 274-284 *)
  Definition threshold (t : N) (r : result) : res (option bool) :=
    Ok (Some (existsb (fun v => nleb O v t) (res_func_vals r))).

  (** TimerCallback, 116-141, and the clock of DeadlineStopper, 241-271: [clk k] is what the callback's k-th
      call of time() returns. It reads the clock once when made and twice at each step. *)
  Record timer := mkTimer { tm_last : N; tm_times : list N }.
  Definition timer_step (t1 t2 : N) (s : timer) : timer := mkTimer t2 (tm_times s ++ [nsub O t1 (tm_last s)]).
  Fixpoint timer_run (clk : nat -> N) (n : nat) : timer :=
    match n with
    | 0 => mkTimer (clk 0) []
    | S n' => timer_step (clk (2 * n' + 1)) (clk (2 * n' + 2)) (timer_run clk n')
    end.
  Definition iter_time (clk : nat -> N) (n : nat) : list N := tm_times (timer_run clk n).
  Definition timer_callback (clk : nat -> N) : callback := fun _ => Ok None.
  (** DeadlineStopper._criterion, 260-271 *)
  Definition deadline (total : N) (clk : nat -> N) : callback :=
    fun seen => early (fun r =>
      match res_x_iters r with
      | [] => Ok None
      | _ =>
        let times := iter_time clk (length seen) in
        m <- np_max O times ;;
        Ok (Some (nleb O (nsub O total (np_sum O times)) m))
      end) seen.
End Stoppers.

(** CheckpointSaver, 287-319, through dump (utils.py 105-148, objective stored) and joblib.dump, which opens
    the file for writing, so that it is empty, and writes the serialised result in order. [ser] is the
    serialisation; pickling errors and options (compression) are not modelled. *)
Section Checkpoint.
  Context {N RNG M B : Type} (ser : result N RNG M -> list B).
  Definition disk := option (list B).          (* None: no such file *)
  Definition saver : callback N RNG M := fun _ => Ok None.
  (** The contents of the file while it is written. *)
  Definition write_states (new : list B) : list disk := map (fun k => Some (firstn k new)) (seq 0 (S (length new))).
  (** The contents of the file at all moments of a run in which the saver is the i-th callback. *)
  Fixpoint disks (i : nat) (d : disk) (t : list (event N RNG M)) : list disk :=
    match t with
    | [] => [d]
    | EEval _ :: t' => d :: disks i d t'
    | ECall j r :: t' =>
      if Nat.eqb i j then (d :: write_states (ser r)) ++ disks i (Some (ser r)) t' else d :: disks i d t'
    end.
  (** The contents of the file between two events. *)
  Fixpoint disk_after (i : nat) (d : disk) (t : list (event N RNG M)) : disk :=
    match t with
    | [] => d
    | EEval _ :: t' => disk_after i d t'
    | ECall j r :: t' => disk_after i (if Nat.eqb i j then Some (ser r) else d) t'
    end.
End Checkpoint.
