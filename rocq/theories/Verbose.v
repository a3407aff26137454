(** What verbose=True prints: VerboseCallback (skopt/callbacks.py 38-113), as base_minimize makes it (base.py 267-272).
    A line is kept as the numbers and words that make it up; the rounding to four digits of "%0.4f" is not modelled. *)
From Coq Require Import String List ZArith Bool.
From Verif Require Import Base Num Values Transformers Dimension Space Optimizer Minimize.
Import ListNotations.
Open Scope list_scope.
Set Implicit Arguments.

(** "... at provided point.", "... at random point.", "Searching for (Search finished for) the next optimal point." *)
Inductive kind := Provided | Random | Search.
Inductive line (N : Type) :=
| Status (iteration : Z) (started : bool) (k : kind)   (* "Iteration No: %d started. ..." or "... ended. ..." *)
| TimeTaken (t : N)
| Value (y : N)                                        (* "Function value obtained" *)
| Minimum (y : N).                                     (* "Current minimum" *)
Arguments Status {N} iteration started k.
(** What happens on the screen and in between *)
Inductive shown (N : Type) := Line (l : line N) | Evaluated (p : point N).

Section Verbose.
  Context {N RNG M : Type} (O : numops N) (clk : nat -> N).     (* the clock: what the k-th call of time() returns *)
  Context (n_init n_random n_total : Z).
  Record vstate := mkV { v_iter : Z; v_start : N; v_reads : nat }.
  (** _print_info, 70-92 *)
  Definition print_info (iter : Z) (started : bool) : line N :=
    Status iter started
      (if (iter <=? n_init)%Z then Provided
       else if (n_init <? iter)%Z && (iter <=? n_random + n_init)%Z then Random
       else Search).
  (** __init__, 60-68 *)
  Definition verbose_init : vstate * list (line N) := (mkV 1 (clk 0) 1, [print_info 1 true]).
  (** __call__, 94-113 *)
  Definition verbose_call (s : vstate) (r : result N RNG M) : res (vstate * list (line N)) :=
    let time_taken := nsub O (clk (v_reads s)) (v_start s) in
    match py_index (res_func_vals r) (-1) with
    | None => Raise IndexError
    | Some curr_y =>
      let out := [print_info (v_iter s) false; TimeTaken time_taken; Value curr_y; Minimum (res_fun r)] in
      let iter := (v_iter s + 1)%Z in
      if (iter <=? n_total)%Z
      then Ok (mkV iter (clk (S (v_reads s))) (S (S (v_reads s))), out ++ [print_info iter true])
      else Ok (mkV iter (v_start s) (S (v_reads s)), out)
    end.
  (** What the [i]-th callback prints in the course of some events *)
  Fixpoint printed (i : nat) (s : vstate) (t : list (event N RNG M)) : res (list (shown N)) :=
    match t with
    | [] => Ok []
    | EEval p :: t' => rest <- printed i s t' ;; Ok (Evaluated p :: rest)
    | ECall j r :: t' =>
      if Nat.eqb i j then sl <- verbose_call s r ;; rest <- printed i (fst sl) t' ;; Ok (map (@Line N) (snd sl) ++ rest)
      else printed i s t'
    end.
  Definition screen (i : nat) (t : list (event N RNG M)) : res (list (shown N)) :=
    rest <- printed i (fst verbose_init) t ;; Ok (map (@Line N) (snd verbose_init) ++ rest).
End Verbose.

(** base.py 267-272: the numbers handed over. [n_initial_points] has been raised by the number of given points (248). The
    callback is the last one. *)
Definition verbose_screen {N RNG M} (O : numops N) (clk : nat -> N) (n_callbacks : nat) (n_initial_points n_calls : Z)
  (x0 : list (point N)) (y0 : y0arg N) (t : list (event N RNG M)) : res (list (shown N)) :=
  let len := Z.of_nat (length x0) in
  screen O clk (if y0_falsy (y0_list y0) then len else 0%Z) (n_initial_points + len) n_calls (n_callbacks - 1) t.
