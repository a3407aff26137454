(** Python-level basics shared by all models: exceptions as values, sequences,
    Python indexing, insertion-ordered dictionaries. *)
From Coq Require Import String List ZArith Bool Lia.
Import ListNotations.
Open Scope list_scope.
Set Implicit Arguments.

(** The exception classes the modelled code raises.  [NotModelled] marks inputs on which
    the Python code does something this model does not describe; no theorem claims
    anything useful about it. *)
Inductive exn :=
| ValueError | TypeError | RuntimeError | IndexError | KeyError | AssertionError
| MemoryError | LinAlgError | ZeroDivisionError | UnboundLocalError | AttributeError | NotImplementedError
| StopIteration | NotModelled.

Inductive res (A : Type) := Ok (a : A) | Raise (e : exn).
Arguments Ok {A} a.
Arguments Raise {A} e.

Definition bind {A B} (r : res A) (f : A -> res B) : res B :=
  match r with Ok a => f a | Raise e => Raise e end.

Definition rmap {A B} (f : A -> B) (r : res A) : res B :=
  match r with Ok a => Ok (f a) | Raise e => Raise e end.

Declare Scope res_scope.
Notation "x <- e ;; k" := (bind e (fun x => k))
  (at level 61, e at next level, right associativity) : res_scope.
Open Scope res_scope.

(** [[f(x) for x in l]] where [f] may raise: the first exception wins. *)
Fixpoint mapM {A B} (f : A -> res B) (l : list A) : res (list B) :=
  match l with
  | [] => Ok []
  | x :: xs => y <- f x ;; ys <- mapM f xs ;; Ok (y :: ys)
  end.

(** [all([f(x) for x in l])] where [f] may raise. *)
Definition allM {A} (f : A -> res bool) (l : list A) : res bool :=
  rmap (forallb (fun b => b)) (mapM f l).

(** Python list indexing [l[i]] with negative indices. *)
Definition py_index {A} (l : list A) (i : Z) : option A :=
  let n := Z.of_nat (length l) in
  if (0 <=? i)%Z then nth_error l (Z.to_nat i)
  else if (0 <=? n + i)%Z then nth_error l (Z.to_nat (n + i))
  else None.

(** Python [l[-k:]] for [k >= 0]; note that [l[-0:]] is the whole list. *)
Definition py_last {A} (l : list A) (k : nat) : list A :=
  match k with O => l | _ => skipn (length l - k) l end.

(** Insertion-ordered Python dict as association list: assigning to an existing key keeps the
    key object and its position and replaces the value. *)
Section Dict.
  Context {K V : Type} (eqb : K -> K -> bool).
  Fixpoint dict_get (d : list (K * V)) (k : K) : option V :=
    match d with
    | [] => None
    | (k', v) :: d' => if eqb k' k then Some v else dict_get d' k
    end.
  Fixpoint dict_set (d : list (K * V)) (k : K) (v : V) : list (K * V) :=
    match d with
    | [] => [(k, v)]
    | (k', v') :: d' => if eqb k' k then (k', v) :: d' else (k', v') :: dict_set d' k v
    end.
  Definition dict_of (l : list (K * V)) : list (K * V) :=
    fold_left (fun d kv => dict_set d (fst kv) (snd kv)) l [].
End Dict.

(** [enumerate(l)] *)
Fixpoint enumerate_from {A} (i : nat) (l : list A) : list (nat * A) :=
  match l with [] => [] | x :: xs => (i, x) :: enumerate_from (S i) xs end.
Definition enumerate {A} (l : list A) := enumerate_from 0 l.

Definition is_ok {A} (r : res A) : bool := match r with Ok _ => true | _ => false end.
