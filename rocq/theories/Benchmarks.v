(** Model of /repo/skopt/benchmarks.py over the exact reals.  Points are
    lists; indexing past the end raises IndexError, as [x[0]] does. *)
From Coq Require Import String List Reals.
From Verif Require Import Base.
Import ListNotations.
Open Scope R_scope.

(** [x[k]] of a python list with a non-negative k. *)
Definition item {A : Type} (x : list A) (k : nat) : res A :=
  match nth_error x k with
  | Some a => Ok a
  | None => Raise IndexError
  end.

(** benchmarks.py:7-14. *)
Definition bench1 (x : list R) : res R :=
  a <- item x 0;; Ok (a ^ 2).

(** benchmarks.py:17-19. *)
Definition bench1_with_time (x : list R) : res (R * R) :=
  a <- item x 0;; Ok (a ^ 2, 222 / 100).

(** benchmarks.py:22-33. *)
Definition bench2 (x : list R) : res R :=
  a <- item x 0;;
  if Rlt_dec a 0 then Ok (a ^ 2) else Ok ((a - 5) ^ 2 - 5).

(** benchmarks.py:36-43; [np.sin] and [np.tanh] are the real functions. *)
Definition bench3 (x : list R) : res R :=
  a <- item x 0;; Ok (sin (5 * a) * (1 - tanh (a ^ 2))).

(** benchmarks.py:46-54; [num] is python's [float] on the values of the
    dimension, an exception where the value is no number. *)
Definition bench4 {A : Type} (num : A -> res R) (x : list A) : res R :=
  a <- item x 0;;
  v <- num a;; Ok (v ^ 2).

(** benchmarks.py:57-66; the second coordinate is used as it is. *)
Definition bench5 {A : Type} (num : A -> res R) (x : A * R) : res R :=
  v <- num (fst x);; Ok (v ^ 2 + snd x ^ 2).

(** benchmarks.py:69-80 with all parameters. *)
Definition branin_with (a b c r s t : R) (x : list R) : res R :=
  u <- item x 1;;
  v <- item x 0;;
  Ok (a * (u - b * v ^ 2 + c * v - r) ^ 2 + s * (1 - t) * cos v + s).

(** benchmarks.py:69-70: the default parameters. *)
Definition branin : list R -> res R :=
  branin_with 1 (51 / 10 / (4 * PI ^ 2)) (5 / PI) 6 10 (1 / (8 * PI)).

(** benchmarks.py:83-92: the tables. *)
Definition hart_alpha : list R := [1; 12 / 10; 3; 32 / 10].
Definition hart_P : list (list R) :=
  [ [1312; 1696; 5569; 124; 8283; 5886];
    [2329; 4135; 8307; 3736; 1004; 9991];
    [2348; 1451; 3522; 2883; 3047; 6650];
    [4047; 8828; 8732; 5743; 1091; 381] ].
Definition hart_A : list (list R) :=
  [ [10; 3; 17; 35 / 10; 17 / 10; 8];
    [5 / 100; 10; 17; 1 / 10; 8; 14];
    [3; 35 / 10; 17 / 10; 10; 17; 8];
    [17; 8; 5 / 100; 10; 1 / 10; 14] ].

Fixpoint sum (l : list R) : R :=
  match l with
  | [] => 0
  | a :: r => a + sum r
  end.

(** [np.sum(A * (np.array(x) - P) ** 2, axis=1)]: one row (benchmarks.py:100). *)
Fixpoint hart_row (A P x : list R) : R :=
  match A, P, x with
  | a :: A', p :: P', v :: x' => a * (v - p / 10 ^ 4) ^ 2 + hart_row A' P' x'
  | _, _, _ => 0
  end.

Fixpoint hart_terms (alpha : list R) (A P : list (list R)) (x : list R) : list R :=
  match alpha, A, P with
  | al :: alpha', a :: A', p :: P' =>
      al * exp (- hart_row a p x) :: hart_terms alpha' A' P' x
  | _, _, _ => []
  end.

(** benchmarks.py:83-100.  numpy broadcasting a point of other than six
    coordinates against the tables raises ValueError, except for one single
    coordinate, which is broadcast; [np.array([])] has no coordinate and fails. *)
Definition hart6 (x : list R) : res R :=
  match x with
  | [v] => Ok (- sum (hart_terms hart_alpha hart_A hart_P [v; v; v; v; v; v]))
  | _ =>
      if Nat.eqb (List.length x) 6
      then Ok (- sum (hart_terms hart_alpha hart_A hart_P x))
      else Raise ValueError
  end.
