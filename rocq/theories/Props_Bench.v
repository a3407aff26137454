From Coq Require Import List Reals Lra.
From Verif Require Import Base Benchmarks BenchSpec BenchProps HartMin HartProps.
Import ListNotations.
Open Scope R_scope.

(** C80: the benchmark functions have the minima their documentation states:
    never less, and equal exactly at the documented points. *)
Theorem C80_bench1 :
  minimised bench1 (fun x => length x = 1%nat) 0 (fun x => x = [0]).
Proof. exact c80_bench1. Qed.
Print Assumptions C80_bench1.

Theorem C80_time (x : list R) (y : R) :
  bench1 x = Ok y <-> bench1_with_time x = Ok (y, 222 / 100).
Proof. exact (c80_time x y). Qed.
Print Assumptions C80_time.

Theorem C80_bench2 :
  minimised bench2 (fun x => length x = 1%nat) (-5) (fun x => x = [5]).
Proof. exact c80_bench2. Qed.
Print Assumptions C80_bench2.

(** [bench3] attains a global minimum, between -1 and -0.9, and only points
    between -0.32 and -0.22 reach -0.9. *)
Theorem C80_bench3 :
  exists a v, bench3 [a] = Ok v /\
    (forall x y, bench3 [x] = Ok y ->
       -1 < v /\ v <= y /\ v <= - (9 / 10) /\
       (y <= - (9 / 10) -> - (32 / 100) < x < - (22 / 100))).
Proof. exact c80_bench3. Qed.
Print Assumptions C80_bench3.

(** For every way of reading numbers from category values. *)
Theorem C80_bench4 {A : Type} (num : A -> res R) (zero : A) :
  num zero = Ok 0 ->
  minimised (bench4 num) (fun x => exists a v, x = [a] /\ num a = Ok v) 0
    (fun x => exists a, x = [a] /\ num a = Ok 0).
Proof. exact (c80_bench4 num zero). Qed.
Print Assumptions C80_bench4.

Theorem C80_bench5 {A : Type} (num : A -> res R) (zero : A) :
  num zero = Ok 0 ->
  minimised (bench5 num) (fun x => exists v, num (fst x) = Ok v) 0
    (fun x => num (fst x) = Ok 0 /\ snd x = 0).
Proof. exact (c80_bench5 num zero). Qed.
Print Assumptions C80_bench5.

(** The reading of numbers needed by the last two exists: digits as numbers. *)
Example C80_case :
  exists num : nat -> res R, num 0%nat = Ok 0 /\ bench4 num [3%nat] = Ok 9 /\
    bench5 num (2%nat, 3) = Ok 13.
Proof.
  exists (fun n => Ok (INR n)). repeat split; cbn; f_equal; ring.
Qed.

Theorem C80_branin :
  minimised branin branin_square (10 / (8 * PI))
    (fun x => x = [- PI; 12.275] \/ x = [PI; 2.275] \/ x = [3 * PI; 2.475]).
Proof. exact c80_branin. Qed.
Print Assumptions C80_branin.

Theorem C80_branin_value :
  Rabs (10 / (8 * PI) - 0.397887) < 1 / 10 ^ 6 /\ Rabs (3 * PI - 9.42478) < 1 / 10 ^ 5.
Proof. exact c80_branin_value. Qed.
Print Assumptions C80_branin_value.

Theorem C80_hart6 (x : list R) :
  length x = 6%nat ->
  exists y, hart6 x = Ok y /\ - 3.32237 <= y < 0 /\ (y < - 3.32236 -> nearby 0.001 x xstar).
Proof. exact (c80_hart6_all x). Qed.
Print Assumptions C80_hart6.

(** At the documented point. *)
Example C80_hart6_star : exists y, hart6 xstar = Ok y /\ - 3.32237 <= y <= - 3.322368.
Proof. exact c80_hart6_star. Qed.

Theorem C80_hart6_attained :
  exists x y,
    unit_point x /\ nearby 0.001 x xstar /\ hart6 x = Ok y /\ - 3.32237 <= y <= - 3.322368 /\
    forall x' y', length x' = 6%nat -> hart6 x' = Ok y' -> y <= y'.
Proof. exact c80_hart6_best. Qed.
Print Assumptions C80_hart6_attained.
