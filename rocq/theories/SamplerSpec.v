(** What the initial point generators are expected to deliver, stated without their code. *)
From Coq Require Import String List ZArith Bool Reals Sorting.Sorted.
Import ListNotations.
Open Scope list_scope.
Set Implicit Arguments.

Definition is_prime (p : nat) : Prop := 2 <= p /\ forall d, Nat.divide d p -> d = 1 \/ d = p.

(** [x] is in the [j]-th of [m] equal parts of [0,1). *)
Definition in_part (m j : Z) (x : R) : Prop := (IZR j / IZR m <= x < IZR (j + 1) / IZR m)%R.

(** Exactly one position from [s] on, [len] of them, holds an element of [l] satisfying [P]. *)
Definition one_in_stretch {A} (l : list A) (s len : nat) (P : A -> Prop) : Prop :=
  exists i, (s <= i < s + len /\ exists x, nth_error l i = Some x /\ P x) /\
    forall i', (s <= i' < s + len /\ exists x, nth_error l i' = Some x /\ P x) -> i' = i.

(** The numbers [row] are in the parts [js] of the divisions of [0,1) into [p ^ k] parts. *)
Fixpoint in_box (bases ks : list nat) (js : list Z) (row : list R) : Prop :=
  match bases, ks, js, row with
  | [], [], [], [] => True
  | p :: ps, k :: ks', j :: js', x :: row' => in_part (Z.of_nat p ^ Z.of_nat k) j x /\ in_box ps ks' js' row'
  | _, _, _, _ => False
  end.
(** The boxes of that division. *)
Fixpoint is_box (bases ks : list nat) (js : list Z) : Prop :=
  match bases, ks, js with
  | [], [], [] => True
  | p :: ps, k :: ks', j :: js' => (0 <= j < Z.of_nat p ^ Z.of_nat k)%Z /\ is_box ps ks' js'
  | _, _, _ => False
  end.
Fixpoint box_count (bases ks : list nat) : Z :=
  match bases, ks with
  | p :: ps, k :: ks' => (Z.of_nat p ^ Z.of_nat k * box_count ps ks')%Z
  | _, _ => 1%Z
  end.
(** The first [n] primes in increasing order. *)
Definition first_primes (n : nat) (ps : list nat) : Prop :=
  length ps = n /\ StronglySorted lt ps /\ (forall p, In p ps -> is_prime p) /\
  (forall p q, In q ps -> is_prime p -> p < q -> In p ps).
