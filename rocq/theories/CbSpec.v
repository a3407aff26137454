(** Vocabulary of the callback properties (C32-C36). *)
From Coq Require Import String List ZArith Bool.
From Verif Require Import Base Num Values Dimension Space Optimizer OptSpec Minimize MinSpec.
Import ListNotations.
Open Scope list_scope.
Set Implicit Arguments.

Section CbSpec.
  Context {N : Type} (O : numops N).
  (** A least value of a list. *)
  Definition least (l : list N) (m : N) : Prop := In m l /\ forall v, In v l -> nleb O m v = true.
  (** A k-th smallest value: fewer than k values are less, at least k are not greater. *)
  Definition count (f : N -> bool) (l : list N) : nat := length (filter f l).
  Definition kth_smallest (k : nat) (l : list N) (v : N) : Prop :=
    In v l /\ count (fun x => nltb O x v) l < k /\ k <= count (fun x => nleb O x v) l.
End CbSpec.

Section CbSpec2.
  Context {N RNG M : Type}.
  (** The last two points of a history. *)
  Definition last_two (r : result N RNG M) (a b : point N) : Prop :=
    exists l, res_x_iters r = l ++ [X1 a; X1 b].
End CbSpec2.
