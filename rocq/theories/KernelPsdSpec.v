(** What makes a matrix a covariance matrix, and the kernels this is claimed for. *)
From Coq Require Import List ZArith Bool Reals.
From Verif Require Import Base Kernels Gpr GprSpec.
Import ListNotations.
Open Scope R_scope.

(** Square, symmetric, and c' K c is never negative *)
Definition covariance (K : mat) : Prop :=
  Forall (fun r => length r = length K) K /\
  (forall i j, entry K i j = entry K j i) /\
  forall c, length c = length K -> 0 <= dot c (map (dot c) K).
(** c' K c is positive unless c is 0: the matrices that have a Cholesky factor *)
Definition positive_definite (K : mat) : Prop :=
  covariance K /\ forall c, length c = length K -> Exists (fun a => a <> 0) c -> 0 < dot c (map (dot c) K).

(** A length scale for [d] features, its entries satisfying [P] *)
Definition scale_fits (P : R -> Prop) (l : scale) (d : nat) : Prop :=
  match l with
  | Iso a => P a
  | Aniso [a] => P a
  | Aniso ls => length ls = d /\ Forall P ls
  end.
Lemma scale_weaken (P Q : R -> Prop) l d : (forall a, P a -> Q a) -> scale_fits P l d -> scale_fits Q l d.
Proof.
  intros H. destruct l as [a|[|a [|b ls]]]; cbn; auto; intros [L F]; (split; [exact L|]); revert F; apply Forall_impl; exact H.
Qed.
(** Hyper-parameters in range; a natural number as exponent; a periodic kernel on a single feature *)
Fixpoint valid (k : kernel) (d : nat) : Prop :=
  match k with
  | RBF l | Matern _ l => scale_fits (fun a => 0 < a) l d
  | RatQuad l a => 0 < l /\ 0 < a
  | ExpSine l p => 0 < l /\ 0 < p /\ d = 1%nat
  | Const c => 0 <= c
  | White v => 0 <= v
  | Dot _ => True
  | Expo k (ENat _) => valid k d
  | Expo _ (EReal _) => False
  | Sum k1 k2 | Prod k1 k2 => valid k1 d /\ valid k2 d
  | Hamming l => scale_fits (fun a => 0 <= a) l d
  end.
