(** What the linear algebra and the tuning of hyper-parameters are assumed to do. *)
From Coq Require Import List ZArith Bool Reals.
From Verif Require Import Base Kernels Gpr.
Import ListNotations.
Open Scope R_scope.

Definition entry (M : mat) (i j : nat) : R := nth j (nth i M []) 0.
(** [A] is the inverse transposed Cholesky factor: A A^T is the inverse of K. *)
Definition inverse_factor (K A : mat) : Prop :=
  length A = length K /\
  forall i j, (i < length K)%nat -> (j < length K)%nat ->
    dot (nth i K []) (map (fun r => dot r (nth j A [])) A) = if Nat.eqb i j then 1 else 0.
Definition solves (K : mat) (y a : vec) : Prop :=
  length a = length K /\ forall i, (i < length K)%nat -> dot (nth i K []) a = nth i y 0.
Definition symmetric (K : mat) : Prop := Forall (fun r => length r = length K) K /\ forall i j, entry K i j = entry K j i.
Definition lin_ok (linv : mat -> option mat) (solve : mat -> vec -> vec) : Prop :=
  forall K A, symmetric K -> linv K = Some A -> inverse_factor K A /\ forall y, length y = length K -> solves K y (solve K y).

(** Kernels that differ in the hyper-parameters only *)
Fixpoint same_shape (k k' : kernel) : Prop :=
  match k, k' with
  | RBF _, RBF _ | RatQuad _ _, RatQuad _ _ | ExpSine _ _, ExpSine _ _ | Const _, Const _ | White _, White _
  | Dot _, Dot _ | Hamming _, Hamming _ => True
  | Matern n _, Matern n' _ => n = n'
  | Expo k p, Expo k' p' => p = p' /\ same_shape k k'
  | Sum k1 k2, Sum k1' k2' | Prod k1 k2, Prod k1' k2' => same_shape k1 k1' /\ same_shape k2 k2'
  | _, _ => False
  end.

Fixpoint no_white (k : kernel) : Prop :=
  match k with
  | White _ => False
  | Expo k _ => no_white k
  | Sum k1 k2 | Prod k1 k2 => no_white k1 /\ no_white k2
  | _ => True
  end.
Fixpoint no_dot (k : kernel) : Prop :=
  match k with
  | Dot _ => False
  | Expo k _ => no_dot k
  | Sum k1 k2 | Prod k1 k2 => no_dot k1 /\ no_dot k2
  | _ => True
  end.
(** The first number of a column of answers *)
Definition first (r : res (list R)) : R := match r with Ok (v :: _) => v | _ => 0 end.
Definition means (r : res answer) : res (list R) := rmap a_mean r.
Definition stds (r : res answer) : res (list R) := match r with Ok (mkAnswer _ (Some s) _ _) => Ok s | _ => Raise NotModelled end.
(** The regressor before fit with the kernel that fit has chosen: its predictions are the prior. *)
Definition prior (e : gpr) (k : kernel) : gpr := mkGpr (Some k) (e_noise e) (e_alpha e) (e_normalize e) None.
(** The same fitted regressor with another kernel_ *)
Definition with_kernel (e : gpr) (k : kernel) : gpr :=
  mkGpr (e_kernel e) (e_noise e) (e_alpha e) (e_normalize e)
    (match e_fitted e with
     | None => None
     | Some g => Some (mkGp (g_X g) k (g_alpha g) (g_Linv g) (g_ymean g) (g_ystd g) (g_noise g))
     end).
(** The kernel the user asked for *)
Definition user_kernel (e : gpr) : kernel := match e_kernel e with Some k => k | None => Prod (Const 1) (RBF (Iso 1)) end.
Definition noise_free (e : gpr) : Prop := e_noise e = NoNoise.
