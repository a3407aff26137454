(** Where a kernel is differentiable in its first argument, and for which kernels the gradient is computed. *)
From Coq Require Import List ZArith Bool Reals.
From Verif Require Import Base Kernels.
Import ListNotations.
Open Scope R_scope.

Definition value (r : res R) : R := match r with Ok v => v | Raise _ => 0 end.

Definition nonzero_scale (l : scale) : Prop := match l with Iso l => l <> 0 | Aniso ls => Forall (fun l => l <> 0) ls end.
(** Length scales and periods are not 0; the kernel exp(-distance) has a kink where the points coincide. *)
Fixpoint smooth (k : kernel) (x t : list R) : Prop :=
  match k with
  | RBF l => nonzero_scale l
  | Matern NuHalf l => nonzero_scale l /\ x <> t
  | Matern _ l => nonzero_scale l
  | RatQuad l a => l <> 0 /\ 0 < a
  | ExpSine l p => l <> 0 /\ p <> 0
  | Const _ | White _ | Dot _ | Hamming _ => True
  | Expo k _ => smooth k x t
  | Sum k1 k2 | Prod k1 k2 => smooth k1 x t /\ smooth k2 x t
  end.

Definition fits (l : scale) (d : nat) : Prop := match l with Iso _ => True | Aniso ls => length ls = 1%nat \/ length ls = d end.
(** Kernels without products and powers *)
Fixpoint factor (k : kernel) (d : nat) : Prop :=
  match k with
  | RBF l => fits l d
  | Matern n l => fits l d /\ (n = NuHalf -> d = 1%nat)
  | RatQuad _ _ | ExpSine _ _ | Const _ | White _ | Dot _ => True
  | Sum k1 k2 => factor k1 d /\ factor k2 d
  | Expo _ _ | Prod _ _ | Hamming _ => False
  end.
(** Sums and powers of products of such *)
Fixpoint computable (k : kernel) (d : nat) : Prop :=
  match k with
  | RBF l | Matern _ l => fits l d
  | RatQuad _ _ | ExpSine _ _ | Const _ | White _ | Dot _ => True
  | Expo k p => computable k d /\ exists n, p = ENat (S n)
  | Sum k1 k2 => computable k1 d /\ computable k2 d
  | Prod k1 k2 => factor k1 d /\ factor k2 d
  | Hamming _ => False
  end.
