(** The linear algebra behind the Gaussian process regressor (scipy.linalg), in exact arithmetic: cholesky(K, lower=True)
    and cho_solve, which sklearn's fit calls (called at gpr.py:199), and solve_triangular(L_.T, eye), gpr.py:213. *)
From Coq Require Import List Reals.
From Verif Require Import Base Kernels Gpr.
Import ListNotations.
Open Scope R_scope.
Open Scope list_scope.

(** A lower triangular matrix by columns: the entry on the diagonal and those below it. *)
Definition triangle := list (R * vec).

(** One column at a time; only the entries on and below the diagonal matter. A pivot that is not positive raises
    LinAlgError ([None]). *)
Fixpoint chol (n : nat) (K : mat) : option triangle :=
  match n, K with
  | 0%nat, _ => Some []
  | S n', (a :: _) :: rows =>
    if Rlt_dec 0 a then
      let b := map (fun r => hd 0 r / sqrt a) rows in
      match chol n' (zip (fun bi r => zip (fun bj v => v - bi * bj) b (tl r)) b rows) with
      | Some L => Some ((sqrt a, b) :: L)
      | None => None
      end
    else None
  | S _, _ => None
  end.
Definition cholesky (K : mat) : option triangle := chol (length K) K.

(** The inverse of the transpose, by rows *)
Fixpoint inv_transpose (L : triangle) : mat :=
  match L with
  | [] => []
  | (l, b) :: L' =>
    let A := inv_transpose L' in
    (/ l :: map (fun j => - dot b (col A j) / l) (seq 0 (length L'))) :: map (cons 0) A
  end.

(** L z = y, then L^T a = z *)
Fixpoint forward (L : triangle) (y : vec) : vec :=
  match L, y with
  | (l, b) :: L', y0 :: y' => y0 / l :: forward L' (zip (fun v bi => v - bi * (y0 / l)) y' b)
  | _, _ => []
  end.
Fixpoint backward (L : triangle) (z : vec) : vec :=
  match L, z with
  | (l, b) :: L', z0 :: z' => let a := backward L' z' in (z0 - dot b a) / l :: a
  | _, _ => []
  end.
Definition cho_solve (L : triangle) (y : vec) : vec := backward L (forward L y).

(** The two as [fit] uses them *)
Definition cho_inv (K : mat) : option mat := option_map inv_transpose (cholesky K).
Definition cho_weights (K : mat) (y : vec) : vec :=
  match cholesky K with
  | Some L => cho_solve L y
  | None => []
  end.
