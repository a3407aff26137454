(** Continuing a minimisation from a result. *)
From Coq Require Import String List ZArith Bool.
From Verif Require Import Base Num Values Dimension Space Optimizer OptSpec Minimize MinSpec.
Import ListNotations.
Open Scope list_scope.
Set Implicit Arguments.

(** The arguments say x0=result.x_iters and y0=result.func_vals. *)
Definition resumes {N RNG M RNG' M'} (r : result N RNG M) (a : margs N RNG' M') : Prop :=
  exists ps, res_x_iters r = map (@X1 N) ps /\ m_x0 a = X0Seq true (map IPt ps) /\ m_y0 a = Y0Seq (map YNum (res_func_vals r)).
(** Arguments that differ at most in x0, y0 and the numbers of points and calls. *)
Definition same_but_start {N RNG M} (a a' : margs N RNG M) : Prop :=
  m_opt a' = m_opt a /\ m_callback a' = m_callback a /\ m_verbose a' = m_verbose a.
