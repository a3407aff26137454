(** Starting a minimisation from the same evaluations in another order. *)
From Coq Require Import String List ZArith Bool Reals Permutation.
From Verif Require Import Base Num Values Dimension Space Optimizer SpaceSpec OptSpec Minimize MinSpec.
Import ListNotations.
Open Scope list_scope.
Set Implicit Arguments.

(** The arguments [a] give the points [x0] with the values [ys]; those of [a'] give the same pairs in another order and are
    otherwise the same. *)
Record restarted {RNG M} (a a' : margs R RNG M) (x0 : list (point R)) (ys : list (yarg R)) (x0' : list (point R)) (ys' : list (yarg R)) : Prop := {
  rs_x0 : given (m_x0 a) x0 /\ given (m_x0 a') x0';
  rs_y0 : values_of (m_y0 a) = Some ys /\ values_of (m_y0 a') = Some ys';
  rs_length : length ys = length x0 /\ length ys' = length x0';
  rs_order : Permutation (combine x0 ys) (combine x0' ys');
  rs_opt : m_opt a' = m_opt a; rs_calls : m_ncalls a' = m_ncalls a; rs_initial : n_initial a' = n_initial a;
  rs_callback : m_callback a' = m_callback a; rs_verbose : m_verbose a' = m_verbose a }.
