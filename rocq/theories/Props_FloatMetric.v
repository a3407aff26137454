(** C08 in float64. *)
From Coq Require Import String List ZArith Reals.
From Flocq Require Import IEEE754.BinarySingleNaN.
From Verif Require Import Base Num Values Dimension Space SpaceSpec Samples MetricSpec FloatMetric MetricCases.
Import ListNotations.
Open Scope list_scope.

(** The distance computed in float64 does not depend on the order of the points, is not negative, is zero exactly for equal
    points and, if it does not overflow, is the exact distance up to one rounding per dimension and one per sum. *)
Theorem C08_distance_float : forall L dims a b, Forall (wf_dim (F64 L)) dims -> Forall bounded dims -> in_space (F64 L) dims a -> in_space (F64 L) dims b ->
  exists D E, space_distance (F64 L) dims a b = Ok D /\ space_distance (F64 L) dims b a = Ok D /\ fleb (fofZ 0) D = true /\
    (fleb D (fofZ 0) = true <-> Forall2 same a b) /\ exactly_apart dims a b E /\
    (is_finite D = true -> (1 - ulp2) ^ S (length dims) * E <= B2R D <= (1 + ulp2) ^ S (length dims) * E)%R.
Proof. exact c08_float. Qed.
Print Assumptions C08_distance_float.
Example C08_float_case : Forall (wf_dim O0) mixed0 /\ Forall bounded mixed0 /\
  let a := [VFloat (tiny 3); VInt 2; VStr "a"%string] in let b := [VFloat (fofZ (-1)); VInt (-4); VStr "b"%string] in
  in_space O0 mixed0 a /\ in_space O0 mixed0 b /\ ~ Forall2 same a b /\
  Forall2 same [VFloat (B754_zero false); VInt 2; VStr "a"%string] [VFloat (B754_zero true); VInt 2; VStr "a"%string].
Proof. exact mixed_case. Qed.

(** The triangle inequality up to these roundings; *)
Theorem C08_triangle_float : forall L dims a b c ab bc ac, Forall (wf_dim (F64 L)) dims -> Forall bounded dims ->
  in_space (F64 L) dims a -> in_space (F64 L) dims b -> in_space (F64 L) dims c ->
  space_distance (F64 L) dims a b = Ok ab -> space_distance (F64 L) dims b c = Ok bc -> space_distance (F64 L) dims a c = Ok ac ->
  is_finite ab = true -> is_finite bc = true -> is_finite ac = true ->
  ((1 - ulp2) ^ S (length dims) * B2R ac <= (1 + ulp2) ^ S (length dims) * (B2R ab + B2R bc))%R.
Proof. exact c08_triangle. Qed.
Print Assumptions C08_triangle_float.

(** it does not hold exactly. *)
Theorem C08_triangle_float_refuted : Forall (wf_dim O0) line0 /\ Forall bounded line0 /\
  exists a b c ab bc ac, in_space O0 line0 a /\ in_space O0 line0 b /\ in_space O0 line0 c /\
    space_distance O0 line0 a b = Ok ab /\ space_distance O0 line0 b c = Ok bc /\ space_distance O0 line0 a c = Ok ac /\
    is_finite (fadd ab bc) = true /\ fltb (fadd ab bc) ac = true.
Proof. exact triangle_fails. Qed.
Print Assumptions C08_triangle_float_refuted.
