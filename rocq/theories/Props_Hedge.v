(** C23: the probabilities of gp_hedge, in exact arithmetic and in float64. *)
From Coq Require Import List ZArith Bool Reals.
From Flocq Require Import Core.Core IEEE754.BinarySingleNaN.
From Verif Require Import Base Num Values Optimizer HedgeSpec HedgeFloat HedgeCases.
Import ListNotations.
Open Scope R_scope.
Open Scope list_scope.

(** The probabilities are proportional to exp(eta * gain). *)
Theorem C23_softmax : forall eta g1 g2 g3, hedge_weights Rops eta [g1; g2; g3] =
  Ok (map (fun g => exp (eta * g) / (exp (eta * g1) + exp (eta * g2) + exp (eta * g3))) [g1; g2; g3]).
Proof. exact c23_softmax. Qed.
Print Assumptions C23_softmax.

(** In float64, whatever the finite gains, the weights are numbers from 0 to 1 whose sum is 1 up to 2^-50; what numpy's
    multinomial tests (the sum of all but the last is at most 1 + 1e-12) holds; a larger gain never has a smaller weight,
    and the largest gain has weight 1/4 at least. *)
Theorem C23_float : forall L eta g1 g2 g3, fair_exp L -> is_finite eta = true -> 0 < B2R eta -> Forall (fun g => is_finite g = true) [g1; g2; g3] ->
  exists w1 w2 w3, hedge_weights (F64 L) eta [g1; g2; g3] = Ok [w1; w2; w3] /\
    Forall (fun w => is_finite w = true /\ 0 <= B2R w <= 1) [w1; w2; w3] /\
    Rabs (B2R w1 + B2R w2 + B2R w3 - 1) <= / IZR (2 ^ 50) /\ B2R (fadd w1 w2) <= 1 + / IZR (10 ^ 12) /\
    forall i j gi gj wi wj, nth_error [g1; g2; g3] i = Some gi -> nth_error [g1; g2; g3] j = Some gj -> nth_error [w1; w2; w3] i = Some wi -> nth_error [w1; w2; w3] j = Some wj ->
      (B2R gi <= B2R gj -> B2R wi <= B2R wj) /\ ((forall g, In g [g1; g2; g3] -> B2R g <= B2R gi) -> / 4 <= B2R wi).
Proof. exact c23_float. Qed.
Print Assumptions C23_float.
Example C23_float_case : fair_exp LX /\ is_finite (fofZ 1) = true /\ 0 < B2R (fofZ 1) /\ Forall (fun g => is_finite g = true) [fofZ (-3); fofZ 2; fofZ 0].
Proof. exact hedge_case. Qed.
