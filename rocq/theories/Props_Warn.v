(** C103: the warning that the objective has been evaluated at the suggested point before. *)
From Coq Require Import String List ZArith Bool Reals.
From Verif Require Import Base Num NumLaws Values Dimension Space Optimizer SpaceSpec MetricSpec Samples SpaceProps2 OptSpec OptSamples CampaignSpec CampaignCases GaussLemmas Warn WarnSpec WarnLemmas WarnCases.
From Verif Require Import SamplerSamples.
Import ListNotations.
Close Scope R_scope.
Open Scope list_scope.

(** In exact arithmetic: once the surrogate makes the suggestions, ask() warns if and only if a point told before is at most
    1e-8 away. So it warns when the very point has been told, and with Integer and Categorical dimensions only then. *)
Theorem C103 : forall RNG M (G : rng_ops R RNG) (W : world R M) (need : list (yval R) -> Prop), rng_ok Rops G -> (forall l l', need l -> need (l ++ l')) ->
  forall s o o' p, campaign G W need o -> ask Rops G W NPNone s o = (o', Ok (A1pt p)) -> (o_left o <= 0)%Z -> c_est (o_cfg o) <> None ->
  (ask_warns Rops o = true <-> exists q D, In (X1 q) (o_Xi o) /\ away (c_dims (o_cfg o)) p q D /\ (D <= / 100000000)%R) /\
  (In (X1 p) (o_Xi o) -> ask_warns Rops o = true) /\
  (Forall discrete (c_dims (o_cfg o)) -> ask_warns Rops o = true -> In (X1 p) (o_Xi o)).
Proof. exact (fun RNG M G W need Gok Nm => @c103 RNG M G W need Gok Nm). Qed.
Print Assumptions C103.
Example C103_case : let W := WG Phi phi in exists o o' p, campaign GR W anything o /\ ask Rops GR W NPNone "cl_min" o = (o', Ok (A1pt p)) /\ (o_left o <= 0)%Z /\ c_est (o_cfg o) <> None.
Proof. exact c103_case. Qed.

(** In float64: a point told before is always noticed; with Integer and Categorical dimensions there is no false alarm. *)
Theorem C103_float : forall L RNG M (G : rng_ops float RNG) (W : world float M) s o o' p P,
  ask (F64 L) G W NPNone s o = (o', Ok (A1pt p)) -> (o_left o <= 0)%Z -> c_est (o_cfg o) <> None -> o_Xi o = map (@X1 float) P ->
  Forall (wf_dim (F64 L)) (c_dims (o_cfg o)) -> Forall bounded (c_dims (o_cfg o)) -> Forall (in_space (F64 L) (c_dims (o_cfg o))) (p :: P) ->
  (forall q, In q P -> Forall2 same p q -> ask_warns (F64 L) o = true) /\
  (Forall discrete (c_dims (o_cfg o)) -> (Z.of_nat (length (c_dims (o_cfg o))) < 2 ^ 40)%Z -> ask_warns (F64 L) o = true -> exists q, In q P /\ Forall2 same p q).
Proof. exact (fun L RNG M G W => @c103_float_ask L RNG M G W). Qed.
Print Assumptions C103_float.
Example C103_float_case : let d := int1 KNormalize in (wf_dim O0 d /\ bounded d /\ discrete d) /\
  forall z w, (z, w) = (5, false)%Z \/ (z, w) = (-3, true)%Z -> ask O0 G0 W0 NPNone "cl_min" (int_o z) = (int_o z, Ok (A1pt [VInt (-3)])) /\ (o_left (int_o z) <= 0)%Z /\ c_est (o_cfg (int_o z)) <> None /\
    c_dims (o_cfg (int_o z)) = [d] /\ o_Xi (int_o z) = map (@X1 float) [[VInt z]] /\ Forall (in_space O0 [d]) [[VInt (-3)]; [VInt z]] /\ ask_warns O0 (int_o z) = w.
Proof. exact c103_float_case. Qed.

(** The tolerance does not take the width of a Real dimension into account: in a narrow one there are false alarms. *)
Theorem C103_narrow_refuted : exists (o : opt float nat nat) p, reachable O0 G0 W0 o /\ ask O0 G0 W0 NPNone "cl_min" o = (o, Ok (A1pt p)) /\ (o_left o <= 0)%Z /\ c_est (o_cfg o) <> None /\
  ask_warns O0 o = true /\ ~ exists q, In (X1 q) (o_Xi o) /\ Forall2 same p q.
Proof. exact c103_false_alarm. Qed.
Print Assumptions C103_narrow_refuted.

(** Initial points that repeat an observation are handed out without a warning. *)
Theorem C103_initial_refuted : exists (o : opt float nat nat) p, reachable O0 G0 W0 o /\ ask O0 G0 W0 NPNone "cl_min" o = (o, Ok (A1pt p)) /\ In (X1 p) (o_Xi o) /\ ask_warns O0 o = false.
Proof. exact c103_silent. Qed.
Print Assumptions C103_initial_refuted.
