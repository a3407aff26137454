(** A case of C82 with times. *)
From Coq Require Import String List ZArith Bool Reals.
From Verif Require Import Base Num Values Dimension Space Optimizer Acquisition AcqSpec GaussLemmas OptSpec OptSamples SamplerSamples GpWorld CampaignSpec Campaign GpDependable CampaignCases.
Import ListNotations.

Lemma c82_ps_case : let W := WG Phi phi in std_normal Phi phi /\ exists o o' r, reachable Rops GR W o /\ tell Rops GR W (X1 pR2) (YLst [YNum 4%R; YNum 1%R]) true o = (o', Ok r) /\
  (c_n0 (o_cfg o') <= Z.of_nat (length (o_yi o')))%Z /\ c_est (o_cfg o') <> None /\ c_lbfgs (o_cfg o') = false /\ c_acq (o_cfg o') = AOne EIps /\ ps_of o' = true.
Proof.
  intros W. split; [exact AcqLemmas.std_normal_exists|]. destruct (camp_case Phi phi "EIps" (AOne EIps) false eq_refl) as (o & C & _ & _ & o' & r & Et & _ & _ & A & B & D & E & _).
  exists o, o', r. split; [eapply campaign_reachable; exact C|]. repeat (split; [assumption|]). unfold ps_of. rewrite E. reflexivity.
Qed.
