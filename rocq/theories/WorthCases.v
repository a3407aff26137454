(** A campaign with a Gaussian process and a search of the acquisition function, for C100. *)
From Coq Require Import String List ZArith Bool Lia Reals Lra.
From Verif Require Import Base BaseLemmas Num NumLaws Values Transformers Dimension Space Optimizer NumLaws SpaceSpec MetricLemmas OptSpec OptLemmas OptLemmas2 OptLemmas4 OptSamples PickCases SamplerSamples
  Acquisition AcqSpec GaussLemmas Kernels KernelPsdSpec Gpr GprSpec GprSamples GprAcq Cholesky CholTotal GpWorld WorthSpec GpWorldProps CampaignSpec RealSpace Campaign GpDependable CampaignCases WorthSearchSpec.
Import ListNotations.
Open Scope list_scope.

(** The better of the start and the lower corner of the box. *)
Definition corner (b : list (R * R)) : list (pyval R) := map (fun q => VFloat (fst q)) b.
Definition better (a : acq1) (m : surrogate) (y : R) (b : list (R * R)) (x : list (pyval R)) : res (list (pyval R) * R) :=
  match gp_acq Phi phi None None a m y [x], gp_acq Phi phi None None a m y [corner b] with
  | Ok [v], Ok [w] => if Rle_dec w v then Ok (corner b, w) else Ok (x, v)
  | Ok [v], _ => Ok (x, v)
  | _, _ => Ok (x, 0%R)
  end.
Definition WL : world R surrogate := gp_world keep cho_inv cho_weights Phi phi gp1 None None (arg_sort Rops) better genR 709%R.
Definition argsL (acq : string) (gen : bool) : oargs R := mkArgs [realR KIdentity; colorR KOnehot] (Some gp_est) true 1 gen acq "lbfgs" (Some 2%Z) 3 2 1%R.

Lemma corner_within b r : within (O := Rops) b r -> within (O := Rops) b (corner b).
Proof.
  induction 1 as [|q v b r (y & _ & H1 & H2) _ IH]; [constructor|]. constructor; [|exact IH]. exists (fst q). split; [reflexivity|].
  apply leb_R in H1, H2. split; apply leb_R; lra.
Qed.
Lemma better_within a m y b x : within (O := Rops) b x -> exists r' v, better a m y b x = Ok (r', v) /\ within (O := Rops) b r'.
Proof.
  intros H. unfold better. destruct (gp_acq Phi phi None None a m y [x]) as [[|v [|]]|]; try (do 2 eexists; split; [reflexivity|exact H]).
  destruct (gp_acq Phi phi None None a m y [corner b]) as [[|w [|]]|]; try (do 2 eexists; split; [reflexivity|exact H]).
  destruct (Rle_dec w v); do 2 eexists; (split; [reflexivity|]); [exact (corner_within _ _ H)|exact H].
Qed.
Lemma WL_descends b : descends WL b.
Proof.
  intros a m y s s' v v0 Hw H0 H. cbn [w_acq w_lbfgs WL gp_world] in *. unfold better in H. rewrite H0 in H.
  destruct (gp_acq Phi phi None None a m y [corner b]) as [[|w [|]]|] eqn:E; try (injection H as <- <-; split; [exact Hw|]; split; [exact H0|lra]).
  destruct (Rle_dec w v0) as [L|L]; injection H as <- <-; [split; [exact (corner_within _ _ Hw)|]; split; [exact E|exact L]|split; [exact Hw|]; split; [exact H0|lra]].
Qed.
Lemma WL_dependable acq lb : dependable WL anything mixR acq lb.
Proof.
  apply gp_dependable; try reflexivity.
  - intros k X y H. exact H.
  - repeat constructor; lra.
  - cbn. lra.
  - intros _ m a yopt r _ H. now apply better_within.
  - intros l Hl. exact (arg_sort_ok Rops Rops_order l Hl).
  - exact genR_ok.
Qed.
Lemma WL_argsort : argsort_ok Rops WL.
Proof. intros l Hl. exact (arg_sort_ok Rops Rops_order l Hl). Qed.
Lemma WL_made s acq gen : acq_of s = Some acq -> exists g o, make_optimizer Rops GR WL (argsL s gen) 0%nat = (g, Ok o) /\
  sensible WL anything (o_cfg o) /\ c_dims (o_cfg o) = mixR /\ c_acq (o_cfg o) = acq /\ o_left o = 1%Z /\ c_n0 (o_cfg o) = 1%Z /\ c_est (o_cfg o) <> None /\ c_lbfgs (o_cfg o) = true.
Proof.
  intros E. unfold make_optimizer. cbn [argsL a_acq]. rewrite E. cbn -[finish is_ps].
  assert (F : forall e g, exists g' o, finish Rops GR WL (argsL s gen) acq (Some e) true true g = (g', Ok o) /\
    sensible WL anything (o_cfg o) /\ c_dims (o_cfg o) = mixR /\ c_acq (o_cfg o) = acq /\ o_left o = 1%Z /\ c_n0 (o_cfg o) = 1%Z /\ c_est (o_cfg o) <> None /\ c_lbfgs (o_cfg o) = true).
  { intros e g. unfold finish. destruct gen; cbn; do 2 eexists; (split; [reflexivity|]); cbn;
      (split; [|repeat split; discriminate]); (split; [discriminate|]); (split; [exact mixR_workable|]); repeat (split; [easy|]); apply WL_dependable. }
  destruct (is_ps acq); cbn -[finish]; apply F.
Qed.
Lemma c100_case s acq (gen : bool) : acq_of s = Some acq -> is_ps acq = false ->
  rng_ok Rops GR /\ std_normal Phi phi /\ exists o o' r, reachable Rops GR WL o /\ tell Rops GR WL (X1 pR2) (YNum 4%R) true o = (o', Ok r) /\
  (c_n0 (o_cfg o') <= Z.of_nat (length (o_yi o')))%Z /\ c_est (o_cfg o') <> None /\ ps_of o' = false /\ c_acq (o_cfg o') = acq /\ c_lbfgs (o_cfg o') = true /\
  c_dims (o_cfg o') <> [] /\ Forall workable (c_dims (o_cfg o')) /\ argsort_ok Rops WL /\ descends WL (space_tbounds Rops (c_dims (o_cfg o'))).
Proof.
  intros E Hp. split; [exact GR_ok|]. split; [exact AcqLemmas.std_normal_exists|]. destruct (WL_made s acq gen E) as (g & o & Em & Hs & Ed & Ea & El & En & Ee & Eb).
  assert (C : campaign GR WL anything o) by (eapply camp_make; eauto).
  assert (Y : valid_y1 Rops (ps_of o) (YNum 4%R)) by (unfold ps_of; rewrite Ea, Hp; exists 4%R; reflexivity).
  assert (F : fine o (CTell (X1 pR2) (YNum 4%R) true)) by (constructor; [rewrite Ed; exact pR2_in|exact Y]).
  destruct (tell_user_total GR_ok (campaign_sound GR_ok any_mono C) F) as (o' & [r|x] & Et & _ & K); [destruct K as (_ & Ec & Hn & Ho & _)|now elim K]. exists o, o', r.
  split; [eapply campaign_reachable; exact C|]. split; [exact Et|]. rewrite !Ec, En. split; [destruct (o_yi o'); [easy|]; cbn [length]; lia|]. split; [exact Ee|].
  split; [unfold ps_of; rewrite Ec, Ea; exact Hp|]. split; [exact Ea|]. split; [exact Eb|]. rewrite Ed. split; [discriminate|]. split; [exact mixR_workable|]. split; [exact WL_argsort|apply WL_descends].
Qed.
