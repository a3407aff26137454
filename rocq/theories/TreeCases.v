(** Campaigns with forests and boosted trees over a mixed space, for C83 and C90. *)
From Coq Require Import String List ZArith Bool Lia Reals Lra.
From Verif Require Import Base BaseLemmas Num NumLaws Values Transformers Dimension Space Optimizer SpaceSpec OptSpec OptSamples PickCases SamplerSamples
  Acquisition AcqSpec GaussLemmas Forest ForestSpec Gbrt GbrtLemmas GpWorld CampaignSpec Campaign CampaignCases TreeWorld TreeWorldProps TreeInstances.
Import ListNotations.
Open Scope list_scope.

Definition treeR : list (dim R) := [realR KIdentity; colorR KOnehot].
Definition tree_est : est_desc := {| ed_gp := false; ed_multi := false; ed_grad := false; ed_regressor := true |}.
Definition argsT (acq acqopt : string) (gen : bool) : oargs R := mkArgs treeR (Some tree_est) true 1 gen acq acqopt (Some 2%Z) 3 2 1%R.

(** Two trees: the mean of the observations, and the first coordinate. *)
Definition growR (X : list (list R)) (y : list R) : list tree :=
  [mkTree (fun _ => 0%nat) [variance y] (fun _ => avg y); mkTree (fun _ => 1%nat) [5; 2]%R (fun x => hd 0%R x)].
Definition boostR (q : R) (_ : unit) (data : list (list R) * list R) (rows : list (list R)) : res (list R) := Ok (map (fun x => q * avg (snd data) + hd 0 x)%R rows).
Definition WF (cdf pdf : R -> R) : world R (tsurrogate forest) := tree_world (forest_reg growR "mse" 0%R) cdf pdf None None (arg_sort Rops) genR 709%R.
Definition WB (cdf pdf : R -> R) : world R (tsurrogate (gbrt (N := R))) := tree_world (gbrt_reg boostR three tt) cdf pdf None None (arg_sort Rops) genR 709%R.

Lemma treeR_workable : Forall workable treeR.
Proof.
  constructor; [|constructor; [|constructor]].
  - split; [|exact I]. split; [|discriminate]. split; [|discriminate]. split; [cbn; unfold Rltb; destruct (Rlt_dec 2 5); [easy|exfalso; lra]|]. cbn. auto.
  - split; [|exact I]. split; [|discriminate]. split.
    + split; [discriminate|]. split; [exists (type_of (@VStr R "red")); repeat constructor|]. cbn.
      repeat constructor; cbn; intuition discriminate.
    + split; [auto|]. cbn. lia.
Qed.
Lemma in_treeR x c : (2 <= x <= 5)%R -> In (VStr c) [@VStr R "red"; VStr "green"; VStr "blue"] -> in_space Rops treeR [VFloat x; VStr c].
Proof.
  intros B I. constructor; [|constructor; [|constructor]]; constructor; try exact I; cbn; unfold Rleb'; [destruct (Rle_dec 2 x)|destruct (Rle_dec x 5)]; try reflexivity; exfalso; lra.
Qed.
Lemma pT1_in : in_space Rops treeR pR1.
Proof. apply in_treeR; [lra|cbn; auto]. Qed.
Lemma pT2_in : in_space Rops treeR pR2.
Proof. apply in_treeR; [lra|cbn; auto]. Qed.
Lemma genT_ok n seed : (0 <= n)%Z -> exists l, genR treeR n seed = Ok l /\ length l = Z.to_nat n /\ Forall (in_space Rops treeR) l.
Proof.
  intros _. eexists. split; [reflexivity|]. split; [apply repeat_length|]. apply Forall_forall. intros p Hp. apply repeat_spec in Hp. subst p. exact pT1_in.
Qed.
Lemma grow_sound : forall X y x, Forall (sound_tree x) (growR X y).
Proof.
  intros X y x. constructor; [|constructor; [|constructor]]; eexists; (split; [reflexivity|]); [apply ForestLemmas.variance_nonneg|lra].
Qed.
Lemma boost_rows : per_row boostR tt.
Proof. intros q data rows p [= <-]. apply map_length. Qed.
Lemma WF_dependable cdf pdf acq : dependable (WF cdf pdf) anything treeR acq false.
Proof.
  apply forest_dependable; [reflexivity|discriminate|exact grow_sound| |exact genT_ok]. intros l Hl. exact (arg_sort_ok Rops Rops_order l Hl).
Qed.
Lemma WB_dependable cdf pdf acq : dependable (WB cdf pdf) anything treeR acq false.
Proof.
  apply boosted_dependable; [exact I|cbn; auto..| | |exact genT_ok].
  - intros q X y rows _ _. eexists. split; [reflexivity|apply map_length].
  - intros l Hl. exact (arg_sort_ok Rops Rops_order l Hl).
Qed.

Lemma tree_made M (W : world R M) s acq (gen : bool) : w_generate W = genR -> dependable W anything treeR acq false -> acq_of s = Some acq ->
  exists g o, make_optimizer Rops GR W (argsT s "sampling" gen) 0%nat = (g, Ok o) /\
  sensible W anything (o_cfg o) /\ c_dims (o_cfg o) = treeR /\ c_acq (o_cfg o) = acq /\ o_left o = 1%Z /\ c_n0 (o_cfg o) = 1%Z /\ c_est (o_cfg o) <> None /\ c_lbfgs (o_cfg o) = false.
Proof.
  intros Eg Hd E. unfold make_optimizer. cbn [argsT a_acq]. rewrite E. cbn -[finish is_ps].
  assert (F : forall e g, exists g' o, finish Rops GR W (argsT s "sampling" gen) acq (Some e) false false g = (g', Ok o) /\
    sensible W anything (o_cfg o) /\ c_dims (o_cfg o) = treeR /\ c_acq (o_cfg o) = acq /\ o_left o = 1%Z /\ c_n0 (o_cfg o) = 1%Z /\ c_est (o_cfg o) <> None /\ c_lbfgs (o_cfg o) = false).
  { intros e g. unfold finish. destruct gen; cbn; rewrite ?Eg; cbn; do 2 eexists; (split; [reflexivity|]); cbn;
      (split; [|repeat split; discriminate]); (split; [discriminate|]); (split; [exact treeR_workable|]); repeat (split; [easy|]); exact Hd. }
  destruct (is_ps acq); cbn -[finish]; apply F.
Qed.

Lemma tree_campaign M (W : world R M) s acq (gen : bool) : w_generate W = genR -> dependable W anything treeR acq false -> acq_of s = Some acq ->
  exists o, campaign GR W anything o /\ open o /\ fine o (CTell (X1 pR2) (yR acq) true) /\
    exists o' r, tell Rops GR W (X1 pR2) (yR acq) true o = (o', Ok r) /\ campaign GR W anything o' /\ open o' /\ (c_n0 (o_cfg o') <= Z.of_nat (length (o_yi o')))%Z /\
    c_est (o_cfg o') <> None /\ c_lbfgs (o_cfg o') = false /\ c_acq (o_cfg o') = acq /\
    fine o' (CAsk (NPInt 3) "cl_mean") /\ fine o' (CTell (X2 [pR1; pR2; pR1]) (YLst [yR acq; yR acq; yR acq]) true) /\ fine o' (CRun (fun _ _ => Ok (yR acq)) 4).
Proof.
  intros Eg Hd E. destruct (tree_made _ W s acq gen Eg Hd E) as (g & o & Em & Hs & Ed & Ea & El & En & Ee & Eb).
  assert (C : campaign GR W anything o) by (eapply camp_make; eauto).
  assert (O : open o) by (left; rewrite El; lia).
  assert (Y : valid_y1 Rops (ps_of o) (yR acq)) by (unfold ps_of; rewrite Ea; apply yR_ok).
  assert (F : fine o (CTell (X1 pR2) (yR acq) true)) by (constructor; [rewrite Ed; exact pT2_in|exact Y]).
  exists o. split; [exact C|]. split; [exact O|]. split; [exact F|].
  destruct (tell_user_total GR_ok (campaign_sound GR_ok any_mono C) F) as (o' & [r|x] & Et & _ & K); [destruct K as (_ & Ec & Hn & Ho & _)|now elim K]. exists o', r. split; [exact Et|].
  assert (C' : campaign GR W anything o') by (eapply (camp_call C F); cbn [do_call]; rewrite Et; reflexivity).
  split; [exact C'|]. specialize (Ho eq_refl). split; [exact Ho|]. rewrite !Ec, En. split; [destruct (o_yi o'); [easy|]; cbn [length]; lia|].
  assert (Y' : valid_y1 Rops (ps_of o') (yR acq)) by (unfold ps_of; rewrite Ec, Ea; apply yR_ok).
  assert (Ed' : c_dims (o_cfg o') = treeR) by congruence.
  repeat (split; [assumption|]). split; [|split].
  - constructor; [exact Ho|lia|cbn; auto].
  - constructor; [discriminate|reflexivity| |]; repeat constructor; try exact Y'; rewrite Ed'; solve [exact pT1_in|exact pT2_in].
  - constructor; [discriminate|exact Ho|]. intros k p _. eexists. split; [reflexivity|exact Y'].
Qed.
Lemma c90_setting M (W : world R M) : w_generate W = genR -> dependable W anything treeR (AOne EI) false ->
  exists o o' r, reachable Rops GR W o /\ tell Rops GR W (X1 pR2) (YNum 4%R) true o = (o', Ok r) /\
  (c_n0 (o_cfg o') <= Z.of_nat (length (o_yi o')))%Z /\ c_est (o_cfg o') <> None /\ c_lbfgs (o_cfg o') = false /\ c_acq (o_cfg o') = AOne EI /\ ps_of o' = false.
Proof.
  intros Eg Hd. destruct (tree_campaign _ W "EI" (AOne EI) false Eg Hd eq_refl) as (o & C & _ & _ & o' & r & Et & _ & _ & A & B & D & E & _).
  exists o, o', r. split; [eapply campaign_reachable; exact C|]. repeat (split; [assumption|]). unfold ps_of. rewrite E. reflexivity.
Qed.

(** Observations with times: the wrapper around the forest is taken to provide gradients. *)
Definition argsS : oargs R := mkArgs [hotR] (Some tree_est) true 1 false "EIps" "auto" None 1 1 1%R.
Lemma trees_per_second cdf pdf : exists o, reachable Rops GR (WF cdf pdf) o /\ Forall workable (c_dims (o_cfg o)) /\ open o /\ is_ps (c_acq (o_cfg o)) = true /\
  in_space Rops (c_dims (o_cfg o)) [VInt 7] /\
  exists o', tell Rops GR (WF cdf pdf) (X1 [VInt 7]) (YLst [YNum 4%R; YNum 1%R]) true o = (o', Raise TypeError).
Proof.
  destruct (make_optimizer Rops GR (WF cdf pdf) argsS 0%nat) as [g [o|]] eqn:E; [|discriminate].
  exists o. split; [eapply r_make; exact E|]. injection E as <- <-. split; [constructor; [exact hotR_workable|constructor]|]. split; [left; reflexivity|]. split; [reflexivity|].
  split; [constructor; [|constructor]; constructor; cbn; auto|].
  assert (A : convert_y Rops true (X1 [VInt 7]) (YLst [YNum 4%R; YNum 1%R]) = Ok (Y1 (YP 4%R (nlog Rops 1%R)))).
  { cbn. unfold math_log. cbn. unfold Rleb'. destruct (Rle_dec 1 0); [exfalso; lra|reflexivity]. }
  unfold tell, andthen, get, lift. cbn [o_cfg c_acq is_ps check_y is_pair is_lst negb andb]. rewrite A. clear A. generalize (nlog Rops 1%R). intro t.
  match goal with |- exists o', ?l = _ => assert (S : snd l = Raise TypeError) by
    (vm_compute; repeat (match goal with |- context [Rle_dec ?a ?b] => destruct (Rle_dec a b) | |- context [Rlt_dec ?a ?b] => destruct (Rlt_dec a b) end); reflexivity);
    destruct l as [o' r]; cbn [snd] in S; subst r; exists o'; reflexivity end.
Qed.
Lemma trees_case s acq (gen : bool) : acq_of s = Some acq ->
  (exists o, campaign GR (WF Phi phi) anything o /\ open o /\ fine o (CTell (X1 pR2) (yR acq) true) /\ c_acq (o_cfg o) = acq) /\
  (exists o, campaign GR (WB Phi phi) anything o /\ open o /\ fine o (CTell (X1 pR2) (yR acq) true) /\ c_acq (o_cfg o) = acq).
Proof.
  intros E. assert (A : forall M (W : world R M), w_generate W = genR -> dependable W anything treeR acq false -> exists o, campaign GR W anything o /\ open o /\ fine o (CTell (X1 pR2) (yR acq) true) /\ c_acq (o_cfg o) = acq).
  { intros M W Eg Hd. destruct (tree_made _ W s acq gen Eg Hd E) as (g & o & Em & Hs & Ed & Ea & El & _). exists o.
    split; [eapply camp_make; eauto|]. split; [left; rewrite El; lia|]. split; [|exact Ea].
    constructor; [rewrite Ed; exact pT2_in|unfold ps_of; rewrite Ea; apply yR_ok]. }
  split; apply A; solve [reflexivity|apply WF_dependable|apply WB_dependable].
Qed.
