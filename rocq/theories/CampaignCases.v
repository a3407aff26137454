(** A campaign with a Gaussian process over a mixed space, for C82 and C83. *)
From Coq Require Import String List ZArith Bool Lia Reals Lra.
From Verif Require Import Base BaseLemmas Num NumLaws Values Transformers Dimension Space Optimizer NumLaws SpaceSpec MetricLemmas OptSpec OptLemmas OptLemmas2 OptLemmas4 OptSamples PickCases SamplerSamples
  Acquisition AcqSpec GaussLemmas Kernels KernelPsdSpec Gpr GprSpec GprSamples GprAcq Cholesky CholTotal GpWorld WorthSpec GpWorldProps CampaignSpec RealSpace Campaign GpDependable.
Import ListNotations.
Open Scope list_scope.

Definition realR (k : tkind) : dim R := DReal (mkReal 2%R 5%R PUniform 10%R k None DT64).
Definition colorR (k : tkind) : dim R := DCat (mkCat [VStr "red"; VStr "green"; VStr "blue"] None k None).
Definition mixR : list (dim R) := [realR KNormalize; colorR KNormalize].
Definition gp1 : gpr := mkGpr (Some (Prod (Const 1) (Matern Nu5Half (Aniso [1; 2]%R)))) NoiseGaussian (/ 100)%R false None.
Definition pR1 : point R := [VFloat 3%R; VStr "green"].
Definition pR2 : point R := [VFloat 2%R; VStr "red"].
Definition genR (_ : list (dim R)) (n _ : Z) : res (list (point R)) := Ok (repeat pR1 (Z.to_nat n)).
Definition WG (cdf pdf : R -> R) : world R surrogate :=
  gp_world keep cho_inv cho_weights cdf pdf gp1 None None (arg_sort Rops) (fun _ _ _ _ x => Ok (x, 0%R)) genR 709%R.
Definition argsG (acq : string) (gen : bool) : oargs R := mkArgs [realR KIdentity; colorR KOnehot] (Some gp_est) true 1 gen acq "sampling" (Some 2%Z) 3 2 1%R.

Lemma mixR_workable : Forall workable mixR.
Proof.
  constructor; [|constructor; [|constructor]].
  - split; [|exact I]. split; [|discriminate]. split; [|discriminate]. split; [cbn; unfold Rltb; destruct (Rlt_dec 2 5); [easy|exfalso; lra]|]. cbn. auto.
  - split; [|exact I]. split; [|discriminate]. split.
    + split; [discriminate|]. split; [exists (type_of (@VStr R "red")); repeat constructor|]. cbn.
      repeat constructor; cbn; intuition discriminate.
    + split; [auto|]. cbn. lia.
Qed.

Lemma in_mixR x c : (2 <= x <= 5)%R -> In (VStr c) [@VStr R "red"; VStr "green"; VStr "blue"] -> in_space Rops mixR [VFloat x; VStr c].
Proof.
  intros B I. constructor; [|constructor; [|constructor]]; constructor; try exact I; cbn; unfold Rleb'; [destruct (Rle_dec 2 x)|destruct (Rle_dec x 5)]; try reflexivity; exfalso; lra.
Qed.
Lemma pR1_in : in_space Rops mixR pR1.
Proof. apply in_mixR; [lra|cbn; auto]. Qed.
Lemma pR2_in : in_space Rops mixR pR2.
Proof. apply in_mixR; [lra|cbn; auto]. Qed.
Lemma genR_ok n seed : (0 <= n)%Z -> exists l, genR mixR n seed = Ok l /\ length l = Z.to_nat n /\ Forall (in_space Rops mixR) l.
Proof.
  intros _. eexists. split; [reflexivity|]. split; [apply repeat_length|]. apply Forall_forall. intros p Hp. apply repeat_spec in Hp. subst p. exact pR1_in.
Qed.

Lemma WG_dependable cdf pdf acq lb : dependable (WG cdf pdf) anything mixR acq lb.
Proof.
  apply gp_dependable; try reflexivity.
  - intros k X y H. exact H.
  - repeat constructor; lra.
  - cbn. lra.
  - intros _ m a yopt r _ H. do 2 eexists. split; [reflexivity|exact H].
  - intros l Hl. exact (arg_sort_ok Rops Rops_order l Hl).
  - exact genR_ok.
Qed.
Lemma WG_made cdf pdf s acq gen : acq_of s = Some acq -> exists g o, make_optimizer Rops GR (WG cdf pdf) (argsG s gen) 0%nat = (g, Ok o) /\
  sensible (WG cdf pdf) anything (o_cfg o) /\ c_dims (o_cfg o) = mixR /\ c_acq (o_cfg o) = acq /\ o_left o = 1%Z /\ c_n0 (o_cfg o) = 1%Z /\ c_est (o_cfg o) <> None /\ c_lbfgs (o_cfg o) = false.
Proof.
  intros E. unfold make_optimizer. cbn [argsG a_acq]. rewrite E. cbn -[finish is_ps].
  assert (F : forall e g, exists g' o, finish Rops GR (WG cdf pdf) (argsG s gen) acq (Some e) false true g = (g', Ok o) /\
    sensible (WG cdf pdf) anything (o_cfg o) /\ c_dims (o_cfg o) = mixR /\ c_acq (o_cfg o) = acq /\ o_left o = 1%Z /\ c_n0 (o_cfg o) = 1%Z /\ c_est (o_cfg o) <> None /\ c_lbfgs (o_cfg o) = false).
  { intros e g. unfold finish. destruct gen; cbn; do 2 eexists; (split; [reflexivity|]); cbn;
      (split; [|repeat split; discriminate]); (split; [discriminate|]); (split; [exact mixR_workable|]); repeat (split; [easy|]); apply WG_dependable. }
  destruct (is_ps acq); cbn -[finish]; apply F.
Qed.

Lemma campaign_reachable {RNG M} (G : rng_ops R RNG) (W : world R M) need o : campaign G W need o -> reachable Rops G W o.
Proof. induction 1 as [a g g' o E _|c o o' a _ IH _ E|o g g' o' _ IH E|g o _ IH]; [eapply r_make; eauto|pose proof (r_call c IH) as Q; rewrite E in Q; exact Q|eapply r_copy; eauto|now apply r_rng]. Qed.

(** A value as the acquisition function wants it *)
Definition yR (acq : acqf) : yarg R := if is_ps acq then YLst [YNum 4%R; YNum 1%R] else YNum 4%R.
Lemma yR_ok acq : valid_y1 Rops (is_ps acq) (yR acq).
Proof.
  unfold yR, valid_y1. destruct (is_ps acq); [|eauto]. do 2 eexists. split; [reflexivity|]. cbn. unfold Rleb'. destruct (Rle_dec 1 0); [exfalso; lra|reflexivity].
Qed.
(** One observation, and the design is used up; several acquisition functions, with and without a generator *)
Lemma camp_case cdf pdf s acq (gen : bool) : acq_of s = Some acq -> let W := WG cdf pdf in
  exists o, campaign GR W anything o /\ open o /\ fine o (CTell (X1 pR2) (yR acq) true) /\
    exists o' r, tell Rops GR W (X1 pR2) (yR acq) true o = (o', Ok r) /\ campaign GR W anything o' /\ open o' /\ (c_n0 (o_cfg o') <= Z.of_nat (length (o_yi o')))%Z /\
    c_est (o_cfg o') <> None /\ c_lbfgs (o_cfg o') = false /\ c_acq (o_cfg o') = acq /\
    fine o' (CAsk (NPInt 3) "cl_mean") /\ fine o' (CTell (X2 [pR1; pR2; pR1]) (YLst [yR acq; yR acq; yR acq]) true) /\ fine o' (CRun (fun _ _ => Ok (yR acq)) 4).
Proof.
  intros E W. destruct (WG_made cdf pdf s acq gen E) as (g & o & Em & Hs & Ed & Ea & El & En & Ee & Eb). fold W in Em, Hs.
  assert (C : campaign GR W anything o) by (eapply camp_make; eauto).
  assert (O : open o) by (left; rewrite El; lia).
  assert (Y : valid_y1 Rops (ps_of o) (yR acq)) by (unfold ps_of; rewrite Ea; apply yR_ok).
  assert (F : fine o (CTell (X1 pR2) (yR acq) true)) by (constructor; [rewrite Ed; exact pR2_in|exact Y]).
  exists o. split; [exact C|]. split; [exact O|]. split; [exact F|].
  destruct (tell_user_total GR_ok (campaign_sound GR_ok any_mono C) F) as (o' & [r|x] & Et & _ & K); [destruct K as (_ & Ec & Hn & Ho & _)|now elim K]. exists o', r. split; [exact Et|].
  assert (C' : campaign GR W anything o') by (eapply (camp_call C F); cbn [do_call]; rewrite Et; reflexivity).
  split; [exact C'|]. specialize (Ho eq_refl). split; [exact Ho|]. rewrite !Ec, En. split; [destruct (o_yi o'); [easy|]; cbn [length]; lia|].
  assert (Y' : valid_y1 Rops (ps_of o') (yR acq)) by (unfold ps_of; rewrite Ec, Ea; apply yR_ok).
  assert (Ed' : c_dims (o_cfg o') = mixR) by congruence.
  repeat (split; [assumption|]). split; [|split].
  - constructor; [exact Ho|lia|cbn; auto].
  - constructor; [discriminate|reflexivity| |]; repeat constructor; try exact Y'; rewrite Ed'; solve [exact pR1_in|exact pR2_in].
  - constructor; [discriminate|exact Ho|]. intros k p _. eexists. split; [reflexivity|exact Y'].
Qed.
(** C82's hypotheses *)
Lemma c82_case : let W := WG Phi phi in std_normal Phi phi /\ exists o o' r, reachable Rops GR W o /\ tell Rops GR W (X1 pR2) (YNum 4%R) true o = (o', Ok r) /\
  (c_n0 (o_cfg o') <= Z.of_nat (length (o_yi o')))%Z /\ c_est (o_cfg o') <> None /\ c_lbfgs (o_cfg o') = false /\ c_acq (o_cfg o') = AOne EI /\ ps_of o' = false.
Proof.
  intros W. split; [exact AcqLemmas.std_normal_exists|]. destruct (camp_case Phi phi "EI" (AOne EI) false eq_refl) as (o & C & _ & _ & o' & r & Et & _ & _ & A & B & D & E & _).
  exists o, o', r. split; [eapply campaign_reachable; exact C|]. repeat (split; [assumption|]). unfold ps_of. rewrite E. reflexivity.
Qed.

(** Without a surrogate but with a generator of initial points *)
Definition hotR : dim R := DCat (mkCat [VInt 7; VInt 3] None KOnehot None).
Definition args_dummy : oargs R := mkArgs [hotR] None true 1 true "EI" "auto" None 3 2 1%R.
Lemma hotR_workable : workable hotR.
Proof.
  split; [|exact I]. split; [|discriminate]. split; [|split; [auto|cbn; lia]]. split; [discriminate|]. split; [exists (type_of (@VInt R 7)); repeat constructor|].
  cbn. repeat constructor; cbn; intuition discriminate.
Qed.
Lemma dummy_design : exists o, reachable Rops GR WR o /\ open o /\ Forall workable (c_dims (o_cfg o)) /\ c_gen (o_cfg o) = true /\ c_est (o_cfg o) = None /\
  exists o', ask Rops GR WR NPNone "cl_min" o = (o', Raise IndexError).
Proof.
  destruct (make_optimizer Rops GR WR args_dummy 0%nat) as [g [o|]] eqn:E; [|discriminate].
  exists (fst (do_call Rops GR WR (CTell (X1 [VInt 7]) (YNum 2%R) true) o)). split; [apply r_call; eapply r_make; exact E|].
  injection E as <- <-. split; [right; left; reflexivity|]. split; [constructor; [exact hotR_workable|constructor]|].
  split; [reflexivity|]. split; [reflexivity|]. eexists. reflexivity.
Qed.
