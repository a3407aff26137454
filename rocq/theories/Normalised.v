(** Surrogates that need observations that differ (C92). *)
From Coq Require Import String List ZArith Bool Lia Reals Lra.
From Verif Require Import Base BaseLemmas Num NumLaws Values Dimension Space Optimizer SpaceSpec OptSpec OptLemmas OptLemmas5 OptSamples SamplerSamples PickCases Acquisition AcqSpec GaussLemmas
  Kernels KernelPsdSpec Gpr GprSpec GprSamples Cholesky GpWorld CampaignSpec Campaign GpDependable CampaignCases WarpLemmas TreeCases
  Minimize MinSpec MinTotalSpec MinTotal MinInstances.
Import ListNotations.
Open Scope list_scope.
Set Implicit Arguments.

(** ** Given values that differ *)
Lemma observed_in ps ys vs : Forall2 (observation Rops ps) ys vs -> forall y, In y ys -> exists v, In v vs /\ observation Rops ps y v.
Proof. induction 1 as [|y v ys vs H F IH]; [easy|]. intros z [<-|Hz]; [exists v; cbn; auto|]. destruct (IH z Hz) as (w & Hw & O). exists w. cbn. auto. Qed.
Lemma differing_varied ps ys vs : Forall (valid_y1 Rops ps) ys -> Forall2 (observation Rops ps) ys vs -> differing ps ys -> varied ps vs.
Proof.
  intros Hv F D. pose proof (observed_in F) as I. destruct ps; cbn [differing] in D.
  - destruct D as ((v & t & v' & t' & I1 & I2 & N) & (w & s & w' & s' & J1 & J2 & N')).
    destruct (I _ I1) as (a & Ia & Oa). destruct (I _ I2) as (b & Ib & Ob). destruct (I _ J1) as (c & Ic & Oc). destruct (I _ J2) as (d & Id & Od).
    inversion Oa; subst. inversion Ob; subst. inversion Oc; subst. inversion Od; subst. split; [do 2 eexists; split; [exact Ia|]; split; [exact Ib|exact N]|].
    intros _. do 4 eexists. split; [exact Ic|]. split; [exact Id|].
    assert (P : forall y u, In (YLst [YNum y; YNum u]) ys -> (0 < u)%R).
    { intros y u Iu. rewrite Forall_forall in Hv. destruct (Hv _ Iu) as (y' & u' & [= <- <-] & Q). cbn in Q. unfold Rleb' in Q. destruct (Rle_dec u 0); [discriminate|lra]. }
    cbn. intros E. apply N'. apply ln_inv; [eapply P; eauto|eapply P; eauto|exact E].
  - destruct D as (a & b & Ia & Ib & N). destruct (I _ Ia) as (v & Iv & Ov). destruct (I _ Ib) as (w & Iw & Ow). inversion Ov; subst. inversion Ow; subst.
    split; [do 2 eexists; split; [exact Iv|]; split; [exact Iw|exact N]|discriminate].
Qed.

(** ** gp_minimize *)
Section Gp.
  Context (cdf pdf : R -> R) (xi : option R) (kappa : option (@kappa_arg R)) (argsort : list R -> list nat)
          (generate : list (dim R) -> Z -> Z -> res (list (point R))) (logmax : R).
  Lemma c92_gp tune e0 lbfgs : let W := gp_world tune cho_inv cho_weights cdf pdf e0 xi kappa argsort lbfgs generate logmax in
    forall RNG (G : rng_ops R RNG), rng_ok Rops G ->
    forall own f (a : margs R RNG surrogate) g x0 acq d, orderly (MGp own) f a x0 acq ->
    set_kinds_all KNormalize (a_dims (m_opt a)) = Ok d -> List.Forall workable d ->
    (forall k X y, valid k (t_n_dims d) -> valid (tune k X y) (t_n_dims d)) -> valid (user_kernel e0) (t_n_dims d) ->
    match e_noise e0 with NoiseOther => False | NoiseLevel v => (0 <= v)%R | _ => True end -> (0 < e_alpha e0)%R ->
    (a_acqopt (m_opt a) = "auto"%string -> forall m q yopt r, In q (cand_acqs acq) -> within (O := Rops) (space_tbounds Rops d) r ->
       exists r' v, lbfgs q m yopt (space_tbounds Rops d) r = Ok (r', v) /\ within (O := Rops) (space_tbounds Rops d) r') ->
    argsort_ok Rops W ->
    (forall n seed, (0 <= n)%Z -> exists l, generate d n seed = Ok l /\ length l = Z.to_nat n /\ List.Forall (in_space Rops d) l) ->
    exists t o r, minimize Rops G W (MGp own) f a g = (t, Some o, r) /\ match r with
      | Ok r => r <> None /\ (never_stops (callbacks_of a) -> Z.of_nat (length (evals t)) = m_ncalls a)
      | Raise _ => ~ varied (is_ps acq) (o_yi o) /\ forall ys, values_of (m_y0 a) = Some ys -> ~ differing (is_ps acq) ys
      end.
  Proof.
    intros W RNG G RG own f a g x0 acq d H Hd Hw Ht Hk Hnz Ha Hl Hs Hg.
    destruct (@c92_min _ _ G W (varied (is_ps acq)) RG (MGp own) f a g x0 acq) as (t & o & r & E & K); [discriminate|exact H| |].
    { intros d' lb U Lb. cbn [used] in U. rewrite U in Hd. injection Hd as ->. split; [exact Hw|].
      apply gp_dependable_varied; try assumption. intros Q. apply Hl. exact (proj1 (Lb Q)). }
    exists t, o, r. split; [exact E|]. destruct r as [r|x]; [exact K|]. destruct K as (K & L). split; [exact K|]. intros ys Ey D.
    destruct (L ys Ey) as (vs & l & F & Ol). apply K. rewrite Ol. apply varied_mono. pose proof (or_values H) as V. rewrite Ey in V. destruct V as (_ & V).
    exact (differing_varied V F D).
  Qed.
End Gp.

(** ** Cases: normalize_y=True, two points of the design, told with values (and times) that differ *)
Definition gpN : gpr := mkGpr (Some (Prod (Const 1) (Matern Nu5Half (Aniso [1; 2]%R)))) NoiseGaussian (/ 100)%R true None.
Definition WN (cdf pdf : R -> R) : world R surrogate :=
  gp_world keep cho_inv cho_weights cdf pdf gpN None None (arg_sort Rops) (fun _ _ _ _ x => Ok (x, 0%R)) genR 709%R.
Definition zR (acq : acqf) (v : R) : yarg R := if is_ps acq then YLst [YNum v; YNum v] else YNum v.
Lemma zR_ok acq v : (0 < v)%R -> valid_y1 Rops (is_ps acq) (zR acq v).
Proof.
  intros H. unfold zR, valid_y1. destruct (is_ps acq); [|eauto]. do 2 eexists. split; [reflexivity|]. cbn. unfold Rleb'. destruct (Rle_dec v 0); [exfalso; lra|reflexivity].
Qed.
Lemma zR_differ acq : differing (is_ps acq) [zR acq 4%R; zR acq 5%R].
Proof.
  unfold zR. destruct (is_ps acq); cbn [differing].
  - split; exists 4%R, 4%R, 5%R, 5%R; (split; [cbn; auto|]); (split; [cbn; auto|lra]).
  - exists 4%R, 5%R. split; [cbn; auto|]. split; [cbn; auto|lra].
Qed.
Lemma WN_dependable cdf pdf acq lb : dependable (WN cdf pdf) (varied (is_ps acq)) mixR acq lb.
Proof.
  apply gp_dependable_varied; try reflexivity.
  - intros k X y H. exact H.
  - repeat constructor; lra.
  - cbn. lra.
  - intros _ m a yopt r _ H. do 2 eexists. split; [reflexivity|exact H].
  - intros l Hl. exact (arg_sort_ok Rops Rops_order l Hl).
  - exact genR_ok.
Qed.
Definition argsN (acq : string) (gen : bool) : oargs R := mkArgs [realR KIdentity; colorR KOnehot] (Some gp_est) true 2 gen acq "sampling" (Some 2%Z) 3 2 1%R.
Lemma camp_normalised cdf pdf s acq (gen : bool) : acq_of s = Some acq -> let W := WN cdf pdf in let need := varied (is_ps acq) in
  exists o, campaign GR W need o /\ open o /\ fine o (CTell (X2 [pR1; pR2]) (YLst [zR acq 4%R; zR acq 5%R]) true) /\
    exists o' r, tell Rops GR W (X2 [pR1; pR2]) (YLst [zR acq 4%R; zR acq 5%R]) true o = (o', Ok r) /\ campaign GR W need o' /\ open o' /\ need (o_yi o') /\
    (c_n0 (o_cfg o') <= Z.of_nat (length (o_yi o')))%Z /\ c_est (o_cfg o') <> None /\ c_acq (o_cfg o') = acq /\ fine o' (CAsk (NPInt 3) "cl_mean").
Proof.
  intros E W need.
  assert (Mk : exists g o, make_optimizer Rops GR W (argsN s gen) 0%nat = (g, Ok o) /\ sensible W need (o_cfg o) /\ c_dims (o_cfg o) = mixR /\ c_acq (o_cfg o) = acq /\
    o_left o = 2%Z /\ c_n0 (o_cfg o) = 2%Z /\ c_est (o_cfg o) <> None).
  { unfold make_optimizer. cbn [argsN a_acq]. rewrite E. cbn -[finish is_ps W].
    assert (F : forall e g, exists g' o, finish Rops GR W (argsN s gen) acq (Some e) false true g = (g', Ok o) /\ sensible W need (o_cfg o) /\ c_dims (o_cfg o) = mixR /\ c_acq (o_cfg o) = acq /\
      o_left o = 2%Z /\ c_n0 (o_cfg o) = 2%Z /\ c_est (o_cfg o) <> None).
    { intros e g. unfold finish. destruct gen; cbn -[W need]; do 2 eexists; (split; [reflexivity|]); cbn -[W need];
        (split; [|repeat split; discriminate]); (split; [discriminate|]); (split; [exact mixR_workable|]); repeat (split; [easy|]); apply WN_dependable. }
    destruct (is_ps acq) eqn:P; cbn -[finish W need]; apply F. }
  destruct Mk as (g & o & Em & Hs & Ed & Ea & El & En & Ee).
  assert (C : campaign GR W need o) by (eapply camp_make; eauto).
  assert (O : open o) by (left; rewrite El; lia).
  assert (V : Forall (valid_y1 Rops (is_ps acq)) [zR acq 4%R; zR acq 5%R]) by (repeat apply Forall_cons; try apply Forall_nil; apply zR_ok; lra).
  assert (F : fine o (CTell (X2 [pR1; pR2]) (YLst [zR acq 4%R; zR acq 5%R]) true)).
  { apply fine_tells; [discriminate|reflexivity|rewrite Ed; exact (Forall_cons _ pR1_in (Forall_cons _ pR2_in (Forall_nil _)))|]. unfold ps_of. rewrite Ea. exact V. }
  exists o. split; [exact C|]. split; [exact O|]. split; [exact F|].
  pose proof (campaign_sound GR_ok (@varied_mono (is_ps acq)) C) as Sd.
  destruct (tell_full GR_ok Sd F) as (o' & r & Et & (vs & l & Ly & Fo) & K). specialize (Fo _ _ eq_refl eq_refl). unfold ps_of in Fo. rewrite Ea in Fo.
  assert (Nd : need (o_yi o')).
  { assert (Y : o_yi o = []) by (eapply make_empty; exact Em). rewrite Ly, Y. cbn [app]. apply varied_mono. exact (differing_varied V Fo (zR_differ acq)). }
  destruct r as [r|x]; [|now elim K]. destruct K as (S' & Ec & Hn & Ho & _). specialize (Ho eq_refl). exists o', r. split; [exact Et|].
  split; [eapply (camp_call C F); cbn [do_call]; rewrite Et; reflexivity|]. split; [exact Ho|]. split; [exact Nd|]. rewrite !Ec, En, Ea.
  split; [|split; [exact Ee|split; [reflexivity|constructor; [exact Ho|lia|cbn; auto]]]].
  rewrite Ly, !app_length. inversion Fo as [|? ? ? ? _ Fo1]; subst. inversion Fo1; subst. cbn [length]. lia.
Qed.
Lemma c92_case s acq (gen : bool) : acq_of s = Some acq ->
  exists t o r, minimize Rops GR (WN Phi phi) (MGp false) (fR acq) (argsM gp_est s gen (Y0Seq [zR acq 4%R; zR acq 5%R])) 0%nat = (t, Some o, Ok (Some r)).
Proof.
  intros E.
  destruct (@c92_gp Phi phi None None (arg_sort Rops) genR 709%R keep gpN (fun _ _ _ _ x => Ok (x, 0%R)) nat GR GR_ok false (fR acq) (argsM gp_est s gen (Y0Seq [zR acq 4%R; zR acq 5%R])) 0%nat [pR1; pR2] acq mixR) as (t & o & r & H & K).
  - destruct (@orderly_case surrogate (MGp false) gp_est s acq gen) as (_ & [H1 H2 H3 H4 H5 H6 H7 H8 H9]); [discriminate|reflexivity|exact E|]. constructor; try assumption.
    cbn. split; [reflexivity|]. repeat apply Forall_cons; try apply Forall_nil; apply zR_ok; lra.
  - exact normal_treeR.
  - exact mixR_workable.
  - intros k X y V. exact V.
  - repeat constructor; lra.
  - exact I.
  - cbn. lra.
  - intros _ m q yopt r _ Q. do 2 eexists. split; [reflexivity|exact Q].
  - intros l Hl. exact (arg_sort_ok Rops Rops_order l Hl).
  - exact genR_ok.
  - destruct r as [[r|]|x]; [exists t, o, r; exact H|now destruct K|]. destruct K as (_ & K). now elim (K _ eq_refl (zR_differ acq)).
Qed.
