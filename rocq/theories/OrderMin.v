(** Minimisers started from the same evaluations in another order (C102). *)
From Coq Require Import String List ZArith Bool Lia Reals Permutation.
From Verif Require Import Base BaseLemmas Num NumLaws Values Dimension Space Optimizer SpaceSpec OptSpec CampaignSpec Campaign WarpLemmas
  OptLemmas OptLemmas4 OptLemmas5 Minimize MinSpec MinLemmas MinProps MinDummy MinConv MinTotalSpec MinTotal OrderSpec OrderSim OrderMinSpec.
Import ListNotations.
Open Scope list_scope.
Set Implicit Arguments.

Section OrderMin.
  Context {RNG M : Type} (G : rng_ops R RNG) (W : world R M) (RG : rng_ok Rops G) (alike : M -> M -> Prop).
  Notation state := (opt R RNG M).
  Notation result := (result R RNG M).
  Notation dims o := (c_dims (o_cfg o)).
  Notation sound := (sound G W anything).

  Definition alike_last (r r' : option result) : Prop := match r, r' with Some r, Some r' => same_but_order r r' | None, None => True | _, _ => False end.

  Lemma calls_evals n (r : result) i : evals (map (fun j => ECall j r) (seq i n)) = [].
  Proof. revert i. induction n as [|n IH]; intros i; [reflexivity|]. cbn [seq map]. unfold evals in *. cbn [flat_map app]. apply IH. Qed.
  Lemma pass cbs seen r (o : state) t : answers cbs -> never_stops cbs -> eval_callbacks cbs 0 seen r false (o, t) = ((o, t ++ map (fun j => ECall j r) (seq 0 (length cbs))), Ok false).
  Proof. intros Ha Hn. destruct (callbacks_total Ha 0 seen r false o t) as [b Eb]. destruct (callbacks_pass seen r o t Ha Hn) as (t' & E). rewrite E in Eb. injection Eb as -> <-. exact E. Qed.

  Lemma loop_sim D f cbs : order_free W D alike -> answers cbs -> never_stops cbs -> forall n k seen seen' last last' (o o' : state) t t' o1 t1 r o1' t1' r',
    sound o -> sound o' -> rel D alike o o' -> serves f (ps_of o) D -> alike_last last last' ->
    min_loop Rops G W f cbs k n seen last (o, t) = ((o1, t1), Ok r) -> min_loop Rops G W f cbs k n seen' last' (o', t') = ((o1', t1'), Ok r') ->
    (exists E, evals t1 = evals t ++ E /\ evals t1' = evals t' ++ E) /\ alike_last r r'.
  Proof.
    intros OF Ha Hn. induction n as [|n IH]; intros k seen seen' last last' o o' t t' o1 t1 r o1' t1' r' So So' Ho Sv Hl E E'.
    - cbn in E, E'. injection E as <- <- <-. injection E' as <- <- <-. split; [exists []; now rewrite !app_nil_r|exact Hl].
    - cbn [min_loop] in E, E'. unfold mthen, emit, mlift, onopt in E, E'. cbn [fst snd] in E, E'.
      destruct (ask1 Rops G o) as (oa & [p|x]) eqn:Ea; [|discriminate]. destruct (ask1 Rops G o') as (oa' & [p'|x]) eqn:Ea'; [|discriminate]. cbn [fst snd] in E, E'.
      destruct (sim_ask1 G Ho Ea Ea') as (Ra & <-).
      destruct (ask_in RG So Ea) as (Ip & g & ->). destruct (ask_in RG So' Ea') as (Ip' & g' & ->). rewrite (rl_dims Ho) in Ip. rewrite (rl_cfg Ho), (rl_dims Ho) in Ip'.
      destruct (Sv k p Ip) as (y & Ey & Vy). rewrite Ey in E, E'. cbn [fst snd] in E, E'.
      assert (S1 : sound (set_rng g o)) by now apply sound_rng. assert (S1' : sound (set_rng g' o')) by now apply sound_rng.
      assert (F : fine (set_rng g o) (CTell (X1 p) y true)) by (constructor; [cbn; rewrite (rl_dims Ho); exact Ip|exact Vy]).
      assert (F' : fine (set_rng g' o') (CTell (X1 p) y true)) by (constructor; [cbn; rewrite (rl_cfg Ho), (rl_dims Ho); exact Ip|unfold ps_of; cbn; rewrite (rl_cfg Ho); exact Vy]).
      destruct (tell_user_total RG S1 F) as (o2 & r2 & Et & _ & K). destruct (tell_user_total RG S1' F') as (o2' & r2' & Et' & _ & K').
      rewrite Et in E. rewrite Et' in E'. destruct r2 as [r2|]; [|discriminate]. destruct r2' as [r2'|]; [|discriminate]. cbn [fst snd] in E, E'.
      destruct K as (S2 & C2 & _). destruct K' as (S2' & _).
      destruct (s_cfg So) as (Hne & Hw & _). rewrite (rl_dims Ho) in Hne, Hw.
      destruct (sim_tell1 G OF Hne (work_bounded Hw) y true Ip Ra Et Et') as (R2 & Q2). change (alike_last (Some r2) (Some r2')) in Q2.
      rewrite (pass seen r2 _ _ Ha Hn) in E. rewrite (pass seen' r2' _ _ Ha Hn) in E'.
      destruct (IH _ _ _ _ _ _ _ _ _ _ _ _ _ _ _ S2 S2' R2 ltac:(unfold ps_of in *; rewrite C2; exact Sv) Q2 E E') as ((L & E1 & E2) & Q).
      split; [|exact Q]. exists (p :: L). rewrite E1, E2, !evals_app, !calls_evals, !app_nil_r. cbn. now rewrite <- !app_assoc.
  Qed.

  Lemma same_refl (r : result) : same_but_order r r.
  Proof. unfold same_but_order. auto 6. Qed.

  Lemma base_sim f (a a' : margs R RNG M) g x0 ys x0' ys' acq t o r t' o' r' : orderly MBase f a x0 acq -> up_to_it W anything MBase (m_opt a) acq ->
    (forall d, used MBase (m_opt a) d -> order_free W d alike) -> restarted a a' x0 ys x0' ys' -> never_stops (callbacks_of a) ->
    base_minimize Rops G W f a g = (t, Some o, Ok (Some r)) -> base_minimize Rops G W f a' g = (t', Some o', Ok (Some r')) -> evals t' = evals t /\ same_but_order r r'.
  Proof.
    intros [Ea He Ho Hd (_ & Hx) Hv (Hn & Hp & Hc) Hf (Hcb & Hans)] Hu OF [(Hg & Hg') (Ey & Ey') (Ll & Ll') HP Eo Ec Ei Ecb Evb] Hns. cbn [acqopt_for] in *. rewrite Ey in Hv, Hc.
    assert (LX : length x0' = length x0) by (apply Permutation_length in HP; rewrite !combine_length in HP; lia).
    assert (Hx0' : Forall (in_space Rops (a_dims (m_opt a))) x0').
    { apply (Permutation_map fst) in HP. rewrite !fst_combine in HP by auto. rewrite Forall_forall in *. intros p Hin. apply Hx. apply Permutation_in with x0'; [now symmetry|exact Hin]. }
    set (a0 := set_n0 (n_initial a + Z.of_nat (length x0)) (m_opt a)).
    destruct (@c83_make _ _ G W a0 acq g) as (g' & o0 & Em & Ac & Lo & Do); cbn [a0 set_n0 a_acq a_n0 a_est a_acqopt a_dims a_gen]; auto.
    { lia. }
    { destruct (a_est (m_opt a)); [exact He|apply He]. }
    { intros d n seed D Hn'. destruct (Hu d false D) as (_ & _ & _ & K); [discriminate|]. destruct (K n seed Hn') as (l & E & _). eauto. }
    cbn [a0 set_n0 a_n0 a_dims] in Lo, Do.
    destruct (@make_settings RNG M G W a0 acq g g' o0 Ea Em) as (S1 & S2 & S3 & S4 & S5 & S6). cbn [a0 set_n0 a_npoints a_restarts a_queue a_est a_gen a_acqopt] in *.
    destruct (Hu (dims o0) (c_lbfgs (o_cfg o0)) Do (S6 Ho)) as (Hw & Hdep).
    assert (Hs : sensible W anything (o_cfg o0)).
    { destruct Hd as (D1 & D2 & D3 & D4). split.
      { destruct Do as [-> | (_ & Do)]; [exact D1|]. rewrite set_kinds_normalize in Do. injection Do as <-. destruct (a_dims (m_opt a)); easy. }
      split; [exact Hw|]. split; [congruence|]. split; [congruence|]. split; [rewrite S3; exact D4|]. split; [|rewrite Ac; exact Hdep].
      intros En. rewrite S5. specialize (S4 En). rewrite S4 in He. apply He. }
    pose proof (Campaign.make_sound _ _ _ Em Hs) as Hso. specialize (OF _ Do).
    assert (Sv : serves f (ps_of o0) (dims o0)). { intros k p Ip. unfold ps_of. rewrite Ac. apply Hf. now apply (used_in p Do). }
    assert (Hx1 : Forall (in_space Rops (dims o0)) x0) by (eapply Forall_impl; [|exact Hx]; intros p; apply (used_in p Do)).
    assert (Hx1' : Forall (in_space Rops (dims o0)) x0') by (eapply Forall_impl; [|exact Hx0']; intros p; apply (used_in p Do)).
    destruct Hs as (Hne & _).
    assert (R0 : rel (dims o0) alike o0 o0).
    { constructor; auto; [rewrite (proj1 (make_empty Rops G W _ _ Em)); constructor|]. destruct (s_x Hso) as (P & EP & FP & LP). exists P, P. auto 10. }
    unfold base_minimize. rewrite (given_items Hg), (given_items Hg'). fold (n_initial a) (n_initial a'). rewrite Ei, Ec, Eo, Ecb, Evb, !map_length, LX.
    destruct ((_ <=? 0)%Z && _); [discriminate|]. destruct (_ && _); [discriminate|].
    destruct (m_ncalls a <? _)%Z; [discriminate|]. destruct (m_ncalls a <? _)%Z; [discriminate|]. unfold a0 in Em. rewrite Em.
    assert (Ep : forall l : list (point R), mapM as_point (map IPt l) = Ok l) by (clear; induction l as [|p l IH]; [easy|]; cbn in *; now rewrite IH).
    rewrite !Ep. destruct (negb _); [discriminate|]. destruct (negb _); [discriminate|].
    assert (Hck : exists cbs, check_callback (m_callback a) = Ok cbs /\ (if m_verbose a then cbs ++ [verbose_callback] else cbs) = callbacks_of a).
    { unfold callbacks_of, check_callback. destruct (m_callback a); try easy; eexists; (split; [reflexivity|]);
        destruct (m_verbose a); cbn; rewrite ?app_nil_r; auto. }
    destruct Hck as (cbs & Eck & Ecbs). rewrite Eck, Ecbs.
    assert (Hans' : answers (callbacks_of a)) by exact Hans.
    assert (Y : y0_list (m_y0 a) = Y0Seq ys) by (destruct (m_y0 a); cbn in Ey |- *; congruence).
    assert (Y' : y0_list (m_y0 a') = Y0Seq ys') by (destruct (m_y0 a'); cbn in Ey' |- *; congruence).
    rewrite Y, Y'. destruct x0 as [|p x0].
    - destruct x0'; [|discriminate]. cbn [min_body]. destruct (min_loop _ _ _ _ _ _ _ _ _ _) as ((o1 & t1) & r1). intros E E'. rewrite E in E'. injection E' as <- _ <-. split; [reflexivity|apply same_refl].
    - destruct x0' as [|p' x0']; [discriminate|]. cbn [min_body]. set (X := p :: x0) in *. set (X' := p' :: x0') in *. unfold mthen, mret, onopt. cbn [fst snd].
      rewrite Ll, Ll', !Nat.eqb_refl. cbn [negb fst snd].
      assert (Vy : Forall (valid_y1 Rops (ps_of o0)) ys) by (unfold ps_of; rewrite Ac; apply Hv).
      assert (Vy' : Forall (valid_y1 Rops (ps_of o0)) ys').
      { pose proof (Permutation_map snd HP) as HP2. rewrite !snd_combine in HP2 by auto. rewrite Forall_forall in *. intros q Hin. apply Vy. apply Permutation_in with ys'; [now symmetry|exact Hin]. }
      assert (F : fine o0 (CTell (X2 X) (YLst ys) true)) by (apply fine_tells; [unfold X; discriminate|symmetry; exact Ll|exact Hx1|exact Vy]).
      assert (F' : fine o0 (CTell (X2 X') (YLst ys') true)) by (apply fine_tells; [unfold X'; discriminate|symmetry; exact Ll'|exact Hx1'|exact Vy']).
      destruct (tell_user_total RG Hso F) as (o2 & r2 & Et & _ & K). destruct (tell_user_total RG Hso F') as (o2' & r2' & Et' & _ & K'). rewrite Et, Et'.
      destruct r2 as [r2|]; [|discriminate]. destruct r2' as [r2'|]; [|discriminate]. destruct K as (S2' & C2 & _). destruct K' as (S2'' & _).
      destruct (@sim_tells RNG M G W (dims o0) alike OF Hne (work_bounded Hw) X ys X' ys' true Hx1 Hx1' (eq_sym Ll) (eq_sym Ll') HP _ _ _ _ _ _ R0 Et Et') as (R2 & Q2). change (alike_last (Some r2) (Some r2')) in Q2.
      rewrite !(pass _ _ _ _ Hans' Hns).
      destruct (min_loop Rops G W f (callbacks_of a) 0 _ [r2] _ _) as ((o3 & t3) & r3) eqn:E3. destruct (min_loop Rops G W f (callbacks_of a) 0 _ [r2'] _ _) as ((o3' & t3') & r3') eqn:E3'.
      intros E E'. injection E as <- <- ->. injection E' as <- <- ->.
      destruct (@loop_sim (dims o0) f (callbacks_of a) OF Hans' Hns _ _ _ _ _ _ _ _ _ _ _ _ _ _ _ _ S2' S2'' R2 ltac:(unfold ps_of in *; rewrite C2; exact Sv) Q2 E3 E3') as ((L & -> & ->) & Q).
      rewrite !evals_app, !calls_evals. split; [reflexivity|exact Q].
  Qed.

  Lemma orderly_restarted m f (a a' : margs R RNG M) x0 ys x0' ys' acq : orderly m f a x0 acq -> restarted a a' x0 ys x0' ys' -> orderly m f a' x0' acq.
  Proof.
    intros [Ea He Ho Hd (_ & Hx) Hv (Hn & Hp & Hc) Hf (Hcb & Hans)] [(Hg & Hg') (Ey & Ey') (Ll & Ll') HP Eo Ec Ei Ecb Evb]. rewrite Ey in Hv, Hc.
    assert (LX : length x0' = length x0) by (apply Permutation_length in HP; rewrite !combine_length in HP; lia).
    constructor; rewrite ?Eo, ?Ecb; auto.
    - split; [exact Hg'|]. apply (Permutation_map fst) in HP. rewrite !fst_combine in HP by auto. rewrite Forall_forall in *. intros p Hin. apply Hx. apply Permutation_in with x0'; [now symmetry|exact Hin].
    - rewrite Ey'. split; [exact Ll'|]. apply (Permutation_map snd) in HP. rewrite !snd_combine in HP by auto. destruct Hv as (_ & Hv). rewrite Forall_forall in *. intros q Hin. apply Hv. apply Permutation_in with ys'; [now symmetry|exact Hin].
    - rewrite Ei, Ec, Ey'. split; [exact Hn|]. split; [|exact Hc]. intros ->. apply Hp. now destruct x0.
    - split; [exact Hcb|]. unfold callbacks_of in *. rewrite Ecb, Evb. exact Hans.
  Qed.
  Lemma with_restarted o (a a' : margs R RNG M) x0 ys x0' ys' : restarted a a' x0 ys x0' ys' -> restarted (with_opt o a) (with_opt o a') x0 ys x0' ys'.
  Proof. intros [A B C D E F H I J]. constructor; auto. Qed.

  Lemma c102_min m f (a a' : margs R RNG M) g x0 ys x0' ys' acq : m <> MDummy -> orderly m f a x0 acq -> up_to_it W anything m (m_opt a) acq ->
    (forall d, used m (m_opt a) d -> order_free W d alike) -> restarted a a' x0 ys x0' ys' -> never_stops (callbacks_of a) ->
    exists t o r t' o' r', minimize Rops G W m f a g = (t, Some o, Ok (Some r)) /\ minimize Rops G W m f a' g = (t', Some o', Ok (Some r')) /\
      evals t' = evals t /\ same_but_order r r'.
  Proof.
    intros Hm H Hu OF HR Hns. destruct (c91 RG g Hm H Hu) as (t & o & r & E & _).
    assert (Hu' : up_to_it W anything m (m_opt a') acq) by (rewrite (rs_opt HR); exact Hu).
    destruct (c91 RG g Hm (orderly_restarted H HR) Hu') as (t' & o' & r' & E' & _). exists t, o, r, t', o', r'. split; [exact E|]. split; [exact E'|].
    destruct m as [| | | |own]; cbn [minimize] in E, E'.
    - exact (base_sim g H Hu OF HR Hns E E').
    - easy.
    - unfold forest_minimize in E, E'. rewrite (rs_opt HR) in E'. refine (base_sim (acq := acq) (a := with_opt (with_acqopt "sampling" (m_opt a)) a) _ _ Hu OF (with_restarted _ HR) Hns E E'). destruct H as [H1 H2 H3 H4 H6 H7 H8 H9 H10]. constructor; assumption.
    - unfold gbrt_minimize, forest_minimize in E, E'. rewrite (rs_opt HR) in E'. refine (base_sim (acq := acq) (a := with_opt (with_acqopt "sampling" (m_opt a)) a) _ _ Hu OF (with_restarted _ HR) Hns E E'). destruct H as [H1 H2 H3 H4 H6 H7 H8 H9 H10]. constructor; assumption.
    - unfold gp_minimize in E, E'. rewrite (rs_opt HR) in E'. rewrite set_kinds_normalize in E, E'.
      assert (I : map (@normalised R) (map (@normalised R) (a_dims (m_opt a))) = map (@normalised R) (a_dims (m_opt a))) by (rewrite map_map; apply map_ext; now intros [?|?|?]).
      assert (U : forall d, used MBase (with_dims (map (@normalised R) (a_dims (m_opt a))) (m_opt a)) d -> used (MGp own) (m_opt a) d).
      { intros d [-> | (_ & D)]; cbn [used]; rewrite set_kinds_normalize; [reflexivity|]. rewrite set_kinds_normalize in D. rewrite <- I. exact D. }
      refine (base_sim (acq := acq) _ _ _ _ (with_restarted _ HR) Hns E E').
      + destruct H as [H1 H2 H3 H4 H6 H7 H8 H9 H10]. constructor; try assumption.
        * cbn. destruct (a_dims (m_opt a)); [now destruct H4|]. cbn. split; [discriminate|apply H4].
        * cbn. split; [apply H6|]. eapply Forall_impl; [|apply H6]. intros p. apply in_scaled.
        * cbn. intros k p Ip. apply H9. now apply in_unscaled.
      + intros d lb D. apply Hu. now apply U.
      + intros d D. apply OF. now apply U.
  Qed.
End OrderMin.
