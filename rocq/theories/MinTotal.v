(** Minimisers called as documented succeed (C91). *)
From Coq Require Import String List ZArith Bool Lia Reals.
From Verif Require Import Base BaseLemmas Num NumLaws Values Dimension Space Optimizer SpaceSpec OptSpec CampaignSpec Campaign WarpLemmas
  OptLemmas OptLemmas4 OptLemmas5 Minimize MinSpec MinLemmas MinProps MinDummy MinConv MinTotalSpec.
Import ListNotations.
Open Scope list_scope.
Set Implicit Arguments.

Section MinTotal.
  Context {RNG M : Type} (G : rng_ops R RNG) (W : world R M) (need : list (yval R) -> Prop) (RG : rng_ok Rops G).
  Notation state := (opt R RNG M).
  Notation result := (result R RNG M).
  Notation dims o := (c_dims (o_cfg o)).

  Definition serves (f : objective R) (ps : bool) (d : list (dim R)) : Prop :=
    forall k p, in_space Rops d p -> exists y, f k p = Ok y /\ valid_y1 Rops ps y.

  Lemma loop_runs f cbs n : forall k seen last (o : state) t, sound G W need o -> open o -> serves f (ps_of o) (dims o) -> answers cbs ->
    exists o' t' r, min_loop Rops G W f cbs k n seen last (o, t) = ((o', t'), r) /\ (exists l, o_yi o' = o_yi o ++ l) /\
      match r with Ok res => n <> 0 \/ last <> None -> res <> None | Raise _ => ~ need (o_yi o') end.
  Proof.
    induction n as [|n IH]; intros k seen last o t Hs Ho Hf Hc.
    - eexists _, _, _. split; [reflexivity|]. split; [exists []; now rewrite app_nil_r|]. intros [H|H]; easy.
    - destruct (Campaign.ask1_total RG Hs Ho) as (o1 & [p|x] & Ea & La & K); cbn [min_loop]; unfold mthen, emit, mlift, onopt; cbn [fst snd]; rewrite Ea; cbn [fst snd].
      2:{ eexists _, _, _. split; [reflexivity|]. split; [exact La|exact K]. }
      destruct K as (Ip & g & ->). destruct (Hf k p Ip) as (y & Ey & Hy).
      assert (S1 : sound G W need (set_rng g o)) by now apply sound_rng.
      assert (F : fine (set_rng g o) (CTell (X1 p) y true)) by (constructor; [exact Ip|exact Hy]).
      rewrite Ey. destruct (tell_user_total RG S1 F) as (o2 & [r|x] & Et & Lt & K); rewrite Et; cbn [fst snd].
      2:{ eexists _, _, _. split; [reflexivity|]. split; [exact Lt|exact K]. }
      destruct K as (S2 & C2 & N2 & O2 & _). specialize (O2 eq_refl).
      destruct (callbacks_total Hc 0 seen r false o2 (t ++ [EEval p])) as [b Eb]. rewrite Eb. destruct b; [eexists _, _, _; split; [reflexivity|]; split; [exact Lt|easy]|].
      destruct (IH (S k) (seen ++ [r]) (Some r) o2 (t ++ [EEval p] ++ map (fun j => ECall j r) (seq 0 (length cbs))) S2 O2) as (o3 & t3 & res & E & Ll & H); [|exact Hc|].
      + unfold serves, ps_of. rewrite C2. exact Hf.
      + rewrite <- app_assoc. exists o3, t3, res. split; [exact E|]. split; [exact (grown_trans (o1 := o) Lt Ll)|]. destruct res; [|exact H]. intros _. apply H. right. discriminate.
  Qed.
  Lemma points_run f : forall xs k (o : state) t d ps, Forall (in_space Rops d) xs -> serves f ps d ->
    exists ys t', eval_points f k xs (o, t) = ((o, t'), Ok ys) /\ length ys = length xs /\ Forall (valid_y1 Rops ps) ys.
  Proof.
    induction xs as [|x xs IH]; intros k o t d ps Hx Hf.
    - exists [], t. split; [reflexivity|]. split; [reflexivity|constructor].
    - inversion Hx; subst. destruct (Hf k x) as (y & Ey & Hy); [easy|].
      cbn [eval_points]. unfold mthen, emit, mlift. cbn [fst snd]. rewrite Ey.
      destruct (IH (S k) o (t ++ [EEval x]) d ps) as (ys & t' & E & Hl & Hv); auto. exists (y :: ys), t'. rewrite E. split; [reflexivity|]. split; [cbn; lia|now constructor].
  Qed.

  Lemma in_scaled ds p : in_space Rops ds p -> in_space Rops (map (@normalised R) ds) p.
  Proof. unfold in_space. induction 1 as [|d v ds p H F IH]; [constructor|]. constructor; [|exact IH]. destruct d; inversion H; subst; constructor; assumption. Qed.
  Lemma in_unscaled ds : forall p, in_space Rops (map (@normalised R) ds) p -> in_space Rops ds p.
  Proof. unfold in_space. induction ds as [|d ds IH]; intros p H; inversion H; subst; constructor; auto. now apply in_normalised. Qed.
  Lemma used_in ds d p Q : d = ds \/ Q /\ set_kinds_all KNormalize ds = Ok d -> in_space Rops ds p <-> in_space Rops d p.
  Proof.
    intros [-> | (_ & H)]; [easy|]. rewrite set_kinds_normalize in H. injection H as <-. split; [apply in_scaled|apply in_unscaled].
  Qed.

  Lemma finish_settings a acq e lb norm g g' (o : state) : finish Rops G W a acq e lb norm g = (g', Ok o) ->
    c_npoints (o_cfg o) = a_npoints a /\ c_restarts (o_cfg o) = a_restarts a /\ c_queue (o_cfg o) = a_queue a /\ c_est (o_cfg o) = e /\ c_gen (o_cfg o) = a_gen a /\
    c_lbfgs (o_cfg o) = lb.
  Proof. intros H. apply finish_ok in H. destruct H as (d & init & _ & -> & _). repeat split. Qed.
  Lemma make_settings a acq g g' (o : state) : acq_of (a_acq a) = Some acq -> make_optimizer Rops G W a g = (g', Ok o) ->
    c_npoints (o_cfg o) = a_npoints a /\ c_restarts (o_cfg o) = a_restarts a /\ c_queue (o_cfg o) = a_queue a /\ (c_est (o_cfg o) = None -> a_est a = None) /\
    c_gen (o_cfg o) = a_gen a /\ (In (a_acqopt a) ["auto"; "sampling"]%string -> c_lbfgs (o_cfg o) = true -> may_lbfgs MBase a acq).
  Proof.
    intros Ea. unfold make_optimizer. rewrite Ea. destruct (a_n0 a <? 0)%Z; [discriminate|]. destruct (a_est a) as [e|] eqn:Ee.
    - destruct (negb (ed_regressor e)); [discriminate|]. destruct (negb (_ || _)); [discriminate|]. destruct (negb _ && negb _); [discriminate|]. intros H.
      apply finish_settings in H. destruct H as (A & B & C & D & E & F). repeat (split; [assumption|]). split; [now rewrite D|]. split; [exact E|].
      rewrite F. intros Ho H. unfold may_lbfgs. cbn [acqopt_for]. destruct Ho as [Eo|[Eo|[]]]; rewrite <- Eo in H; cbn in H; [|discriminate].
      split; [easy|]. exists e. split; [exact Ee|]. destruct (is_ps acq); [now right|left]. cbn in H. destruct (ed_grad e); [reflexivity|discriminate].
    - destruct (is_ps acq); [discriminate|]. destruct (_ || _); [|discriminate]. intros H. apply finish_settings in H. destruct H as (A & B & C & D & E & F).
      repeat (split; [assumption|]). split; [easy|]. split; [exact E|]. rewrite F. discriminate.
  Qed.

  Lemma base_runs f (a : margs R RNG M) g x0 acq : orderly MBase f a x0 acq -> up_to_it W need MBase (m_opt a) acq -> exists t o r, base_minimize Rops G W f a g = (t, Some o, r) /\ match r with
    | Ok r => r <> None
    | Raise _ => ~ need (o_yi o) /\ forall ys, values_of (m_y0 a) = Some ys -> exists vs l, Forall2 (observation Rops (is_ps acq)) ys vs /\ o_yi o = vs ++ l
    end.
  Proof.
    intros [Ea He Ho Hd (Hg & Hx) Hv (Hn & Hp & Hc) Hf (Hcb & Hans)] Hu. cbn [acqopt_for] in *.
    set (a0 := set_n0 (n_initial a + Z.of_nat (length x0)) (m_opt a)).
    destruct (@c83_make _ _ G W a0 acq g) as (g' & o0 & Em & Ac & Lo & Do); cbn [a0 set_n0 a_acq a_n0 a_est a_acqopt a_dims a_gen]; auto.
    { lia. }
    { destruct (a_est (m_opt a)); [exact He|apply He]. }
    { intros d n seed D Hn'. destruct (Hu d false D) as (_ & _ & _ & K); [discriminate|]. destruct (K n seed Hn') as (l & E & _). eauto. }
    cbn [a0 set_n0 a_n0 a_dims] in Lo, Do.
    destruct (@make_settings a0 acq g g' o0 Ea Em) as (S1 & S2 & S3 & S4 & S5 & S6). cbn [a0 set_n0 a_npoints a_restarts a_queue a_est a_gen a_acqopt] in *.
    destruct (Hu (dims o0) (c_lbfgs (o_cfg o0)) Do (S6 Ho)) as (Hw & Hdep).
    assert (Hs : sensible W need (o_cfg o0)).
    { destruct Hd as (D1 & D2 & D3 & D4). split.
      { destruct Do as [-> | (_ & Do)]; [exact D1|]. rewrite set_kinds_normalize in Do. injection Do as <-. destruct (a_dims (m_opt a)); easy. }
      split; [exact Hw|]. split; [congruence|]. split; [congruence|]. split; [rewrite S3; exact D4|]. split; [|rewrite Ac; exact Hdep].
      intros En. rewrite S5. specialize (S4 En). rewrite S4 in He. apply He. }
    pose proof (Campaign.make_sound _ _ _ Em Hs) as Hso.
    assert (Op : open o0). { left. rewrite Lo. destruct x0; [specialize (Hp eq_refl); lia|cbn [length]; lia]. }
    assert (Sv : serves f (ps_of o0) (dims o0)). { intros k p Ip. unfold ps_of. rewrite Ac. apply Hf. now apply (used_in p Do). }
    assert (Hx' : Forall (in_space Rops (dims o0)) x0) by (eapply Forall_impl; [|exact Hx]; intros p; apply (used_in p Do)).
    unfold base_minimize. rewrite (given_items Hg). fold (n_initial a).
    replace ((n_initial a <=? 0)%Z && is_nil (map IPt x0)) with false.
    2:{ symmetry. apply andb_false_iff. destruct x0 as [|p x0]; [left|right; reflexivity]. apply Z.leb_gt. auto. }
    rewrite map_length.
    replace (m_ncalls a <? _)%Z with false.
    2:{ symmetry. apply Z.ltb_ge. destruct (m_y0 a) as [|x|[|y l]|]; cbn in *; try lia. }
    unfold a0 in Em. rewrite Em.
    assert (Ep : mapM as_point (map IPt x0) = Ok x0) by (clear; induction x0 as [|p l IH]; [easy|]; cbn in *; now rewrite IH).
    rewrite Ep.
    replace (forallb _ x0) with true.
    2:{ symmetry. apply forallb_forall. intros p Hp'. apply Nat.eqb_eq. rewrite Forall_forall in Hx'. symmetry. exact (Forall2_len (Hx' p Hp')). }
    cbn [negb].
    assert (Hck : exists cbs, check_callback (m_callback a) = Ok cbs /\ (if m_verbose a then cbs ++ [verbose_callback] else cbs) = callbacks_of a).
    { unfold callbacks_of, check_callback. destruct (m_callback a); try easy; eexists; (split; [reflexivity|]);
        destruct (m_verbose a); cbn; rewrite ?app_nil_r; auto. }
    destruct Hck as (cbs & Eck & Ecbs). rewrite Eck, Ecbs.
    assert (Hans' : answers (callbacks_of a)) by exact Hans.
    destruct x0 as [|p x0].
    - cbn [min_body]. destruct (@loop_runs f (callbacks_of a) (Z.to_nat (m_ncalls a)) 0 [] None o0 [] Hso Op Sv Hans') as (o' & t' & res & E & Ll & K). rewrite E.
      exists t', o', res. split; [reflexivity|]. destruct res as [r|x].
      + apply K. left. specialize (Hp eq_refl). destruct (values_of (m_y0 a)); cbn in Hc; lia.
      + split; [exact K|]. intros ys Ev. rewrite Ev in Hv. destruct Hv as (Hl & _). destruct ys; [|discriminate]. exists [], (o_yi o'). split; [constructor|reflexivity].
    - cbn [min_body]. set (X := p :: x0) in *.
      assert (E : exists ys k t', (match y0_list (m_y0 a) with
               | Y0None => mthen (eval_points f 0 X) (fun ys => mret (ys, length ys))
               | Y0Seq ys => mret (ys, 0)
               | _ => mlift (Raise ValueError)
               end) (o0, []) = ((o0, t'), Ok (ys, k)) /\ length ys = length X /\ Forall (valid_y1 Rops (ps_of o0)) ys /\
               forall zs, values_of (m_y0 a) = Some zs -> ys = zs).
      { destruct (m_y0 a) as [|x|l|] eqn:Ey; cbn [y0_list values_of] in *.
        - destruct (@points_run f X 0 o0 [] (dims o0) (ps_of o0) Hx' Sv) as (ys & t' & E & L & F). exists ys, (length ys), t'. unfold mthen. rewrite E. repeat (split; [auto|]). discriminate.
        - destruct Hv as (Hl & Hv). exists [YNum x], 0, []. unfold ps_of. rewrite Ac. repeat (split; [auto|]). congruence.
        - destruct Hv as (Hl & Hv). exists l, 0, []. unfold ps_of. rewrite Ac. repeat (split; [auto|]). congruence.
        - discriminate. }
      destruct E as (ys & k & t' & E & Hl & Fv & Fz). unfold mthen at 1. rewrite E. rewrite Hl, Nat.eqb_refl. cbn [negb].
      assert (F : fine o0 (CTell (X2 X) (YLst ys) true)) by (apply fine_tells; [unfold X; discriminate|symmetry; exact Hl|exact Hx'|exact Fv]).
      destruct (tell_full RG Hso F) as (o2 & r2 & Et & (vs & l & Ly & Fo) & K).
      assert (Y0 : o_yi o0 = []) by (eapply make_empty; exact Em).
      rewrite Y0 in Ly. specialize (Fo _ _ eq_refl eq_refl). unfold ps_of in Fo. rewrite Ac in Fo.
      assert (Last : forall o' l', o_yi o' = o_yi o2 ++ l' -> forall zs, values_of (m_y0 a) = Some zs -> exists vs l, Forall2 (observation Rops (is_ps acq)) zs vs /\ o_yi (o' : state) = vs ++ l).
      { intros o' l' E' zs Ez. rewrite <- (Fz zs Ez). exists vs, (l ++ l'). split; [exact Fo|]. rewrite E', Ly. cbn. now rewrite app_assoc. }
      unfold mthen at 1, onopt. cbn [fst snd]. rewrite Et. destruct r2 as [r2|x].
      2:{ eexists _, _, _. split; [reflexivity|]. split; [exact K|]. apply (Last o2 []). now rewrite app_nil_r. }
      destruct K as (S2' & C2 & N2 & O2 & _). specialize (O2 eq_refl). unfold mthen at 1.
      destruct (callbacks_total Hans' 0 [] r2 false o2 t') as [b Eb]. rewrite Eb. destruct b; [eexists _, _, _; split; [reflexivity|discriminate]|].
      match goal with |- context [min_loop Rops G W f (callbacks_of a) k ?n [r2] (Some r2) (o2, ?t2)] =>
        destruct (@loop_runs f (callbacks_of a) n k [r2] (Some r2) o2 t2 S2' O2) as (o' & t3 & res & E' & (l' & Ll) & K) end; [|exact Hans'|].
      + unfold serves, ps_of. rewrite C2. exact Sv.
      + rewrite E'. exists t3, o', res. split; [reflexivity|]. destruct res as [r|x]; [apply K; right; discriminate|]. split; [exact K|]. exact (Last o' l' Ll).
  Qed.

  Lemma c92_min m f (a : margs R RNG M) g x0 acq : m <> MDummy -> orderly m f a x0 acq -> up_to_it W need m (m_opt a) acq ->
    exists t o r, minimize Rops G W m f a g = (t, Some o, r) /\ match r with
    | Ok r => r <> None /\ (never_stops (callbacks_of a) -> Z.of_nat (length (evals t)) = m_ncalls a)
    | Raise _ => ~ need (o_yi o) /\ forall ys, values_of (m_y0 a) = Some ys -> exists vs l, Forall2 (observation Rops (is_ps acq)) ys vs /\ o_yi o = vs ++ l
    end.
  Proof.
    intros Hm H H5.
    assert (K : exists t o r, minimize Rops G W m f a g = (t, Some o, r) /\ match r with
      | Ok r => r <> None
      | Raise _ => ~ need (o_yi o) /\ forall ys, values_of (m_y0 a) = Some ys -> exists vs l, Forall2 (observation Rops (is_ps acq)) ys vs /\ o_yi o = vs ++ l
      end).
    { destruct m as [| | | |own]; cbn [minimize].
      - now apply base_runs with x0.
      - easy.
      - unfold forest_minimize. match goal with |- context [base_minimize Rops G W f ?a' ?g'] => destruct (@base_runs f a' g' x0 acq) as (t & o & r & E & K); [|exact H5|exists t, o, r; split; [exact E|exact K]] end. destruct H as [H1 H2 H3 H4 H6 H7 H8 H9 H10]. constructor; assumption.
      - unfold gbrt_minimize, forest_minimize. match goal with |- context [base_minimize Rops G W f ?a' ?g'] => destruct (@base_runs f a' g' x0 acq) as (t & o & r & E & K); [|exact H5|exists t, o, r; split; [exact E|exact K]] end. destruct H as [H1 H2 H3 H4 H6 H7 H8 H9 H10]. constructor; assumption.
      - unfold gp_minimize. rewrite set_kinds_normalize. match goal with |- context [base_minimize Rops G W f ?a' ?g'] => destruct (@base_runs f a' g' x0 acq) as (t & o & r & E & K); [| |exists t, o, r; split; [exact E|exact K]] end; [destruct H as [H1 H2 H3 H4 H6 H7 H8 H9 H10]; constructor; try assumption|].
        + cbn. destruct (a_dims (m_opt a)); [now destruct H4|]. cbn. split; [discriminate|apply H4].
        + cbn. split; [apply H6|]. eapply Forall_impl; [|apply H6]. intros p. apply in_scaled.
        + cbn. intros k p Ip. apply H9. now apply in_unscaled.
        + intros d lb D. apply H5. cbn [used]. rewrite set_kinds_normalize.
          assert (I : map (@normalised R) (map (@normalised R) (a_dims (m_opt a))) = map (@normalised R) (a_dims (m_opt a))).
          { rewrite map_map. apply map_ext. now intros [r|i|c]. }
          destruct D as [-> | (_ & D)]; [reflexivity|]. rewrite set_kinds_normalize in D. rewrite <- I. exact D. }
    destruct K as (t & o & r & E & K). exists t, o, r. split; [exact E|]. destruct r as [r|x]; [|exact K]. split; [exact K|].
    intros Hn. eapply c27_exact; [exact E|exact Hm| |exact Hn]. destruct H as [_ _ _ _ _ _ (H & _) _ _]. exact H.
  Qed.
End MinTotal.
Lemma c91 RNG M (G : rng_ops R RNG) (W : world R M) : rng_ok Rops G -> forall m f (a : margs R RNG M) g x0 acq, m <> MDummy -> orderly m f a x0 acq -> up_to_it W anything m (m_opt a) acq ->
  exists t o r, minimize Rops G W m f a g = (t, Some o, Ok (Some r)) /\ (never_stops (callbacks_of a) -> Z.of_nat (length (evals t)) = m_ncalls a).
Proof.
  intros RG m f a g x0 acq Hm H Hu. destruct (c92_min RG g Hm H Hu) as (t & o & [[r|]|x] & E & K); [|now destruct K|now destruct K as (K & _); elim K].
  exists t, o, r. split; [exact E|apply K].
Qed.
