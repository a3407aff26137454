(** C102 and a case. *)
From Coq Require Import String List ZArith Bool Reals Lra Lia Permutation.
From Verif Require Import Base BaseLemmas Num NumLaws Values Dimension Space Optimizer SpaceSpec OptSpec OptSamples OptLemmas OptLemmas2 OptLemmas4 OptLemmas5 SamplerSamples Acquisition GaussLemmas Kernels KernelPsdSpec Gpr GprSpec GprAcq Cholesky GpWorld
  CampaignSpec GpDependable Campaign CampaignCases BatchSpec OrderSpec OrderSim OrderGp.
From Verif Require BatchTell.
Import ListNotations.
Close Scope R_scope.
Open Scope list_scope.
Set Implicit Arguments.

Lemma c102_goes {RNG M} (G : rng_ops R RNG) (W : world R M) alike : rng_ok Rops G -> forall o o' c c', shuffled G W anything o o' -> order_free W (c_dims (o_cfg o)) alike ->
  fine o c -> fine o' c' -> reordered_call c c' ->
  exists o1 o1' a a', do_call Rops G W c o = (o1, Ok a) /\ do_call Rops G W c' o' = (o1', Ok a') /\ same_reply a a' /\ shuffled G W anything o1 o1'.
Proof.
  intros Gok o o' c c' H OF Hf Hf' Hc. destruct (shuffled_rel Gok any_mono H OF) as (C & C' & _).
  destruct (c83 Gok C Hf) as (o1 & a & E & _). destruct (c83 Gok C' Hf') as (o1' & a' & E' & _).
  exists o1, o1', a, a'. split; [exact E|]. split; [exact E'|]. split; [exact (c102_any Gok any_mono H OF Hf Hf' Hc E E')|exact (sh_call H Hf Hf' Hc E E')].
Qed.

Section Gp.
  Context (tune : kernel -> mat -> vec -> kernel) (cdf pdf : R -> R).
  Context (e0 : gpr) (xi : option R) (kappa : option (@kappa_arg R)).
  Context (argsort : list R -> list nat)
          (lbfgs : acq1 -> surrogate -> R -> list (R * R) -> list (pyval R) -> res (list (pyval R) * R))
          (generate : list (dim R) -> Z -> Z -> res (list (point R))) (logmax : R).
  Notation W := (gp_world tune cho_inv cho_weights cdf pdf e0 xi kappa argsort lbfgs generate logmax).
  Context {RNG : Type} (G : rng_ops R RNG) (Gok : rng_ok Rops G).
  Lemma c102 o o' c c' : let d := t_n_dims (c_dims (o_cfg o)) in
    (forall k X y, valid k d -> valid (tune k X y) d) ->
    (forall k X y X' y', length X = length y -> length X' = length y' -> Permutation (combine X y) (combine X' y') -> tune k X y = tune k X' y') ->
    valid (user_kernel e0) d -> match e_noise e0 with NoiseLevel v => (0 <= v)%R | _ => True end -> (0 <= e_alpha e0)%R ->
    (forall a m m' y b r, same_surrogate m m' -> lbfgs a m y b r = lbfgs a m' y b r) ->
    shuffled G W anything o o' -> fine o c -> fine o' c' -> reordered_call c c' ->
    exists o1 o1' a a', do_call Rops G W c o = (o1, Ok a) /\ do_call Rops G W c' o' = (o1', Ok a') /\ same_reply a a' /\ shuffled G W anything o1 o1'.
  Proof. intros d Ht Hp Vk Vn Pa Hl H. apply (@c102_goes _ _ G W same_surrogate Gok o o' c c' H). now apply gp_order_free. Qed.
End Gp.

(** ** Observations told one by one *)
Section Singly.
  Context {RNG M : Type} (G : rng_ops R RNG) (W : world R M).
  Notation state := (opt R RNG M).
  Definition early (l : list (point R * yarg R * bool)) (o : state) : Prop := (Z.of_nat (length l) < o_left o)%Z \/ Forall (fun q => snd q = false) l.
  Lemma singly_noted l (o o' : state) : told_singly Rops G W l o o' -> early l o -> l <> [] ->
    exists vs, mapM (BatchTell.conv Rops (ps_of o)) (map (fun q => snd (fst q)) l) = Ok vs /\ o' = BatchTell.noted (map (fun q => X1 (fst (fst q))) l) vs o.
  Proof.
    induction 1 as [o|p y fit l o o1 o2 r Ht Hs IH]; intros He Hl; [contradiction|].
    destruct (BatchTell.tell_valid Rops G W _ _ _ _ Ht) as [Hx Hy]. destruct (BatchTell.conv_ok Rops _ _ Hy) as [v Hv].
    rewrite (@BatchTell.tell_single _ _ _ Rops G W p y v fit o Hx Hy Hv) in Ht. unfold BatchTell.rest in Ht.
    assert (B : fit && (o_left (BatchTell.noted [X1 p] [v] o) <=? 0)%Z && has_est (BatchTell.noted [X1 p] [v] o) = false).
    { destruct He as [He|He]; [|inversion He as [|? ? Q _]; cbn in Q; now subst fit]. cbn [length] in He. assert (K : (o_left (BatchTell.noted [X1 p] [v] o) <=? 0)%Z = false) by (cbn; apply Z.leb_gt; lia).
      rewrite K, andb_false_r. reflexivity. }
    rewrite B in Ht. unfold andthen, ret in Ht. assert (E1 : o1 = BatchTell.noted [X1 p] [v] o).
    { unfold get_result in Ht. destruct (create_result _ _ _ _ _ _) in Ht; congruence. }
    subst o1. destruct l as [|q l].
    - inversion Hs; subst. exists [v]. cbn [map mapM fst snd]. rewrite Hv. auto.
    - destruct IH as (vs & E & ->); [|discriminate|].
      + destruct He as [He|He]; [left; cbn in *; lia|right; now inversion He].
      + exists (v :: vs). split; [|exact (BatchTell.noted_twice [X1 p] [v] (map (fun q => X1 (fst (fst q))) (q :: l)) vs o)]. cbn [map mapM fst snd] in *. rewrite Hv. cbn [bind]. unfold ps_of in *. cbn [o_cfg BatchTell.noted] in E. rewrite E. reflexivity.
  Qed.
  Lemma singly_campaign (need : list (yval R) -> Prop) l (o o' : state) : told_singly Rops G W l o o' -> campaign G W need o -> Forall (fun q => in_space Rops (c_dims (o_cfg o)) (fst (fst q))) l -> campaign G W need o'.
  Proof.
    intros Hs. induction Hs as [o|p y fit l o o1 o2 r Ht Hs IH]; intros C F; [exact C|]. inversion F as [|? ? Fp Fl]; subst.
    destruct (BatchTell.tell_valid Rops G W _ _ _ _ Ht) as [Hx Hy].
    assert (Ed : o_cfg o1 = o_cfg o) by (destruct (call_grows Rops G W (CTell (X1 p) y fit) o) as (? & ? & (Ec & _)); cbn [do_call] in Ec; rewrite Ht in Ec; exact Ec).
    apply IH; rewrite ?Ed; try assumption. eapply (camp_call (c := CTell (X1 p) y fit) C); [constructor; assumption|]. cbn [do_call]. rewrite Ht. reflexivity.
  Qed.
  Lemma c102_singly (need : list (yval R) -> Prop) l l' (o o1 o2 : state) : rng_ok Rops G -> (forall ys ys', need ys -> need (ys ++ ys')) -> campaign G W need o -> o_models o = [] -> Permutation l l' -> early l o -> Forall (fun q => in_space Rops (c_dims (o_cfg o)) (fst (fst q))) l ->
    told_singly Rops G W l o o1 -> told_singly Rops G W l' o o2 -> shuffled G W need o1 o2.
  Proof.
    intros Gok Nm C Em P He F H1 H2. assert (F' : Forall (fun q => in_space Rops (c_dims (o_cfg o)) (fst (fst q))) l') by exact (Permutation_Forall P F).
    apply sh_start; [exact (singly_campaign H1 C F)|exact (singly_campaign H2 C F')|].
    assert (He' : early l' o).
    { destruct He as [He|He]; [left; now rewrite <- (Permutation_length P)|right; exact (Permutation_Forall P He)]. }
    destruct (s_x (campaign_sound Gok Nm C)) as (D & ED & _ & LD). assert (Lo : length (o_Xi o) = length (o_yi o)) by now rewrite ED, map_length.
    destruct l as [|q l].
    - apply Permutation_nil in P. subst l'. inversion H1; subst. inversion H2; subst. repeat (split; [easy|]). auto 10.
    - assert (Hn : q :: l <> []) by easy. assert (Hn' : l' <> []) by (intros ->; now apply Permutation_sym, Permutation_nil in P).
      destruct (singly_noted H1 He Hn) as (vs & Ev & ->). destruct (singly_noted H2 He' Hn') as (vs' & Ev' & ->). clear H1 H2.
      set (k := q :: l) in *. clearbody k. pose proof (mapM_length _ _ Ev) as Lv. pose proof (mapM_length _ _ Ev') as Lv'. rewrite map_length in Lv, Lv'.
      apply (mapM_map _ (YS 0%R)) in Ev. apply (mapM_map _ (YS 0%R)) in Ev'. rewrite map_map in Ev, Ev'.
      unfold reordered, BatchTell.noted. cbn [o_cfg o_left o_init o_models o_Xi o_yi o_cache o_next o_next_xs o_gains o_rng].
      split; [reflexivity|]. split; [rewrite Lv, Lv', (Permutation_length P); reflexivity|]. split; [reflexivity|]. split; [exact Em|]. split; [exact Em|].
      split; [rewrite !app_length, map_length; lia|]. split; [rewrite !app_length, map_length; lia|].
      split; [|auto 10]. rewrite !combine_app by exact Lo. apply Permutation_app_head. rewrite Ev, Ev', !combine_map_both. apply Permutation_map.
      assert (Q : forall A (a : list A), combine a a = map (fun x => (x, x)) a) by (induction a as [|x a IH]; cbn; congruence). rewrite !Q. now apply Permutation_map.
  Qed.
End Singly.

(** ** A case: two observations told at once in either order, and one by one; three more points are asked for *)
Lemma WG_order_free : order_free (WG Phi phi) mixR same_surrogate.
Proof.
  apply gp_order_free.
  - intros k X y H. exact H.
  - reflexivity.
  - repeat constructor; lra.
  - cbn. exact I.
  - cbn. lra.
  - reflexivity.
Qed.
Lemma told_rows (W : world R surrogate) pts ys vs fit (o o' : opt R nat surrogate) r : Forall (member Rops (c_dims (o_cfg o))) pts -> Forall (valid_y1 Rops (ps_of o)) ys -> ys <> [] -> mapM (BatchTell.conv Rops (ps_of o)) ys = Ok vs ->
  tell Rops GR W (X2 pts) (YLst ys) fit o = (o', Ok r) -> o_Xi o' = o_Xi o ++ map (@X1 R) pts /\ o_left o' = (o_left o - Z.of_nat (length ys))%Z.
Proof.
  intros Hp Hy Hne Hv Ht. rewrite (@BatchTell.tell_batch _ _ _ Rops GR W pts ys vs fit o Hp Hy Hne Hv), <- BatchTell.tell_many in Ht.
  destruct (tell_grows Rops GR W fit o (rec_many pts vs)) as [Hg _]. rewrite Ht in Hg. cbn [fst] in Hg. destruct Hg as (_ & G2 & _ & G4 & _). split; [exact G4|]. rewrite G2. apply mapM_length in Hv. cbn in *. now rewrite <- Hv.
Qed.
Lemma c102_case : let W := WG Phi phi in order_free W mixR same_surrogate /\
  exists o, campaign GR W anything o /\ c_dims (o_cfg o) = mixR /\ o_models o = [] /\ shuffled GR W anything o o /\
  fine o (CTell (X2 [pR1; pR2]) (YLst [YNum 4; YNum 7]%R) true) /\ fine o (CTell (X2 [pR2; pR1]) (YLst [YNum 7; YNum 4]%R) true) /\
  reordered_call (CTell (X2 [pR1; pR2]) (YLst [YNum 4; YNum 7]%R) true) (CTell (X2 [pR2; pR1]) (YLst [YNum 7; YNum 4]%R) true) /\
  exists o1 o1' r r', tell Rops GR W (X2 [pR1; pR2]) (YLst [YNum 4; YNum 7]%R) true o = (o1, Ok r) /\ tell Rops GR W (X2 [pR2; pR1]) (YLst [YNum 7; YNum 4]%R) true o = (o1', Ok r') /\
  o_models o1 <> [] /\ o_Xi o1 <> o_Xi o1' /\ shuffled GR W anything o1 o1' /\
  exists o2 o2' X, ask Rops GR W (NPInt 3) "cl_mean" o1 = (o2, Ok (Apts X)) /\ ask Rops GR W (NPInt 3) "cl_mean" o1' = (o2', Ok (Apts X)) /\ length X = 3.
Proof.
  intros W. split; [exact WG_order_free|]. destruct (WG_made Phi phi "EI" (AOne EI) false eq_refl) as (g & o & Em & Hs & Ed & Ea & El & En & Ee & Eb). fold W in Em, Hs.
  assert (C : campaign GR W anything o) by (eapply camp_make; eauto). destruct (make_empty Rops GR W _ _ Em) as (M0 & X0 & Y0 & _).
  assert (S : shuffled GR W anything o o) by (apply sh_start; [exact C|exact C|]; unfold reordered; rewrite X0, Y0; auto 20).
  assert (Ep : ps_of o = false) by (unfold ps_of; now rewrite Ea).
  assert (F : fine o (CTell (X2 [pR1; pR2]) (YLst [YNum 4; YNum 7]%R) true)) by (apply fine_tells; [discriminate|reflexivity|rewrite Ed; constructor; [exact pR1_in|constructor; [exact pR2_in|constructor]]|rewrite Ep; constructor; [eexists; reflexivity|constructor; [eexists; reflexivity|constructor]]]).
  assert (F' : fine o (CTell (X2 [pR2; pR1]) (YLst [YNum 7; YNum 4]%R) true)) by (apply fine_tells; [discriminate|reflexivity|rewrite Ed; constructor; [exact pR2_in|constructor; [exact pR1_in|constructor]]|rewrite Ep; constructor; [eexists; reflexivity|constructor; [eexists; reflexivity|constructor]]]).
  assert (Q : reordered_call (CTell (X2 [pR1; pR2]) (YLst [YNum 4; YNum 7]%R) true) (CTell (X2 [pR2; pR1]) (YLst [YNum 7; YNum 4]%R) true)) by (constructor; [reflexivity|reflexivity|cbn; apply perm_swap]).
  exists o. split; [exact C|]. split; [exact Ed|]. split; [exact M0|]. split; [exact S|]. split; [exact F|]. split; [exact F'|]. split; [exact Q|].
  destruct (tell_user_total GR_ok (campaign_sound GR_ok any_mono C) F) as (o1 & [r|x] & Et & _ & K); [destruct K as (_ & Ec & Hn & Ho & _)|now elim K].
  destruct (tell_user_total GR_ok (campaign_sound GR_ok any_mono C) F') as (o1' & [r'|x] & Et' & _ & K'); [destruct K' as (_ & Ec' & Hn' & Ho' & _)|now elim K'].
  specialize (Ho eq_refl). specialize (Ho' eq_refl).
  exists o1, o1', r, r'. split; [exact Et|]. split; [exact Et'|].
  assert (P : forall p, in_space Rops mixR p -> member Rops (c_dims (o_cfg o)) p) by (intros p Hin; rewrite Ed; apply RealSpace.in_member; [apply work_bounded; exact mixR_workable|exact Hin]).
  destruct (@told_rows W [pR1; pR2] [YNum 4; YNum 7]%R [YS 4; YS 7]%R true o o1 r) as (Rows & Left); try assumption;
      try (rewrite Ep; constructor; [eexists; reflexivity|constructor; [eexists; reflexivity|constructor]]); try discriminate; try (rewrite Ep; reflexivity); try (constructor; [apply P; solve [exact pR1_in|exact pR2_in]|constructor; [apply P; solve [exact pR1_in|exact pR2_in]|constructor]]).
  destruct (@told_rows W [pR2; pR1] [YNum 7; YNum 4]%R [YS 7; YS 4]%R true o o1' r') as (Rows' & _); try assumption;
      try (rewrite Ep; constructor; [eexists; reflexivity|constructor; [eexists; reflexivity|constructor]]); try discriminate; try (rewrite Ep; reflexivity); try (constructor; [apply P; solve [exact pR1_in|exact pR2_in]|constructor; [apply P; solve [exact pR1_in|exact pR2_in]|constructor]]).
  rewrite El in Left. cbn in Left.
  assert (S1 : shuffled GR W anything o1 o1') by (eapply (sh_call S F F' Q); cbn [do_call]; [rewrite Et|rewrite Et']; reflexivity).
  split; [destruct Ho as [Ho|[Ho|Ho]]; [lia|rewrite Ec in Ho; contradiction|exact Ho]|].
  split.
  { rewrite Rows, Rows', X0. cbn. discriminate. }
  split; [exact S1|].
  assert (A : fine o1 (CAsk (NPInt 3) "cl_mean")) by (constructor; [exact Ho|lia|cbn; auto]).
  assert (A' : fine o1' (CAsk (NPInt 3) "cl_mean")) by (constructor; [exact Ho'|lia|cbn; auto]).
  destruct (@c102_goes _ _ GR W same_surrogate GR_ok o1 o1' (CAsk (NPInt 3) "cl_mean") (CAsk (NPInt 3) "cl_mean") S1) as (o2 & o2' & a & a' & E & E' & R & _) ; [rewrite Ec, Ed; exact WG_order_free|exact A|exact A'|constructor|].
  assert (C1 : campaign GR W anything o1) by (eapply (camp_call C F); cbn [do_call]; rewrite Et; reflexivity).
  destruct (c83 GR_ok C1 A) as (o3 & a3 & E3 & An). rewrite E in E3. injection E3 as <- <-. cbn [do_call] in E, E'.
  destruct (ask Rops GR W (NPInt 3) "cl_mean" o1) as [u [v|z]]; [|discriminate]. destruct (ask Rops GR W (NPInt 3) "cl_mean" o1') as [u' [v'|z']]; [|discriminate].
  cbn in E, E'. injection E as <- <-. injection E' as <- <-. inversion R; subst. destruct v' as [p|X]; [contradiction|]. exists u, u', X. split; [reflexivity|]. split; [reflexivity|]. exact (proj1 An).
Qed.
Lemma c102_singly_case : let W := WG Phi phi in exists o o1 o2, campaign GR W anything o /\ o_models o = [] /\ c_dims (o_cfg o) = mixR /\
  let l := [(pR1, YNum 4, false); (pR2, YNum 7, false)]%R in let l' := [(pR2, YNum 7, false); (pR1, YNum 4, false)]%R in
  Permutation l l' /\ early l o /\ Forall (fun q => in_space Rops (c_dims (o_cfg o)) (fst (fst q))) l /\ told_singly Rops GR W l o o1 /\ told_singly Rops GR W l' o o2 /\ o_Xi o1 <> o_Xi o2.
Proof.
  intros W. destruct (WG_made Phi phi "EI" (AOne EI) false eq_refl) as (g & o & Em & Hs & Ed & Ea & El & En & Ee & Eb). fold W in Em, Hs.
  assert (C : campaign GR W anything o) by (eapply camp_make; eauto). destruct (make_empty Rops GR W _ _ Em) as (M0 & X0 & Y0 & _).
  assert (T : forall p y (o' : opt R nat surrogate), campaign GR W anything o' -> o_cfg o' = o_cfg o -> in_space Rops mixR p ->
    exists o2 r, tell Rops GR W (X1 p) (YNum y) false o' = (o2, Ok r) /\ campaign GR W anything o2 /\ o_cfg o2 = o_cfg o).
  { intros p y o' C' E' Hp. assert (F : fine o' (CTell (X1 p) (YNum y) false)) by (constructor; [rewrite E', Ed; exact Hp|unfold ps_of; rewrite E', Ea; eexists; reflexivity]).
    destruct (tell_user_total GR_ok (campaign_sound GR_ok any_mono C') F) as (o2 & [r|x] & Et & _ & K); [destruct K as (_ & Ec & _)|now elim K].
    exists o2, r. split; [exact Et|]. split; [eapply (camp_call C' F); cbn [do_call]; rewrite Et; reflexivity|congruence]. }
  destruct (T pR1 4%R o C eq_refl pR1_in) as (oa & ra & Ta & Ca & Ea'). destruct (T pR2 7%R oa Ca Ea' pR2_in) as (ob & rb & Tb & Cb & Eb').
  destruct (T pR2 7%R o C eq_refl pR2_in) as (oc & rc & Tc & Cc & Ec'). destruct (T pR1 4%R oc Cc Ec' pR1_in) as (od & rd & Td & Cd & Ed').
  assert (S1 : told_singly Rops GR W [(pR1, YNum 4, false); (pR2, YNum 7, false)]%R o ob) by (do 2 (econstructor; [eassumption|]); constructor).
  assert (S2 : told_singly Rops GR W [(pR2, YNum 7, false); (pR1, YNum 4, false)]%R o od) by (do 2 (econstructor; [eassumption|]); constructor).
  exists o, ob, od. split; [exact C|]. split; [exact M0|]. split; [exact Ed|]. intros l l'. split; [apply perm_swap|]. split; [right; repeat constructor|].
  split; [rewrite Ed; constructor; [exact pR1_in|constructor; [exact pR2_in|constructor]]|]. split; [exact S1|]. split; [exact S2|].
  destruct (BatchTell.singly_grows S1) as (v1 & _ & _ & X1' & _). destruct (BatchTell.singly_grows S2) as (v2 & _ & _ & X2' & _). rewrite X1', X2', X0. cbn. discriminate.
Qed.
