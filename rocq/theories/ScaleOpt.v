(** Optimizers whose parameters are measured in different units stay in step. *)
From Coq Require Import String List ZArith Bool Reals Lra Lia.
From Verif Require Import Base BaseLemmas Num NumLaws Values Transformers Dimension Space SpaceSpec Optimizer OptSpec OptLemmas MetricLemmas ScaleSpec ScaleDim ScaleSpace ScaleSim.
Import ListNotations.
Open Scope R_scope.
Open Scope list_scope.
Set Implicit Arguments.

Lemma kind_contains k d e : set_kind k d = Ok e -> forall v, contains Rops e v = contains Rops d v.
Proof. destruct d, k; cbn; intros [= <-] v; reflexivity. Qed.
Lemma kept_kinds ds : forall ds' fs es es', set_kinds_all KNormalize ds = Ok es -> set_kinds_all KNormalize ds' = Ok es' -> forall p, keptp ds ds' fs p -> keptp es es' fs p.
Proof.
  unfold set_kinds_all. induction ds as [|d ds IH]; intros [|d' ds'] fs es es'; cbn [mapM]; intros E E' p K.
  - injection E as <-. exact I.
  - injection E as <-. exact I.
  - injection E' as <-. destruct es; exact I.
  - destruct (set_kind KNormalize d) as [e|] eqn:Ee; [|discriminate]. destruct (mapM _ ds) as [es0|] eqn:E0; [|discriminate]. injection E as <-.
    destruct (set_kind KNormalize d') as [e'|] eqn:Ee'; [|discriminate]. destruct (mapM _ ds') as [es0'|] eqn:E0'; [|discriminate]. injection E' as <-.
    destruct fs as [|f fs]; [exact I|]. destruct p as [|v p]; [exact I|]. cbn in *. destruct K as [K Kp]. split; [|exact (IH _ _ _ _ eq_refl E0' p Kp)].
    destruct K as [[-> ->]|K]; [left; split; congruence|right]. now rewrite (kind_contains _ _ Ee).
Qed.

Lemma kept_back ds ds' fs : spaces ds ds' fs -> forall es es', set_kinds_all KNormalize ds = Ok es -> set_kinds_all KNormalize ds' = Ok es' -> forall p, keptp es es' fs p -> keptp ds ds' fs p.
Proof.
  unfold spaces, set_kinds_all. induction 1 as [|d d' f l l' m Hd _ IH]; intros es es' E E' p K; [exact I|]. cbn [mapM] in *.
  destruct (set_kind KNormalize d) as [e|] eqn:Ee; [|discriminate]. destruct (mapM _ l) as [es0|] eqn:E0; [|discriminate]. injection E as <-.
  destruct (set_kind KNormalize d') as [e'|] eqn:Ee'; [|discriminate]. destruct (mapM _ l') as [es0'|] eqn:E0'; [|discriminate]. injection E' as <-.
  destruct p as [|v p]; [exact I|]. cbn in *. destruct K as [K Kp]. split; [|exact (IH _ _ eq_refl eq_refl p Kp)].
  destruct K as [[Q Qf]|K]; [|right; now rewrite <- (kind_contains _ _ Ee)]. destruct Hd as [d|s t r Ps Hp L|s r Ps Hp L Hb]; [now left| |]; left; (split; [|exact Qf]);
    cbn in Ee, Ee'; injection Ee as <-; injection Ee' as <-; injection Q as Q1 Q2; unfold moved; rewrite Q1, Q2; now destruct r.
Qed.
  Lemma member_kept ds ds' fs p : spaces ds ds' fs -> member Rops ds p -> keptp ds ds' fs p.
  Proof.
    unfold spaces. intro H. revert p. induction H as [|d d' f l l' m Hd _ IH]; intros p Hm; [exact I|]. inversion Hm as [|? v ? q Ha Hq]; subst. cbn. split; [|now apply IH].
    right. now apply contains_accepts.
  Qed.
Section Opt.
  Context {RNG M : Type} (G : rng_ops R RNG) (W : world R M) (gen : list (dim R) -> Z -> Z -> res (list (point R))) (fs : list (val -> val)).
  Context (Hg : gen_alike fs W gen).
  Notation W' := (with_gen W gen).
  Notation state := (opt R RNG M).
  Notation tr := (fun _ => True).
  Notation idt := (fun u : unit => u).

  (** How the new optimizers are related *)
  Definition started (ds ds' : list (dim R)) (r r' : RNG * res state) : Prop :=
    fst r' = fst r /\
    match snd r, snd r' with
    | Ok o, Ok o' => exists es', spaces (c_dims (o_cfg o)) es' fs /\ (Forall3 normal ds ds' fs -> Forall3 normal (c_dims (o_cfg o)) es' fs) /\ o' = cs fs es' o /\
        Inv fs (c_dims (o_cfg o)) es' o /\ (forall p, keptp ds ds' fs p <-> keptp (c_dims (o_cfg o)) es' fs p) /\ o_Xi o = [] /\ o_next o = None
    | Raise e, Raise e' => e' = e
    | _, _ => False
    end.
  Lemma finish_same a ds' acq e lb norm g : spaces (a_dims a) ds' fs -> started (a_dims a) ds' (finish Rops G W a acq e lb norm g) (finish Rops G W' (with_dims ds' a) acq e lb norm g).
  Proof.
    intro Sp. unfold finish. cbn [with_dims a_dims a_npoints a_restarts a_eta a_gen a_n0 a_queue].
    assert (D : match (if norm then set_kinds_all KNormalize (a_dims a) else Ok (a_dims a)), (if norm then set_kinds_all KNormalize ds' else Ok ds') with
      | Ok es, Ok es' => spaces es es' fs /\ (Forall3 normal (a_dims a) ds' fs -> Forall3 normal es es' fs) /\ (forall p, keptp (a_dims a) ds' fs p <-> keptp es es' fs p)
      | _, _ => False end).
    { destruct norm; [|split; [exact Sp|]; split; [auto|reflexivity]]. pose proof (scale_kinds Sp) as H. destruct (set_kinds_all KNormalize (a_dims a)) as [es|] eqn:E, (set_kinds_all KNormalize ds') as [es'|] eqn:E'; try contradiction. destruct H as [H1 H2].
      split; [exact H1|]. split; [auto|]. intro p. split; intro K; [exact (@kept_kinds _ _ _ _ _ E E' _ K)|exact (@kept_back _ _ _ Sp _ _ E E' _ K)]. }
    destruct (if norm then _ else Ok (a_dims a)) as [es|]; [|contradiction]. destruct (if norm then _ else Ok ds') as [es'|]; [|contradiction]. destruct D as (S1 & N1 & K1).
    destruct (a_gen a).
    - destruct (rg_randint G g 0 int_max) as [seed g']. cbn [with_gen w_generate]. destruct (Hg (a_n0 a) seed S1) as [-> Hm]. destruct (w_generate W es (a_n0 a) seed) as [l|x]; cbn [rmap]; (split; [reflexivity|]); cbn [snd]; [|reflexivity].
      exists es'. cbn [o_cfg c_dims]. split; [exact S1|]. split; [exact N1|]. split; [reflexivity|]. split; [|auto]. split; [reflexivity|]. split; [constructor|]. split; [discriminate|]. cbn [o_init]. intros l' [= <-].
      exact (Hm l eq_refl).
    - split; [reflexivity|]. cbn [snd]. exists es'. cbn [o_cfg c_dims]. split; [exact S1|]. split; [exact N1|]. split; [reflexivity|]. split; [|auto]. split; [reflexivity|]. split; [constructor|]. split; discriminate.
  Qed.
  Lemma make_scaled a ds' g : spaces (a_dims a) ds' fs -> started (a_dims a) ds' (make_optimizer Rops G W a g) (make_optimizer Rops G W' (with_dims ds' a) g).
  Proof.
    intro Sp. assert (R : forall (g : RNG) (x : exn), started (a_dims a) ds' (g, Raise x) (g, Raise x)) by (intros; split; reflexivity).
    unfold make_optimizer. cbn [with_dims a_acq a_n0 a_est_str a_est a_acqopt]. destruct (acq_of (a_acq a)) as [acq|]; [|apply R]. destruct (a_n0 a <? 0)%Z; [apply R|].
    destruct (a_est a) as [e|].
    - destruct (negb (ed_regressor e)); [apply R|]. cbv zeta. destruct (negb (_ || _)); [apply R|]. destruct (negb _ && negb _); [apply R|]. now apply finish_same.
    - destruct (is_ps acq); [apply R|]. destruct (_ || _); [now apply finish_same|apply R].
  Qed.

  Definition copied (ds ds' : list (dim R)) (r r' : RNG * res state) : Prop :=
    fst r' = fst r /\
    match snd r, snd r' with
    | Ok o, Ok o' => exists es', spaces (c_dims (o_cfg o)) es' fs /\ Forall3 normal (c_dims (o_cfg o)) es' fs /\ o' = cs fs es' o /\ Inv fs (c_dims (o_cfg o)) es' o /\
        forall p, keptp (c_dims (o_cfg o)) es' fs p -> keptp ds ds' fs p
    | Raise e, Raise e' => e' = e
    | _, _ => False
    end.
  Section Fixed.
  Context (ds ds' : list (dim R)) (Sp : spaces ds ds' fs) (Hn : Forall3 normal ds ds' fs).
  Notation Inv := (Inv fs ds ds').
  Notation sim := (@sim RNG M fs ds ds').
  Lemma copy_scaled o g : Inv o -> copied ds ds' (copy Rops G W o g) (copy Rops G W' (cs fs ds' o) g).
  Proof.
    intros (Ed & Kx & Kn & Ki). unfold copy. change (copy_args (cs fs ds' o)) with (with_dims ds' (copy_args o)).
    assert (Sa : spaces (a_dims (copy_args o)) ds' fs) by (cbn [copy_args a_dims]; now rewrite Ed).
    pose proof (make_scaled (copy_args o) g Sa) as [E0 H]. cbn [copy_args a_dims] in H. rewrite Ed in H.
    destruct (make_optimizer Rops G W (copy_args o) g) as [g1 [o1|x]], (make_optimizer Rops G W' (with_dims ds' (copy_args o)) g) as [g1' [o1'|x']]; cbn [fst snd] in *; subst g1'; try contradiction;
      [|split; [reflexivity|exact H]].
    destruct H as (es' & S1 & N1 & -> & (I1 & I2 & I3 & I4) & Kp & Ex & En). specialize (N1 Hn).
    set (o2 := set_gains (o_gains o) (set_init (o_init o) o1)).
    change (set_gains (o_gains (cs fs ds' o)) (set_init (o_init (cs fs ds' o)) (cs fs es' o1))) with (cs fs es' o2).
    assert (J : ScaleSim.Inv fs (c_dims (o_cfg o1)) es' o2).
    { split; [reflexivity|]. split; [exact I2|]. split; [exact I3|]. cbn. intros l El. eapply Forall_impl; [|exact (Ki l El)]. apply Kp. }
    assert (Kx1 : Forall (keptx fs (c_dims (o_cfg o1)) es') (o_Xi o)).
    { eapply Forall_impl; [|exact Kx]. intros [p|ps]; cbn; [apply Kp|auto]. }
    cbn [cs o_Xi o_yi]. destruct (o_Xi o) as [|x xs].
    - cbn [map]. split; [reflexivity|]. cbn [snd]. exists es'. repeat (split; [assumption || reflexivity|]). apply Kp.
    - cbn [map]. destruct (sim_tell_ G W gen S1 N1 (PH (x :: xs)) (Yn (o_yi o)) true Kx1 J) as (Et & Jt & _). cbn [conv_t map] in Et.
      match goal with |- copied _ _ _ (match ?t with _ => _ end) => replace t with (cs fs es' (fst (tell_ Rops G W (PH (x :: xs)) (Yn (o_yi o)) true o2)), rmap (conv_result fs es') (snd (tell_ Rops G W (PH (x :: xs)) (Yn (o_yi o)) true o2))) end.
      destruct (tell_ Rops G W (PH (x :: xs)) (Yn (o_yi o)) true o2) as [o3 [r|e]]; cbn [fst snd rmap] in *; (split; [reflexivity|]); cbn [snd]; [|reflexivity].
      destruct Jt as (J1 & Jr). exists es'. rewrite J1. split; [exact S1|]. split; [exact N1|]. split; [reflexivity|]. split; [split; [exact J1|exact Jr]|apply Kp].
  Qed.
  Lemma batch_scaled o g s ps n : Inv o ->
    (cp <- snd (copy Rops G W' (cs fs ds' o) g) ;; snd (lie_loop Rops G W' s ps n cp)) = rmap (map (conv fs)) (cp <- snd (copy Rops G W o g) ;; snd (lie_loop Rops G W s ps n cp)).
  Proof.
    intro I. destruct (copy_scaled g I) as [_ H]. destruct (snd (copy Rops G W o g)) as [o1|e], (snd (copy Rops G W' (cs fs ds' o) g)) as [o1'|e']; try contradiction; cbn [bind]; [|now rewrite H].
    destruct H as (es' & S1 & N1 & -> & J & _). destruct (sim_lie G W gen S1 N1 s ps n J) as (-> & _). reflexivity.
  Qed.
  Lemma cache_same : forall (c : list ((Z * string) * list (point R))) k, dict_get key_eqb (map (fun kv => (fst kv, map (conv fs) (snd kv))) c) k = option_map (map (conv fs)) (dict_get key_eqb c k).
  Proof. induction c as [|[k' l] c IH]; intro k; [reflexivity|]. cbn. destruct (key_eqb k' k); [reflexivity|apply IH]. Qed.
  Ltac keep := apply sim_upd; intros ? (? & ? & ? & ?); split; [reflexivity|now repeat split].
  Lemma sim_ext {A B} (P : A -> Prop) (cv : A -> B) m n m' n' : (forall o, m o = n o) -> (forall o, m' o = n' o) -> sim P cv n n' -> sim P cv m m'.
  Proof. intros E E' H o I. rewrite E, E'. exact (H o I). Qed.
  Lemma sim_ask_n n s : sim tr (map (conv fs)) (ask_n Rops G W n s) (ask_n Rops G W' n s).
  Proof.
    unfold ask_n. destruct (n <=? 0)%Z; [apply sim_raise|]. destruct (liar_of s) as [l|]; [|apply sim_raise]. eapply sim_bind; [apply sim_get|]. intros o I. cbn [cs o_cache o_rng].
    rewrite cache_same. destruct (dict_get key_eqb (o_cache o) (n, s)) as [X|]; cbn [option_map]; [now apply sim_ret|]. destruct (rg_randint G (o_rng o) 0 int_max) as [seed g].
    eapply sim_bind; [keep|]. intros _ _. fold (cs fs ds' o). change (is_ps (c_acq (o_cfg (cs fs ds' o)))) with (is_ps (c_acq (o_cfg o))).
    eapply (@sim_ext _ _ _ _ _ (andthen (lift (cp <- snd (copy Rops G W o (rg_seed G seed)) ;; snd (lie_loop Rops G W l (is_ps (c_acq (o_cfg o))) (Z.to_nat n) cp))) (fun X => andthen (upd (set_cache [((n, s), X)])) (fun _ => ret X)))
      _ (andthen (lift (cp <- snd (copy Rops G W' (cs fs ds' o) (rg_seed G seed)) ;; snd (lie_loop Rops G W' l (is_ps (c_acq (o_cfg o))) (Z.to_nat n) cp))) (fun X => andthen (upd (set_cache [((n, s), X)])) (fun _ => ret X)))).
    - intro q. unfold andthen, lift. now destruct (snd (copy Rops G W o (rg_seed G seed))).
    - intro q. unfold andthen, lift. match goal with |- context [copy Rops G W' ?z ?y] => change z with (cs fs ds' o) end. now destruct (snd (copy Rops G W' (cs fs ds' o) (rg_seed G seed))).
    - eapply sim_bind with (P := tr); [apply sim_lift; [now apply batch_scaled|auto]|]. intros X _. eapply sim_bind; [keep|]. intros _ _. now apply sim_ret.
  Qed.
  Lemma sim_ask n s : sim tr (conv_asked fs) (ask Rops G W n s) (ask Rops G W' n s).
  Proof.
    destruct n as [|z|]; cbn [ask]; [| |apply sim_raise].
    - eapply sim_bind; [apply (sim_ask1 G Sp Hn)|]. intros p _. now apply sim_ret.
    - eapply sim_bind; [apply sim_ask_n|]. intros l _. now apply sim_ret.
  Qed.
  Lemma sim_update : sim tr idt (update_next Rops G W) (update_next Rops G W').
  Proof.
    unfold update_next. eapply sim_bind; [keep|]. intros _ _. eapply sim_bind; [apply sim_get|]. intros o I. change (o_next (cs fs ds' o)) with (option_map (conv fs) (o_next o)).
    destruct (o_next o); cbn [option_map]; [|now apply sim_ret]. change (o_rng (cs fs ds' o)) with (o_rng o). destruct (copy_scaled (o_rng o) I) as [E H].
    destruct (copy Rops G W o (o_rng o)) as [g r], (copy Rops G W' (cs fs ds' o) (o_rng o)) as [g' r']. cbn [fst snd] in *. subst g'. eapply sim_bind; [keep|]. intros _ _.
    destruct r as [o1|e], r' as [o1'|e']; try contradiction; [|subst e'; intros q J; unfold andthen, lift; cbn; split; [reflexivity|]; split; [exact J|discriminate]].
    destruct H as (es' & S1 & N1 & -> & (J1 & J2 & J3 & J4) & Kb).
    apply (@sim_ext _ _ _ _ _ (match o_next o1 with None => lift (Raise AttributeError) | Some p => upd (set_next (Some p)) end)
      _ (match option_map (conv fs) (o_next o1) with None => lift (Raise AttributeError) | Some p => upd (set_next (Some p)) end)); [reflexivity|reflexivity|].
    destruct (o_next o1) as [p1|]; cbn [option_map]; [|apply sim_raise]. apply sim_upd. intros q (A & B & _ & D). split; [reflexivity|]. repeat split; auto.
  Qed.
  Lemma sim_answer {A B} (P : A -> Prop) (cv : A -> B) m m' (w : A -> @answer R RNG M) (w' : B -> @answer R RNG M) : sim P cv m m' -> (forall a, w' (cv a) = conv_answer fs ds' (w a)) ->
    forall o, Inv o -> (let '(o1, r) := m' (cs fs ds' o) in (o1, rmap w' r)) = (cs fs ds' (fst (let '(o1, r) := m o in (o1, rmap w r))), rmap (conv_answer fs ds') (snd (let '(o1, r) := m o in (o1, rmap w r)))) /\
      Inv (fst (let '(o1, r) := m o in (o1, rmap w r))).
  Proof.
    intros H Hw o I. destruct (H o I) as (-> & I1 & _). destruct (m o) as [o1 [a|e]]; cbn in *; [|auto]. rewrite Hw. auto.
  Qed.
  Lemma call_scaled c c' : same_call fs c c' -> forall o, Inv o ->
    do_call Rops G W' c' (cs fs ds' o) = (cs fs ds' (fst (do_call Rops G W c o)), rmap (conv_answer fs ds') (snd (do_call Rops G W c o))) /\ Inv (fst (do_call Rops G W c o)).
  Proof.
    intros H o I. destruct H as [n s|x y fit|f f' n Hf| |]; cbn [do_call].
    - eapply sim_answer; [apply sim_ask|reflexivity|exact I].
    - eapply sim_answer; [apply (sim_tell G W gen Sp Hn)|reflexivity|exact I].
    - eapply sim_answer with (P := tr) (cv := conv_result fs ds'); [|reflexivity|exact I]. unfold run. eapply sim_bind; [apply (sim_run_loop G W gen Sp Hn _ _ Hf)|]. intros _ _. apply result_same.
    - eapply sim_answer; [apply result_same|reflexivity|exact I].
    - eapply sim_answer; [apply sim_update|reflexivity|exact I].
  Qed.
  End Fixed.
  Lemma paired o o' : pair_of G fs W gen o o' -> exists ds', spaces (c_dims (o_cfg o)) ds' fs /\ Forall3 normal (c_dims (o_cfg o)) ds' fs /\ Inv fs (c_dims (o_cfg o)) ds' o /\ o' = cs fs ds' o.
  Proof.
    induction 1 as [a ds' g g1 o g1' o' Sp E E' Hn|c c' o o' _ (ds' & Sp & Hn & I & ->) Hc|o o' g g1 o1 g1' o1' _ (ds' & Sp & Hn & I & ->) E E'|g o o' _ (ds' & Sp & Hn & I & ->)].
    - pose proof (make_scaled a g Sp) as [_ H]. rewrite E, E' in H. cbn [snd] in H. destruct H as (es' & S1 & _ & -> & I & _). exists es'. auto.
    - destruct (call_scaled Sp Hn Hc I) as (-> & J). cbn [fst]. pose proof J as (Jd & _). exists ds'. rewrite Jd. auto.
    - pose proof (copy_scaled Sp Hn g I) as [_ H]. rewrite E, E' in H. cbn [snd] in H. destruct H as (es' & S1 & N1 & -> & J & _). exists es'. auto.
    - exists ds'. cbn [set_rng o_cfg]. split; [exact Sp|]. split; [exact Hn|]. split; [now apply inv_rng|reflexivity].
  Qed.
  Lemma c98 c c' o o' : pair_of G fs W gen o o' -> same_call fs c c' ->
    snd (do_call Rops G W' c' o') = rmap (conv_answer fs (c_dims (o_cfg o'))) (snd (do_call Rops G W c o)).
  Proof.
    intros H Hc. destruct (paired H) as (ds' & Sp & Hn & I & ->). destruct (call_scaled Sp Hn Hc I) as (-> & _). reflexivity.
  Qed.
  Lemma c98_make a ds' g : spaces (a_dims a) ds' fs ->
    match make_optimizer Rops G W a g, make_optimizer Rops G W' (with_dims ds' a) g with
    | (g1, Ok o), (g1', Ok o') => g1' = g1 /\ spaces (c_dims (o_cfg o)) (c_dims (o_cfg o')) fs /\
        ((match a_est a with Some e => ed_gp e = true /\ (a_est_str a = true \/ is_ps (c_acq (o_cfg o)) = false) | None => False end) \/ Forall3 normal (a_dims a) ds' fs ->
         Forall3 normal (c_dims (o_cfg o)) (c_dims (o_cfg o')) fs)
    | (g1, Raise e), (g1', Raise e') => g1' = g1 /\ e' = e
    | _, _ => False
    end.
  Proof.
    intro Sp. pose proof (make_scaled a g Sp) as [E H].
    destruct (make_optimizer Rops G W a g) as [g1 [o|e]] eqn:Em, (make_optimizer Rops G W' (with_dims ds' a) g) as [g1' [o'|e']] eqn:Em'; cbn [fst snd] in *; try contradiction; [|auto].
    split; [exact E|]. destruct H as (es' & S1 & N1 & -> & _). split; [exact S1|]. intros [H|H]; [|now apply N1]. cbn [cs o_cfg cc c_dims].
    assert (K : exists es, set_kinds_all KNormalize (a_dims a) = Ok es /\ c_dims (o_cfg o) = es /\ exists es2, set_kinds_all KNormalize ds' = Ok es2 /\ es' = es2).
    { clear N1 S1 E. destruct (a_est a) as [e|] eqn:Ee; [|contradiction]. destruct H as [Hgp Hs].
      assert (F : forall (V : world R M) d acq e' lb g, (forall g1 (o1 : state), finish Rops G V (with_dims d a) acq e' lb true g = (g1, Ok o1) -> set_kinds_all KNormalize d = Ok (c_dims (o_cfg o1)))).
      { clear. intros V d acq e' lb g g1 o1. unfold finish. cbn [with_dims a_dims a_gen a_npoints a_restarts a_eta a_n0 a_queue]. destruct (set_kinds_all KNormalize d) as [es|]; [|discriminate].
        destruct (a_gen a).
        - destruct (rg_randint G g 0 int_max) as [seed g']. destruct (w_generate V es (a_n0 a) seed); [|discriminate]. intros [= <- <-]. reflexivity.
        - intros [= <- <-]. reflexivity. }
      assert (Q : forall (V : world R M) d g1 (o1 : state), make_optimizer Rops G V (with_dims d a) g = (g1, Ok o1) -> is_ps (c_acq (o_cfg o1)) = is_ps (c_acq (o_cfg o)) -> set_kinds_all KNormalize d = Ok (c_dims (o_cfg o1))).
      { intros V d g2 o2 Hm Hp. unfold make_optimizer in Hm. cbn [with_dims a_acq a_n0 a_est_str a_est a_acqopt] in Hm. rewrite Ee in Hm. destruct (acq_of (a_acq a)) as [acq|]; [|discriminate]. destruct (a_n0 a <? 0)%Z; [discriminate|].
        destruct (negb (ed_regressor e)); [discriminate|]. cbv zeta in Hm. destruct (negb (_ || _)); [discriminate|]. destruct (negb _ && negb _); [discriminate|].
        assert (Ha : c_acq (o_cfg o2) = acq).
        { clear -Hm. unfold finish in Hm. match type of Hm with (match ?x with Ok _ => _ | Raise _ => _ end) = _ => destruct x as [es|]; [|discriminate] end. cbn [with_dims a_gen] in Hm. destruct (a_gen a).
          - destruct (rg_randint G _ 0 int_max) as [seed g']. destruct (w_generate V es _ seed); [|discriminate]. injection Hm as _ <-. reflexivity.
          - injection Hm as _ <-. reflexivity. }
        rewrite Ha in Hp. match type of Hm with finish _ _ _ _ _ _ _ ?b _ = _ => assert (Eb : b = true) end.
        { destruct Hs as [Hs|Hs]; [rewrite Hs, Hgp; cbn; apply orb_true_r|]. rewrite <- Hp in Hs. rewrite Hs. cbn [andb]. rewrite Hgp. reflexivity. }
        rewrite Eb in Hm. exact (F _ _ _ _ _ _ _ _ Hm). }
      pose proof (Q W (a_dims a) g1 o) as Q1. assert (Ea : with_dims (a_dims a) a = a) by now destruct a. rewrite Ea in Q1. specialize (Q1 Em eq_refl).
      pose proof (Q W' ds' g1' _ Em' eq_refl) as Q2. cbn [cs o_cfg cc c_dims] in Q2. exists (c_dims (o_cfg o)). split; [exact Q1|]. split; [reflexivity|]. exists es'. auto. }
    destruct K as (es & K1 & K2 & es2 & K3 & K4). pose proof (scale_kinds Sp) as Z. rewrite K1, K3 in Z. subst es es2. apply Z.
  Qed.
End Opt.
