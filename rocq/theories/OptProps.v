(** The optimizer properties in final form (C13-C26, C61). *)
From Coq Require Import String List ZArith Bool Lia Reals Lra.
From Verif Require Import Base Num Values Transformers Dimension Space Optimizer NumLaws F64Arith BaseLemmas
  SpaceSpec MetricLemmas SampleLemmas OptSpec OptLemmas OptLemmas2 OptLemmas3 OptLemmas4 OptLemmas5 ArgLemmas OptLemmas6.
Import ListNotations.
Open Scope list_scope.
Set Implicit Arguments.

Section OptProps.
  Context {N RNG M : Type} (O : numops N) (G : rng_ops N RNG) (W : world N M).
  Notation state := (opt N RNG M).
  Notation dims o := (c_dims (o_cfg o)).
  Notation reachable := (reachable O G W).
  Notation do_call := (do_call O G W).
  Notation exec := (exec O G W).

  Lemma c14 (L : order_laws O) c o o' r : do_call c o = (o', Ok (RResult r)) -> no_nan O (res_func_vals r) -> best_first O r.
  Proof.
    intros H Hn. apply call_result in H. unfold get_result in H. injection H as H.
    eapply result_best; eauto.
  Qed.
  Lemma c15 (L : order_laws O) c1 c2 cs o o1 o2 o3 outs r1 r2 :
    do_call c1 o = (o1, Ok (RResult r1)) -> exec cs o1 = (o2, outs) -> do_call c2 o2 = (o3, Ok (RResult r2)) ->
    no_nan O (res_func_vals r2) -> nleb O (res_fun r2) (res_fun r1) = true.
  Proof.
    intros H1 Hc H2 Hn.
    assert (E : exists l, res_func_vals r2 = res_func_vals r1 ++ l).
    { destruct (result_history _ _ _ _ _ H1) as [_ E1]. destruct (result_history _ _ _ _ _ H2) as [_ E2].
      destruct (exec_grows O G W cs o1) as (xs & ys & (_ & _ & _ & _ & G1)). rewrite Hc in G1. simpl in G1.
      destruct (call_grows O G W c2 o2) as (xs' & ys' & (_ & _ & _ & _ & G2)). rewrite H2 in G2. simpl in G2.
      exists (map y_obj (ys ++ ys')). now rewrite E2, E1, G2, G1, <- map_app, <- app_assoc. }
    destruct E as [l E].
    eapply best_improves; [exact E| |eapply c14; eauto].
    eapply c14; eauto. unfold no_nan in *. rewrite E in Hn. now apply Forall_app in Hn.
  Qed.

  Definition asked_in (d : list (dim N)) (a : asked N) : Prop :=
    match a with A1pt p => member O d p | Apts ps => Forall (member O d) ps end.
  Lemma c16 o n s o' a : reachable o -> gen_ok O W (dims o) (c_n0 (o_cfg o)) -> rvs_ok O G (dims o) ->
    ask O G W n s o = (o', Ok a) -> asked_in (dims o) a.
  Proof.
    intros Hr Hgen Hrvs. apply reachable_good in Hr. destruct n as [|z|]; cbn [ask].
    - unfold andthen, ret. destruct (ask1 O G o) as [o1 [p|]] eqn:E; [|discriminate].
      intros H. injection H as <- <-. simpl. eapply ask1_member; eauto.
    - unfold andthen, ret. destruct (ask_n O G W z s o) as [o1 [p|]] eqn:E; [|discriminate].
      intros H. injection H as <- <-. simpl. eapply ask_n_member; eauto.
    - discriminate.
  Qed.

  Lemma c18_frame n s o o' r : ask O G W n s o = (o', r) ->
    o_Xi o' = o_Xi o /\ o_yi o' = o_yi o /\ o_models o' = o_models o /\ o_left o' = o_left o /\
    o_init o' = o_init o /\ o_cfg o' = o_cfg o /\ o_next o' = o_next o.
  Proof.
    intros H. destruct (ask_frame O G W n s o) as (g & c & E). rewrite H in E. simpl in E. subst. now repeat split.
  Qed.
  Lemma c18_repeat s s' o : reachable o -> (c_n0 (o_cfg o) <= Z.of_nat (length (o_yi o)))%Z -> c_est (o_cfg o) <> None ->
    ask O G W NPNone s' (fst (ask O G W NPNone s o)) = ask O G W NPNone s o.
  Proof.
    intros Hr Hn He. apply reachable_good in Hr.
    rewrite ask_model_stable; [now rewrite !ask_none|].
    split; [rewrite (g_left Hr); lia|]. unfold has_est. now destruct (c_est (o_cfg o)).
  Qed.

  Lemma c19_size z s o o' a : reachable o -> ask O G W (NPInt z) s o = (o', Ok a) ->
    exists X, a = Apts X /\ Z.of_nat (length X) = z /\ liar_of s <> None.
  Proof.
    intros Hr. apply reachable_good in Hr. cbn [ask]. unfold andthen, ret.
    destruct (ask_n O G W z s o) as [o1 [X|]] eqn:E; [|discriminate]. intros H. injection H as <- <-.
    exists X. split; [easy|]. pose proof (ask_n_length O G W z s o E (g_cachelen Hr)) as Hl.
    apply ask_n_ok in E. destruct E as (Hz & l & El & _). split; [lia|congruence].
  Qed.
  Lemma c19_stable z s o o1 a cs o2 outs : ask O G W (NPInt z) s o = (o1, Ok a) -> Forall (@quiet N) cs ->
    exec cs o1 = (o2, outs) -> ask O G W (NPInt z) s o2 = (o2, Ok a).
  Proof.
    cbn [ask]. unfold andthen, ret.
    destruct (ask_n O G W z s o) as [o' [X|]] eqn:E; [|discriminate]. intros H Hq Hc. injection H as <- <-.
    pose proof (ask_n_cached _ _ _ _ _ _ E) as Hd. apply ask_n_ok in E. destruct E as (Hz & l & El & _).
    pose proof (quiet_cache O G W o' Hq) as Hk. rewrite Hc in Hk. simpl in Hk. rewrite <- Hk in Hd.
    rewrite (ask_n_again O G W s o2 Hz ltac:(congruence) Hd). reflexivity.
  Qed.
  Lemma c19_rejects n s o : (match n with NPNone => False | NPInt z => (z <= 0)%Z \/ liar_of s = None | NPOther => True end) ->
    ask O G W n s o = (o, Raise ValueError).
  Proof.
    destruct n as [|z|]; [easy| |reflexivity]. intros H. cbn [ask]. unfold ask_n.
    destruct (z <=? 0)%Z eqn:E; [reflexivity|]. apply Z.leb_gt in E. destruct H as [H|H]; [lia|].
    rewrite H. reflexivity.
  Qed.

  (** C20 *)
  Definition statistic (s : liar) (l : list N) (m : N) : Prop :=
    match s with
    | ClMin => In m l /\ forall v, In v l -> nleb O m v = true
    | ClMax => In m l /\ forall v, In v l -> nleb O v m = true
    | ClMean => np_mean O l = Ok m
    end.
  Lemma c20 (L : order_laws O) z s o o' X :
    reachable o -> aligned o -> o_yi o <> [] -> no_nan O (map y_obj (o_yi o)) -> ps_of o = false ->
    (forall l, liar_of s = Some l -> l = ClMean -> stable O l (map y_obj (o_yi o))) ->
    o_cache o = [] -> ask O G W (NPInt z) s o = (o', Ok (Apts X)) ->
    exists l v g g' cp cp', liar_of s = Some l /\ copy O G W o g = (g', Ok cp) /\
      lie_loop O G W l false (Z.to_nat z) cp = (cp', Ok X) /\
      o_Xi cp = o_Xi o /\ o_yi cp = o_yi o /\
      o_Xi cp' = o_Xi o ++ map (@X1 N) X /\ o_yi cp' = o_yi o ++ repeat (YS v) (length X) /\
      statistic l (map y_obj (o_yi o)) v.
  Proof.
    intros Hr Ha Hne Hn Hps Hmean Hc. pose proof (shaped_plain (reachable_shaped Hr) Hps) as Hp. apply reachable_good in Hr. cbn [ask]. unfold andthen, ret.
    destruct (ask_n O G W z s o) as [o1 [X'|]] eqn:E; [|discriminate]. intros H. injection H as <- <-.
    pose proof (ask_n_length O G W z s o E (g_cachelen Hr)) as Hl.
    apply ask_n_ok in E. destruct E as (Hz & l & El & [[Hd _]|(_ & _ & g & g' & cp & cp' & Ecp & Hloop)]);
      [rewrite Hc in Hd; discriminate|].
    rewrite Hps in Hloop.
    destruct (copy_same _ Hr Ha Ecp) as (_ & E2 & E3 & _).
    assert (Hne' : map y_obj (o_yi o) <> []) by (destruct (o_yi o); easy).
    assert (Hs : exists v, lie_stat O l (map y_obj (o_yi o)) = Ok v /\ statistic l (map y_obj (o_yi o)) v).
    { destruct l; simpl.
      - destruct (np_min_spec L Hne' Hn) as (m & H1 & H2 & H3 & _). eauto.
      - unfold np_mean. destruct (map y_obj (o_yi o)); [easy|]. eauto.
      - destruct (np_max_spec L Hne' Hn) as (m & H1 & H2 & H3 & _). eauto. }
    destruct Hs as (v & Hv & Hst).
    assert (St : stable O l (map y_obj (o_yi o))).
    { destruct l; [now apply min_stable|now apply Hmean|now apply max_stable]. }
    destruct (@lie_loop_history N RNG M O G W l (Z.to_nat z) cp cp' X' (o_yi o) v 0) as [H1 H2]; auto.
    { simpl. now rewrite app_nil_r. }
    exists l, v, g, g', cp, cp'. rewrite Hl. rewrite E2 in H2. repeat split; auto.
  Qed.

  (** C22 *)
  Lemma c22 a g g' o cs o' outs : make_optimizer O G W a g = (g', Ok o) -> exec cs o = (o', outs) ->
    exists ms, Forall (is_fit W) ms /\ o_models o' = keep (a_queue a) ms.
  Proof.
    intros Hm Hc. pose proof (make_good O G W _ _ Hm) as Hg. destruct (make_empty O G W _ _ Hm) as (E & _ & _ & _ & Eq & _).
    destruct (more_exec cs Hg) as (_ & ms & F & H). rewrite Hc in H. simpl in H. rewrite E, Eq in H. eauto.
  Qed.
  Lemma c22_newest x y o o' r : reachable o -> tell O G W x y true o = (o', Ok r) ->
    (c_n0 (o_cfg o') <= Z.of_nat (length (o_yi o')))%Z -> c_est (o_cfg o') <> None ->
    (forall q, c_queue (o_cfg o) = Some q -> (1 <= q)%Z) /\
    exists m, is_fit W m /\ o_models o' = keep (c_queue (o_cfg o)) (o_models o ++ [m]) /\
      res_models r = o_models o' /\ exists ms, o_models o' = ms ++ [m].
  Proof.
    intros Hr H Hn He. apply reachable_good in Hr.
    assert (He' : has_est o' = true) by (unfold has_est; now destruct (c_est (o_cfg o'))).
    destruct (tell_fitted _ _ Hr H Hn He') as (o1 & E1 & E2 & E3 & E4 & E5 & E6 & E7 & [F]).
    pose proof (f_push F) as Hp. rewrite E1, E5 in Hp.
    assert (Hlast : exists ms, o_models o' = ms ++ [f_est F]).
    { unfold pushed in Hp. destruct (c_queue (o_cfg o)); [|eauto].
      destruct Hp as [[_ Hp]|[_ (m & t & _ & Hp)]]; eauto. }
    split.
    - intros q Hq. unfold pushed in Hp. rewrite Hq in Hp. pose proof (g_queue Hr Hq) as Hlen.
      destruct Hp as [[Hp _]|[Hp (m & t & Hp' & _)]]; [lia|]. rewrite Hp' in *. simpl in *. lia.
    - exists (f_est F). split; [exists (f_Xt F), (o_yi o1); apply F|].
      split; [exact (proj1 (keep_pushed _ _ _ Hp (g_queue Hr)))|].
      split; [|exact Hlast]. apply tell_get in H. now apply get_result_spec in H.
  Qed.

  (** C17: the surrogate phase. *)
  Lemma c17_surrogate x y o o' r : reachable o -> tell O G W x y true o = (o', Ok r) ->
    (c_n0 (o_cfg o') <= Z.of_nat (length (o_yi o')))%Z -> c_est (o_cfg o') <> None ->
    exists P Xt m ms nx p rest,
      o_Xi o' = map (@X1 N) P /\ space_transform O (dims o') P = Ok Xt /\ w_fit W Xt (o_yi o') = Ok m /\
      o_models o' = ms ++ [m] /\
      space_inverse O (dims o') [nx] = Ok (p :: rest) /\ o_next o' = Some p /\
      forall s o2 q, ask O G W NPNone s o' = (o2, Ok (A1pt q)) -> o2 = o' /\ q = p.
  Proof.
    intros Hr H Hn He. apply reachable_good in Hr.
    assert (He' : has_est o' = true) by (unfold has_est; now destruct (c_est (o_cfg o'))).
    destruct (tell_fitted _ _ Hr H Hn He') as (o1 & E1 & E2 & E3 & E4 & E5 & E6 & E7 & [F]).
    pose proof (f_push F) as Hp.
    assert (Hlast : exists ms, o_models o' = ms ++ [f_est F]).
    { unfold pushed in Hp. destruct (c_queue (o_cfg o1)); [|eauto].
      destruct Hp as [[_ Hp]|[_ (m & t & _ & Hp)]]; eauto. }
    destruct Hlast as [ms Hms].
    assert (Ed : dims o' = dims o1) by now rewrite E1, E4.
    exists (f_P F), (f_Xt F), (f_est F), ms, (f_nx F), (f_p F), (f_rest F).
    rewrite Ed, <- E3, <- E2. split; [apply plain_points, F|]. split; [apply F|]. split; [apply F|].
    split; [exact Hms|]. split; [apply F|]. split; [apply F|].
    intros s o2 q Ha. pose proof (good_tell_user x y true Hr) as Hg'. rewrite H in Hg'. simpl in Hg'.
    destruct (ask_surrogate _ Hg' Hn He' Ha) as (-> & Hq & _). split; [easy|]. rewrite (f_next F) in Hq. congruence.
  Qed.
  Lemma c17_unfitted x y fit o o' r : reachable o -> tell O G W x y fit o = (o', Ok r) ->
    fit = false \/ (Z.of_nat (length (o_yi o')) < c_n0 (o_cfg o'))%Z \/ c_est (o_cfg o') = None ->
    o_models o' = o_models o /\ o_next o' = o_next o.
  Proof.
    intros Hr H Hn. apply reachable_good in Hr. eapply tell_unfitted; eauto.
    destruct Hn as [Hn|[Hn|Hn]]; auto. right. right. unfold has_est. now rewrite Hn.
  Qed.
  Lemma c17_initial s o : reachable o -> (Z.of_nat (length (o_yi o)) < c_n0 (o_cfg o))%Z \/ c_est (o_cfg o) = None ->
    o_models o = [] /\
    match o_init o with
    | Some l => gen_ok O W (dims o) (c_n0 (o_cfg o)) -> (Z.of_nat (length (o_yi o)) < c_n0 (o_cfg o))%Z ->
        exists p, nth_error l (length (o_yi o)) = Some p /\ ask O G W NPNone s o = (o, Ok (A1pt p))
    | None => forall o' p, ask O G W NPNone s o = (o', Ok (A1pt p)) ->
        exists P g, space_rvs O G (dims o) 1 (o_rng o) = (Ok (p :: P), g)
    end.
  Proof.
    intros Hr H. apply reachable_good in Hr. apply ask_initial; auto.
    destruct H as [H|H]; [now left|right]. unfold has_est. now rewrite H.
  Qed.
  Lemma c17_design a g g' o : make_optimizer O G W a g = (g', Ok o) -> gen_ok O W (dims o) (c_n0 (o_cfg o)) ->
    match o_init o with
    | Some l => a_gen a = true /\ length l = Z.to_nat (a_n0 a) /\ Forall (member O (dims o)) l
    | None => a_gen a = false
    end /\ o_yi o = [] /\ c_n0 (o_cfg o) = a_n0 a.
  Proof.
    intros H Hgen. pose proof (make_good O G W _ _ H) as Hg.
    destruct (make_empty O G W _ _ H) as (_ & _ & Ey & _ & _ & En). split; [|auto].
    assert (Ec : c_gen (o_cfg o) = a_gen a).
    { revert H. unfold make_optimizer. destruct (acq_of (a_acq a)) as [acq|]; [|discriminate].
      destruct (a_n0 a <? 0)%Z; [discriminate|].
      assert (Main : forall e lb norm g0, finish O G W a acq e lb norm g0 = (g', Ok o) -> c_gen (o_cfg o) = a_gen a).
      { intros e lb norm g0 H. apply finish_ok in H. destruct H as (d & init & _ & -> & _). reflexivity. }
      destruct (a_est a) as [e|].
      - destruct (negb (ed_regressor e)); [discriminate|].
        destruct (negb (_ || _)); [discriminate|]. destruct (negb _ && _); [discriminate|]. apply Main.
      - destruct (is_ps acq); [discriminate|]. destruct (_ || _); [apply Main|discriminate]. }
    pose proof (g_gen Hg) as Hgg. pose proof (g_init Hg Hgen) as Hi. rewrite Ec, En in *.
    destruct (o_init o) as [l|]; [|exact Hgg]. split; [exact Hgg|]. now apply Hi.
  Qed.

  (** C24 *)
  Lemma c24 f n o o' r : run O G W f n o = (o', Ok r) ->
    exists last, by_hand O G W f 0 n o o' last /\ get_result O o' = (o', Ok r) /\
      match last with Some r' => r' = r | None => n = 0 end.
  Proof.
    unfold run. intros H. apply andthen_ok in H. destruct H as (o1 & [] & H1 & H2).
    destruct (get_result_spec H2) as [E _]. subst o1. destruct (run_by_hand O G W _ _ _ _ H1) as (last & Hb & Hn & Hl).
    exists last. split; [exact Hb|]. split; [exact H2|]. destruct last as [r'|]; [|now apply Hn].
    specialize (Hl r' eq_refl). congruence.
  Qed.
  Lemma c24_conv f n o o' last r : by_hand O G W f 0 n o o' last -> get_result O o' = (o', Ok r) ->
    run O G W f n o = (o', Ok r).
  Proof. intros H K. unfold run, andthen. now rewrite (by_hand_run H). Qed.
  Lemma c24_result c o o' r : do_call c o = (o', Ok (RResult r)) -> do_call CResult o' = (o', Ok (RResult r)).
  Proof. intros H. apply call_result in H. cbn [OptSpec.do_call]. now rewrite H. Qed.

  (** C25 *)
  Lemma c25 o g g' o' : reachable o -> aligned o -> copy O G W o g = (g', Ok o') ->
    c_dims (o_cfg o') = c_dims (o_cfg o) /\ c_acq (o_cfg o') = c_acq (o_cfg o) /\ c_est (o_cfg o') = c_est (o_cfg o) /\
    c_n0 (o_cfg o') = c_n0 (o_cfg o) /\
    o_Xi o' = o_Xi o /\ o_yi o' = o_yi o /\ o_left o' = o_left o /\ o_init o' = o_init o.
  Proof.
    intros Hr Ha H. apply reachable_good in Hr. destruct (copy_same _ Hr Ha H) as (E & E1 & E2 & E3 & E4).
    rewrite E. now repeat split.
  Qed.
  Lemma c25_ask s o g g' o' : gen_ok O W (dims o) (c_n0 (o_cfg o)) -> reachable o -> aligned o -> copy O G W o g = (g', Ok o') -> o_init o <> None ->
    (Z.of_nat (length (o_yi o)) < c_n0 (o_cfg o))%Z ->
    exists p, ask O G W NPNone s o = (o, Ok (A1pt p)) /\ ask O G W NPNone s o' = (o', Ok (A1pt p)).
  Proof.
    intros Hgen Hr Ha H Hi Hn. destruct (c25 _ Hr Ha H) as (E0 & _ & _ & E1 & _ & E2 & _ & E3).
    assert (Hr' : reachable o') by (eapply r_copy; eauto).
    destruct (c17_initial s Hr (or_introl Hn)) as [_ H1].
    assert (Hn' : (Z.of_nat (length (o_yi o')) < c_n0 (o_cfg o'))%Z) by now rewrite E1, E2.
    destruct (c17_initial s Hr' (or_introl Hn')) as [_ H2]. rewrite E3 in H2.
    destruct (o_init o) as [l|]; [|easy]. destruct (H1 Hgen Hn) as (p & Hp & Hask). destruct (fun K => H2 K Hn') as (p' & Hp' & Hask'); [now rewrite E0, E1|].
    rewrite E2 in Hp'. exists p. split; [exact Hask|]. congruence.
  Qed.

  (** C26 *)
  Definition timed (v : yval N) : Prop := exists y t, v = YP y (nlog O t) /\ nleb O t (nofZ O 0) = false.
  Lemma c26 x y fit o o' r : ps_of o = true -> tell O G W x y fit o = (o', Ok r) ->
    exists vs, o_yi o' = o_yi o ++ vs /\ Forall timed vs /\ valid_y O true x y /\
      Forall2 (fun a v => exists w t, a = YLst [YNum w; YNum t] /\ v = YP w (nlog O t))
              (match x, y with X2 _, YLst l => l | _, y => [y] end) vs.
  Proof.
    intros Hps H. destruct (tell_cases O G W x y fit o) as [[e E]|(y' & xs & ys & Hx & Hc & Hv & Hr & E)]; [congruence|].
    rewrite Hps in *. rewrite E in H. destruct (tell_grows O G W fit o Hr) as [(_ & _ & _ & _ & G5) _].
    rewrite H in G5. simpl in G5. exists ys. split; [exact G5|].
    destruct (valid_y_of _ _ _ _ Hc Hv) as [Hy|[? _]]; [|discriminate].
    assert (One : forall a v, valid_y1 O true a -> log_pair O a = Ok v ->
               timed v /\ exists w t, a = YLst [YNum w; YNum t] /\ v = YP w (nlog O t)).
    { intros a v (w & t & -> & Ht) Ea. simpl in Ea. unfold math_log in Ea. rewrite Ht in Ea. injection Ea as <-.
      split; [now exists w, t|now exists w, t]. }
    destruct x as [p|pts].
    - simpl in Hv, Hy. apply bind_ok in Hv. destruct Hv as (v & Hv & Ev). injection Ev as <-. inversion Hr; subst.
      destruct (One _ _ Hy Hv) as [H1 H2]. repeat split; auto.
    - destruct Hy as (l & -> & Hl & Hne). simpl in Hv. apply bind_ok in Hv. destruct Hv as (vs & Hv & Ev).
      injection Ev as <-. inversion Hr; subst. apply mapM_ok in Hv.
      assert (F : Forall2 (fun a v => timed v /\ exists w t, a = YLst [YNum w; YNum t] /\ v = YP w (nlog O t)) l ys).
      { clear - Hv Hl One. induction Hv; constructor; inversion Hl; subst; auto. }
      split; [|split; [exists l; auto|]].
      + clear - F. induction F as [|a v l vs [H _] F IH]; constructor; auto.
      + eapply Forall2_weaken; [|exact F]. simpl. tauto.
  Qed.

  (** C61 *)
  Lemma c61 s n o o' a p y fit : reachable o -> gen_ok O W (dims o) (c_n0 (o_cfg o)) -> rvs_ok O G (dims o) ->
    ask O G W n s o = (o', Ok a) -> (a = A1pt p \/ exists l, a = Apts l /\ In p l) -> valid_y1 O (ps_of o) y ->
    exists v, observation O (ps_of o) y v /\
      let o2 := fst (tell O G W (X1 p) y fit o') in
      o_Xi o2 = o_Xi o' ++ [X1 p] /\ o_yi o2 = o_yi o' ++ [v].
  Proof.
    intros Hr Hgen Hrvs Ha Hp Hy. pose proof (c16 _ _ Hr Hgen Hrvs Ha) as Hin.
    destruct (c18_frame _ _ _ Ha) as (_ & _ & _ & _ & _ & Ec & _).
    assert (Hm : member O (dims o) p).
    { destruct Hp as [->|(l & -> & Hl)]; [exact Hin|]. simpl in Hin. rewrite Forall_forall in Hin. auto. }
    assert (Hps : ps_of o' = ps_of o) by (unfold ps_of; now rewrite Ec).
    destruct (@valid_recorded N RNG M O G W (X1 p) y fit o') as (y' & xs & ys & Hrec & E).
    { simpl. now rewrite Ec. }
    { simpl. now rewrite Hps. }
    destruct (tell_logs O G W (X1 p) y fit o' I) as [[e E']|(Lg & Ht & Hgrow)].
    - (* validation cannot have failed: the observation is recorded *)
      rewrite E in E'. destruct (tell_grows O G W fit o' Hrec) as [(_ & _ & _ & G4 & _) _].
      rewrite E' in G4. simpl in G4. exfalso. inversion Hrec; subst.
      apply (f_equal (@length _)) in G4. rewrite app_length in G4. simpl in G4. lia.
    - inversion Ht; subst. rewrite Hps in *. exists v. split; [easy|]. destruct Hgrow as (_ & _ & _ & G4 & G5). auto.
  Qed.
End OptProps.

(** Sampling from float64 spaces (C06) as needed by C16. *)
Lemma rvs_ok_F64 L RNG (G : rng_ops float RNG) dims :
  rng_ok (F64 L) G -> pow_ok L -> dims <> [] -> Forall (samplable L) dims -> rvs_ok (F64 L) G dims.
Proof.
  intros Hg Hp Hd Hs n g P g' E.
  destruct (space_samples Hg Hp n g Hd Hs) as (P0 & g0 & E0 & Hl & HP). rewrite E0 in E. injection E as <- <-.
  split; [exact Hl|]. eapply Forall_impl; [|exact HP]. intros p Hin. unfold in_space in Hin. unfold member.
  clear - Hin Hs. induction Hin as [|d v ds p Hv Hin IH]; constructor; [|inversion Hs; auto].
  inversion Hs as [|? ? [Hw _] _]; subst. inversion Hv as [r x H1 H2|i z H1|c v' H1]; subst.
  - econstructor; simpl; eauto.
  - now constructor.
  - econstructor; [exact H1|]. destruct Hw as (_ & _ & Hr & _). rewrite Forall_forall in Hr. auto.
Qed.

(** There is one gain per hedged acquisition function. *)
Section Gains.
  Context {N RNG M : Type} (O : numops N) (G : rng_ops N RNG) (W : world N M).
  Notation state := (opt N RNG M).
  Definition same_len (o o' : state) : Prop := length (o_gains o') = length (o_gains o).
  Lemma sl_refl o : same_len o o. Proof. easy. Qed.
  Lemma sl_trans o1 o2 o3 : same_len o1 o2 -> same_len o2 o3 -> same_len o1 o3.
  Proof. unfold same_len. congruence. Qed.
  Lemma sub_list_len a : forall b c, sub_list O a b = Ok c -> length c = length a.
  Proof.
    induction a as [|x a IH]; intros [|y b] c H; simpl in H; try discriminate; [now injection H as <-|].
    apply bind_ok in H. destruct H as (d & Hd & H). injection H as <-. simpl. f_equal. eauto.
  Qed.
  Lemma update_gains_len est : pres same_len (update_gains O W est).
  Proof.
    intros o. pose proof (update_gains_spec O W est o) as H. destruct (update_gains O W est o) as [o' [u|e]]; [|now subst].
    destruct H as (gs & Hgs & ->). unfold same_len. simpl. unfold new_gains in Hgs.
    destruct (c_acq (o_cfg o)); [|now subst]. destruct (o_next_xs o); [|now subst].
    destruct Hgs as (p & _ & Hs). eapply sub_list_len; eauto.
  Qed.
  Ltac flen := repeat first
    [ apply pres_ret; apply sl_refl | apply pres_lift; apply sl_refl | apply pres_get; apply sl_refl
    | apply pres_upd; intros; reflexivity
    | apply pres_then; [apply sl_trans| |intros] ].
  Lemma push_len est : pres same_len (push_model (N := N) (RNG := RNG) est).
  Proof.
    unfold push_model. apply pres_then; [apply sl_trans|flen|]. intros o.
    destruct (c_queue (o_cfg o)) as [q|]; [|flen].
    destruct (_ <? _)%Z; [flen|]. destruct (o_models o); flen.
  Qed.
  Lemma cand_len : pres same_len (candidates (M := M) O G).
  Proof.
    unfold candidates. apply pres_then; [apply sl_trans|flen|]. intros o.
    destruct (space_rvs _ _ _ _ _) as [P g]. flen.
  Qed.
  Lemma fill_len l est X : pres same_len (fill_next_xs (RNG := RNG) O W l est X).
  Proof. induction l as [|a l IH]; simpl; [flen|]. repeat first [apply IH | progress flen]. Qed.
  Lemma choose_len : pres same_len (choose_next (M := M) O G).
  Proof.
    unfold choose_next. apply pres_then; [apply sl_trans|flen|]. intros o.
    destruct (c_acq (o_cfg o)); [|flen]. apply pres_then; [apply sl_trans|flen|]. intros ps.
    destruct (rg_multinomial _ _ _) as [i g]. flen.
  Qed.
  Lemma refit_len : pres same_len (refit O G W).
  Proof.
    unfold refit. repeat first
      [ apply update_gains_len | apply push_len | apply cand_len | apply fill_len | apply choose_len
      | apply pres_lift; apply sl_refl | apply pres_get; apply sl_refl
      | apply pres_upd; intros; reflexivity | apply pres_then; [apply sl_trans| |intros] ].
  Qed.
  Lemma tell__len x y xs ys fit (o : state) : recorded x y xs ys -> same_len o (fst (tell_ O G W x y fit o)).
  Proof.
    intros H. rewrite (tell_eq O G W fit o H). destruct (fits_now fit _).
    - pose proof (refit_len (after xs ys o)) as H1. destruct (refit O G W (after xs ys o)) as [o' [u|]]; exact H1.
    - easy.
  Qed.
  Lemma tell_len x y fit (o : state) : same_len o (fst (tell O G W x y fit o)).
  Proof.
    destruct (tell_cases O G W x y fit o) as [[e E]|(y' & xs & ys & _ & _ & _ & Hr & E)]; rewrite E; [easy|].
    now apply (tell__len fit o Hr).
  Qed.
  Lemma run_len f n : forall k (o : state), same_len o (fst (run_loop O G W f k n o)).
  Proof.
    induction n as [|n IH]; intros k o; [easy|]. rewrite run_loop_S.
    destruct (ask1_frame O G o) as [g Eg]. destruct (ask1 O G o) as [o1 [p|]]; simpl in Eg; subst o1; [|easy].
    destruct (f k p) as [y|]; [|easy]. pose proof (tell_len (X1 p) y true (set_rng g o)) as H.
    destruct (tell O G W (X1 p) y true (set_rng g o)) as [o2 [r|]]; [|exact H].
    eapply sl_trans; [exact H|apply IH].
  Qed.
  Lemma call_len c (o : state) : same_len o (fst (do_call O G W c o)).
  Proof.
    destruct c as [n s|x y fit|f n| |]; cbn [do_call].
    - destruct (ask_frame O G W n s o) as (g & c & E). destruct (ask O G W n s o) as [o1 r]. simpl in *. now subst.
    - pose proof (tell_len x y fit o) as H. destruct (tell O G W x y fit o); exact H.
    - pose proof (run_len f n 0 o) as H. unfold run, andthen. destruct (run_loop O G W f 0 n o) as [o1 [u|]]; exact H.
    - easy.
    - destruct (update_next_frame O G W o) as (g & nx & E). destruct (update_next O G W o) as [o1 r]. simpl in *. now subst.
  Qed.
  Lemma gains_three (o : state) : reachable O G W o -> c_acq (o_cfg o) = AHedge -> length (o_gains o) = 3.
  Proof.
    induction 1 as [a g g' o H|c o Hr IH|o g g' o' Hr IH H|g o Hr IH]; intros Ha.
    - revert H. unfold make_optimizer. destruct (acq_of (a_acq a)) as [acq|]; [|discriminate].
      destruct (a_n0 a <? 0)%Z; [discriminate|].
      assert (Main : forall e lb norm g0, finish O G W a acq e lb norm g0 = (g', Ok o) -> length (o_gains o) = 3).
      { intros e lb norm g0 H. apply finish_ok in H. destruct H as (d & init & _ & -> & _). simpl in *. now subst. }
      destruct (a_est a) as [e|].
      + destruct (negb (ed_regressor e)); [discriminate|].
        destruct (negb (_ || _)); [discriminate|]. destruct (negb _ && _); [discriminate|]. apply Main.
      + destruct (is_ps acq); [discriminate|]. destruct (_ || _); [apply Main|discriminate].
    - pose proof (call_len c o) as H. unfold same_len in H. rewrite H. apply IH.
      destruct (more_call c (reachable_good Hr)) as [E _]. now rewrite <- E.
    - destruct (copy_ok _ (reachable_good Hr) H) as (o2 & E1 & _ & _ & _ & _ & _ & _ & _ & _ & E2 & H2).
      assert (L : same_len o2 o' /\ o_cfg o' = o_cfg o2).
      { destruct H2 as [[_ ->]|[_ (r & H2)]]; [easy|].
        pose proof (tell__len true o2 (rec_hist (o_Xi o) (o_yi o))) as L. rewrite H2 in L. split; [exact L|].
        destruct (tell_grows O G W true o2 (rec_hist (o_Xi o) (o_yi o))) as [(E & _) _]. now rewrite H2 in E. }
      destruct L as [L Ec]. unfold same_len in L. rewrite L, E2. apply IH.
      rewrite Ec, E1 in Ha. exact Ha.
    - now apply IH.
  Qed.
End Gains.

(** C23 *)
Section Hedge.
  Context {N RNG M : Type} (O : numops N) (G : rng_ops N RNG) (W : world N M).
  Lemma c23 x y o o' r : reachable O G W o -> tell O G W x y true o = (o', Ok r) ->
    (c_n0 (o_cfg o') <= Z.of_nat (length (o_yi o')))%Z -> c_est (o_cfg o') <> None -> c_acq (o_cfg o') = AHedge ->
    exists m ms c1 c2 c3 ps i nx p rest,
      o_models o' = ms ++ [m] /\ o_next_xs o' = Some [c1; c2; c3] /\
      hedge_weights O (c_eta (o_cfg o')) (o_gains o') = Ok ps /\
      (exists g, i = fst (rg_multinomial G g ps)) /\
      nth_error [c1; c2; c3] i = Some nx /\
      space_inverse O (c_dims (o_cfg o')) [nx] = Ok (p :: rest) /\ o_next o' = Some p /\
      exists g1 g2 g3, o_gains o = [g1; g2; g3] /\
      match o_next_xs o with
      | None => o_gains o' = o_gains o
      | Some xs => exists p1 p2 p3, w_predict W m xs = Ok [p1; p2; p3] /\
          o_gains o' = [nsub O g1 p1; nsub O g2 p2; nsub O g3 p3]
      end.
  Proof.
    intros Hr H Hn He Hq. pose proof (reachable_good Hr) as Hg.
    assert (He' : has_est o' = true) by (unfold has_est; now destruct (c_est (o_cfg o'))).
    destruct (tell_fitted _ _ Hg H Hn He') as (o1 & E1 & E2 & E3 & E4 & E5 & E6 & E7 & [F]).
    assert (Ec : o_cfg o' = o_cfg o1) by congruence. rewrite Ec in *.
    assert (Hlast : exists ms, o_models o' = ms ++ [f_est F]).
    { pose proof (f_push F) as Hp. unfold pushed in Hp. destruct (c_queue (o_cfg o1)); [|eauto].
      destruct Hp as [[_ Hp]|[_ (m & t & _ & Hp)]]; eauto. }
    destruct Hlast as [ms Hms].
    pose proof (f_prop F) as Hp. rewrite Hq in Hp. cbn [cand_acqs] in Hp.
    inversion Hp as [|? c1 ? ? _ Hp1]; subst. inversion Hp1 as [|? c2 ? ? _ Hp2]; subst.
    inversion Hp2 as [|? c3 ? ? _ Hp3]; subst. inversion Hp3; subst.
    destruct (f_weights F Hq) as [Hw (g & Hi)].
    pose proof (f_gains F) as Hgs. unfold new_gains in Hgs. rewrite Hq in Hgs.
    pose proof (f_choice F) as Hc. pose proof (f_next_xs F) as Hnx.
    assert (Efx : f_xs F = [c1; c2; c3]) by congruence. rewrite Efx in *.
    assert (H3 : length (o_gains o) = 3).
    { eapply gains_three; [exact Hr|]. now rewrite <- E1. }
    rewrite E6, E7 in Hgs.
    exists (f_est F), ms, c1, c2, c3, (f_ps F), (f_i F), (f_nx F), (f_p F), (f_rest F).
    split; [exact Hms|]. split; [exact Hnx|]. split; [exact Hw|]. split; [eauto|]. split; [exact Hc|].
    split; [apply F|]. split; [apply F|].
    destruct (o_gains o) as [|g1 [|g2 [|g3 [|]]]]; try discriminate H3. exists g1, g2, g3. split; [easy|].
    destruct (o_next_xs o) as [xs|]; [|exact Hgs].
    destruct Hgs as (ps & Hpr & Hs).
    destruct ps as [|p1 [|p2 [|p3 [|]]]]; try discriminate Hs.
    simpl in Hs. injection Hs as Hs. exists p1, p2, p3. auto.
  Qed.
End Hedge.

(** *** Final forms used by Props_Optimizer.v *)
Section Final.
  Context {N RNG M : Type} (O : numops N) (G : rng_ops N RNG) (W : world N M).
  Notation state := (opt N RNG M).

  Lemma history_fresh a g g' o cs o' outs : make_optimizer O G W a g = (g', Ok o) ->
    exec O G W cs o = (o', outs) -> Forall (fun r => is_ok r = true) outs -> Forall (@matched N) cs ->
    exists Ls, Forall2 (logs O (ps_of o)) cs Ls /\
      o_Xi o' = map (fun a => X1 (fst a)) (concat Ls) /\ o_yi o' = map snd (concat Ls).
  Proof.
    intros Hm Hc Ho Hq. destruct (make_empty O G W _ _ Hm) as (_ & E1 & E2 & _).
    destruct (exec_history O G W _ Hc Ho Hq) as (Ls & H1 & H2 & H3). rewrite E1 in H2. rewrite E2 in H3. now exists Ls.
  Qed.
  Lemma aligned_fresh a g g' o cs : make_optimizer O G W a g = (g', Ok o) -> Forall (@matched N) cs ->
    length (o_Xi (fst (exec O G W cs o))) = length (o_yi (fst (exec O G W cs o))).
  Proof.
    intros Hm Hq. destruct (make_empty O G W _ _ Hm) as (_ & E1 & E2 & _). apply exec_aligned; [|exact Hq].
    unfold aligned. now rewrite E1, E2.
  Qed.

  Lemma c20_min_max (L : order_laws O) z s o o' X :
    reachable O G W o -> aligned o -> o_yi o <> [] -> no_nan O (map y_obj (o_yi o)) -> ps_of o = false ->
    s = "cl_min"%string \/ s = "cl_max"%string -> o_cache o = [] -> ask O G W (NPInt z) s o = (o', Ok (Apts X)) ->
    exists l v g g' cp cp', liar_of s = Some l /\ copy O G W o g = (g', Ok cp) /\
      lie_loop O G W l false (Z.to_nat z) cp = (cp', Ok X) /\
      o_Xi cp = o_Xi o /\ o_yi cp = o_yi o /\
      o_Xi cp' = o_Xi o ++ map (@X1 N) X /\ o_yi cp' = o_yi o ++ repeat (YS v) (length X) /\
      In v (map y_obj (o_yi o)) /\
      forall w, In w (map y_obj (o_yi o)) ->
        if String.eqb s "cl_min" then nleb O v w = true else nleb O w v = true.
  Proof.
    intros Hr Ha Hne Hn Hps Hs Hc H.
    destruct (fun A => c20 L _ _ Hr Ha Hne Hn Hps A Hc H) as (l & v & g & g' & cp & cp' & E & H1 & H2 & H3 & H4 & H5 & H6 & H7).
    { intros l El ->. destruct Hs as [-> | ->]; discriminate El. }
    exists l, v, g, g', cp, cp'. do 7 (split; [assumption|]).
    destruct Hs as [-> | ->]; injection E as <-; exact H7.
  Qed.
End Final.
Lemma c20_mean {RNG M : Type} (G : rng_ops R RNG) (W : world R M) z o o' X :
    reachable Rops G W o -> aligned o -> o_yi o <> [] -> ps_of o = false ->
    o_cache o = [] -> ask Rops G W (NPInt z) "cl_mean" o = (o', Ok (Apts X)) ->
    exists g g' cp cp', copy Rops G W o g = (g', Ok cp) /\
      lie_loop Rops G W ClMean false (Z.to_nat z) cp = (cp', Ok X) /\
      o_Xi cp = o_Xi o /\ o_yi cp = o_yi o /\
      o_Xi cp' = o_Xi o ++ map (@X1 R) X /\
      o_yi cp' = o_yi o ++ repeat (YS (Rsum (map y_obj (o_yi o)) / INR (length (o_yi o)))%R) (length X).
Proof.
  intros Hr Ha Hne Hps Hc H.
  assert (Hne' : map y_obj (o_yi o) <> []) by (destruct (o_yi o); easy).
  destruct (fun A => c20 Rops_order _ _ Hr Ha Hne (no_nan_R _) Hps A Hc H)
    as (l & v & g & g' & cp & cp' & E & H1 & H2 & H3 & H4 & H5 & H6 & H7).
  { intros l El ->. now apply mean_stable. }
  injection E as <-. simpl in H7. rewrite np_mean_R, map_length in H7 by easy. injection H7 as H7.
  exists g, g', cp, cp'. do 5 (split; [assumption|]). now rewrite H7.
Qed.
Lemma c16_F64 L RNG (G : rng_ops float RNG) M (W : world float M) o n s o' a :
  rng_ok (F64 L) G -> pow_ok L -> reachable (F64 L) G W o -> gen_ok (F64 L) W (c_dims (o_cfg o)) (c_n0 (o_cfg o)) ->
  c_dims (o_cfg o) <> [] -> Forall (samplable L) (c_dims (o_cfg o)) ->
  ask (F64 L) G W n s o = (o', Ok a) ->
  match a with A1pt p => member (F64 L) (c_dims (o_cfg o)) p | Apts l => Forall (member (F64 L) (c_dims (o_cfg o))) l end.
Proof.
  intros Hg Hp Hr Hgen Hd Hs H. exact (c16 _ _ Hr Hgen (rvs_ok_F64 Hg Hp Hd Hs) H).
Qed.
Lemma c61_F64 L RNG (G : rng_ops float RNG) M (W : world float M) o n s o' a p y fit :
  rng_ok (F64 L) G -> pow_ok L -> reachable (F64 L) G W o -> gen_ok (F64 L) W (c_dims (o_cfg o)) (c_n0 (o_cfg o)) ->
  c_dims (o_cfg o) <> [] -> Forall (samplable L) (c_dims (o_cfg o)) ->
  ask (F64 L) G W n s o = (o', Ok a) -> (a = A1pt p \/ exists l, a = Apts l /\ In p l) ->
  valid_y1 (F64 L) (ps_of o) y ->
  exists v, observation (F64 L) (ps_of o) y v /\
    o_Xi (fst (tell (F64 L) G W (X1 p) y fit o')) = o_Xi o' ++ [X1 p] /\
    o_yi (fst (tell (F64 L) G W (X1 p) y fit o')) = o_yi o' ++ [v].
Proof.
  intros Hg Hp Hr Hgen Hd Hs H Ha Hy. exact (c61 _ _ _ fit Hr Hgen (rvs_ok_F64 Hg Hp Hd Hs) H Ha Hy).
Qed.
Lemma c23_weights eta g1 g2 g3 : exists w1 w2 w3,
  hedge_weights Rops eta [g1; g2; g3] = Ok [w1; w2; w3] /\
  (0 <= w1 /\ 0 <= w2 /\ 0 <= w3 /\ w1 + w2 + w3 = 1)%R.
Proof.
  destruct (softmax eta (gains := [g1; g2; g3])) as (ps & E & Hl & Hp & Hs); [easy|].
  destruct ps as [|w1 [|w2 [|w3 [|]]]]; try discriminate Hl. exists w1, w2, w3. split; [exact E|].
  inversion Hp as [|? ? P1 Hp1]; subst. inversion Hp1 as [|? ? P2 Hp2]; subst. inversion Hp2 as [|? ? P3 _]; subst.
  simpl in Hs. repeat split; auto. lra.
Qed.
