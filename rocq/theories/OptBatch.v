(** Batches during a generated initial design (C19): they are the next points of the design. *)
From Coq Require Import String List ZArith Bool Lia.
From Verif Require Import Base Num Values Transformers Dimension Space Optimizer NumLaws BaseLemmas
  SpaceSpec OptSpec OptLemmas OptLemmas2 OptLemmas3 OptLemmas4 OptLemmas5 OptLemmas6.
Import ListNotations.
Open Scope list_scope.
Set Implicit Arguments.

Section Batch.
  Context {N RNG M : Type} (O : numops N) (G : rng_ops N RNG) (W : world N M).
  Notation state := (opt N RNG M).

  Lemma argmin_lt l : forall best bi i, bi < i -> argmin_aux O best bi i l < i + length l.
  Proof.
    induction l as [|x l IH]; intros best bi i H; simpl; [lia|]. destruct (nisnan O best); [lia|].
    destruct (_ || _); [specialize (IH x i (S i)); lia|specialize (IH best bi (S i)); lia].
  Qed.
  Lemma argmax_lt l : forall best bi i, bi < i -> argmax_aux O best bi i l < i + length l.
  Proof.
    induction l as [|x l IH]; intros best bi i H; simpl; [lia|]. destruct (nisnan O best); [lia|].
    destruct (_ || _); [specialize (IH x i (S i)); lia|specialize (IH best bi (S i)); lia].
  Qed.
  Lemma np_argmin_lt l i : np_argmin O l = Some i -> i < length l.
  Proof. destruct l as [|x l]; [discriminate|]. intros H. injection H as <-. apply (argmin_lt l x (bi := 0) (i := 1)). lia. Qed.
  Lemma np_min_total l : l <> [] -> exists m, np_min O l = Ok m.
  Proof.
    destruct l as [|x l]; [easy|]. intros _. unfold np_min, nth_of, np_argmin.
    destruct (nth_error (x :: l) (argmin_aux O x 0 1 l)) eqn:E; [eauto|]. apply nth_error_None in E.
    pose proof (argmin_lt l x (bi := 0) (i := 1)). simpl in *. lia.
  Qed.
  Lemma np_max_total l : l <> [] -> exists m, np_max O l = Ok m.
  Proof.
    destruct l as [|x l]; [easy|]. intros _. unfold np_max, nth_of, np_argmax.
    destruct (nth_error (x :: l) (argmax_aux O x 0 1 l)) eqn:E; [eauto|]. apply nth_error_None in E.
    pose proof (argmax_lt l x (bi := 0) (i := 1)). simpl in *. lia.
  Qed.
  Lemma lie_total s l : l <> [] -> exists m, lie_stat O s l = Ok m.
  Proof.
    intros H. destruct s; simpl; [now apply np_min_total| |now apply np_max_total].
    unfold np_mean. destruct l; [easy|eauto].
  Qed.
  Lemma the_lie_total s ps yi : exists v, the_lie O W s ps yi = Ok v.
  Proof.
    unfold the_lie. destruct yi as [|y yi]; [destruct ps; simpl; eauto|].
    destruct (lie_total s (l := y_flat (y :: yi))) as [m E]; [now destruct y|]. rewrite E. cbn [bind].
    destruct ps; [|eauto].
    destruct (lie_total s (l := map (fun v => match v with YP _ t => t | YS y => y end) (y :: yi))) as [t E2]; [easy|].
    rewrite E2. cbn [bind]. eauto.
  Qed.
  Lemma result_total (o : state) : aligned o -> o_yi o <> [] -> exists r, get_result O o = (o, Ok r).
  Proof.
    unfold aligned, get_result, create_result. intros Ha Hn.
    destruct (np_argmin O (map y_obj (o_yi o))) as [i|] eqn:E.
    - pose proof (np_argmin_lt _ E) as Hi. rewrite map_length in Hi.
      destruct (nth_error (o_Xi o) i) eqn:E1; [|apply nth_error_None in E1; lia].
      destruct (nth_error (map y_obj (o_yi o)) i) eqn:E2; [eauto|].
      apply nth_error_None in E2. rewrite map_length in E2. lia.
    - destruct (o_yi o); [easy|discriminate].
  Qed.

  Lemma ask1_design (o : state) l p : good O G W o -> o_init o = Some l ->
    length l = Z.to_nat (c_n0 (o_cfg o)) -> nth_error l (length (o_yi o)) = Some p -> ask1 O G o = (o, Ok p).
  Proof.
    intros Hg Hi Hl Hp.
    assert (Hlt : length (o_yi o) < length l) by (apply nth_error_Some; congruence).
    pose proof (g_left Hg) as Hleft. pose proof (g_n0 Hg) as H0.
    unfold ask1, andthen, get, ret, lift. rewrite Hi.
    replace (0 <? o_left o)%Z with true by (symmetry; apply Z.ltb_lt; lia). cbn [orb].
    replace (Z.of_nat (length l) - o_left o)%Z with (Z.of_nat (length (o_yi o))) by lia.
    unfold py_index. replace (0 <=? Z.of_nat (length (o_yi o)))%Z with true by (symmetry; apply Z.leb_le; lia).
    try replace (Z.of_nat (length (o_yi o)) <? Z.of_nat (length l))%Z with true by (symmetry; apply Z.ltb_lt; lia).
    cbn [andb]. rewrite Nat2Z.id, Hp. reflexivity.
  Qed.

  Lemma lie_loop_design s ps k : forall (o : state) l, gen_ok O W (c_dims (o_cfg o)) (c_n0 (o_cfg o)) -> good O G W o -> aligned o -> o_init o = Some l ->
    length (o_yi o) + k < length l ->
    exists o', lie_loop O G W s ps k o = (o', Ok (firstn k (skipn (length (o_yi o)) l))).
  Proof.
    induction k as [|k IH]; intros o l Hgen Hg Ha Hi Hk; [now exists o|].
    destruct (g_init Hg Hgen Hi) as [Hl Hm].
    destruct (nth_error l (length (o_yi o))) as [p|] eqn:Ep; [|apply nth_error_None in Ep; lia].
    destruct (the_lie_total s ps (o_yi o)) as [v Hv].
    assert (Hr : recorded (P1 p) (Y1 v) [X1 p] [v]) by constructor.
    set (o1 := after [X1 p] [v] o).
    assert (Ha1 : aligned o1) by (unfold aligned, o1, after in *; simpl; rewrite !app_length; simpl; lia).
    destruct (result_total Ha1) as [r Er]; [unfold o1; simpl; now destruct (o_yi o)|].
    assert (Ht : tell_ O G W (P1 p) (Y1 v) true o = (o1, Ok r)).
    { rewrite (tell_eq O G W true o Hr). fold o1. replace (fits_now true o1) with false; [exact Er|].
      unfold fits_now, o1, after. cbn [o_left length]. pose proof (g_left Hg). pose proof (g_n0 Hg).
      symmetry. apply andb_false_iff. left. simpl. apply Z.leb_gt. lia. }
    assert (Hg1 : good O G W o1).
    { apply good_after; [exact Hg|]. constructor; [|constructor]. simpl.
      rewrite Forall_forall in Hm. apply Hm. eapply nth_error_In; eauto. }
    destruct (IH o1 l Hgen Hg1 Ha1) as (o' & Hloop); auto.
    { unfold o1. simpl. rewrite app_length. simpl. lia. }
    exists o'. cbn [lie_loop]. unfold andthen, ret, lie_once, andthen, get, lift, ret.
    rewrite (ask1_design Hg Hi Hl Ep), Hv. unfold andthen in *. rewrite Ht, Hloop.
    f_equal. f_equal. 
    assert (Hs : skipn (length (o_yi o)) l = p :: skipn (S (length (o_yi o))) l).
    { clear - Ep. revert Ep. generalize (length (o_yi o)) as n. induction l as [|a l IH]; intros [|n] E; try discriminate.
      - injection E as ->. reflexivity.
      - simpl in *. now apply IH. }
    rewrite Hs. cbn [firstn]. f_equal. unfold o1. cbn [o_yi after]. rewrite app_length, Nat.add_1_r. reflexivity.
  Qed.

  Lemma copy_total (o : state) g : good O G W o -> aligned o ->
    (forall seed, is_ok (w_generate W (c_dims (o_cfg o)) (c_n0 (o_cfg o)) seed) = true) ->
    (Z.of_nat (length (o_yi o)) < c_n0 (o_cfg o))%Z -> exists g' o', copy O G W o g = (g', Ok o').
  Proof.
    intros Hg Ha Hw Hn.
    assert (Hmk : exists g' o1, make_optimizer O G W (copy_args o) g = (g', Ok o1)).
    { unfold make_optimizer, copy_args. cbn [a_acq a_n0 a_est_str a_est a_acqopt]. rewrite acq_of_name.
      replace (c_n0 (o_cfg o) <? 0)%Z with false by (symmetry; apply Z.ltb_ge; lia).
      fold (copy_args o).
      assert (Main : forall e lb norm, (norm = true -> set_kinds_all KNormalize (c_dims (o_cfg o)) = Ok (c_dims (o_cfg o))) ->
        exists g' o1, finish O G W (copy_args o) (c_acq (o_cfg o)) e lb norm g = (g', Ok o1)).
      { intros e lb norm H. unfold finish. cbn [a_dims copy_args a_gen a_n0].
        assert (E : (if norm then set_kinds_all KNormalize (c_dims (o_cfg o)) else Ok (c_dims (o_cfg o))) = Ok (c_dims (o_cfg o))).
        { destruct norm; [now apply H|easy]. }
        rewrite E. destruct (c_gen (o_cfg o)); [|eauto].
        destruct (rg_randint G g 0 int_max) as [seed g'] eqn:Er.
        specialize (Hw seed). destruct (w_generate W (c_dims (o_cfg o)) (c_n0 (o_cfg o)) seed); [eauto|discriminate]. }
      destruct (c_est (o_cfg o)) as [e|] eqn:Ee.
      - destruct (g_norm Hg Ee) as (H1 & H2 & H3 & H4). rewrite H1. cbn [negb].
        assert (Em : (if is_ps (c_acq (o_cfg o)) && negb (ed_multi e) then wrap_multi e else e) = e).
        { destruct (is_ps (c_acq (o_cfg o))) eqn:Ep; [|easy]. unfold ps_of in H3. now rewrite (H3 Ep). }
        rewrite Em. destruct (c_lbfgs (o_cfg o)) eqn:El.
        + cbn [String.eqb]. cbn. rewrite (H4 eq_refl). cbn. apply Main. rewrite orb_false_r. exact H2.
        + cbn. rewrite andb_false_r. apply Main. rewrite orb_false_r. exact H2.
      - destruct (g_none Hg Ee) as [H1 H2]. unfold ps_of in H1. rewrite H1, H2. apply Main. discriminate. }
    destruct Hmk as (g' & o1 & Em). destruct (copy_start _ Hg Em) as (init & Eo1).
    unfold copy. rewrite Em.
    set (o2 := set_gains (o_gains o) (set_init (o_init o) o1)).
    destruct (o_Xi o) as [|x xs] eqn:EX; [eauto|]. rewrite <- EX.
    assert (Hr : recorded (PH (o_Xi o)) (Yn (o_yi o)) (o_Xi o) (o_yi o)) by constructor.
    rewrite (tell_eq O G W true o2 Hr).
    replace (fits_now true (after (o_Xi o) (o_yi o) o2)) with false.
    - assert (Ha2 : aligned (after (o_Xi o) (o_yi o) o2)).
      { unfold aligned, after. cbn [o_Xi o_yi]. unfold o2. rewrite Eo1. simpl. exact Ha. }
      destruct (result_total Ha2) as [r Er].
      { unfold after. cbn [o_yi]. unfold o2. rewrite Eo1. simpl. intros E. unfold aligned in Ha. rewrite E, EX in Ha. discriminate. }
      rewrite Er. eauto.
    - unfold fits_now, after. cbn [o_left]. unfold o2. rewrite Eo1. cbn [o_left set_gains set_init].
      symmetry. apply andb_false_iff. left. simpl. apply Z.leb_gt. lia.
  Qed.

  Lemma initial_batch z s (o : state) l : reachable O G W o -> aligned o -> gen_ok O W (c_dims (o_cfg o)) (c_n0 (o_cfg o)) ->
    (forall seed, is_ok (w_generate W (c_dims (o_cfg o)) (c_n0 (o_cfg o)) seed) = true) ->
    o_init o = Some l -> o_cache o = [] -> liar_of s <> None -> (0 < z)%Z ->
    (Z.of_nat (length (o_yi o)) + z < c_n0 (o_cfg o))%Z ->
    exists o', ask O G W (NPInt z) s o = (o', Ok (Apts (firstn (Z.to_nat z) (skipn (length (o_yi o)) l)))).
  Proof.
    intros Hr Ha Hgen Hw Hi Hc Hs Hz Hn. pose proof (reachable_good Hr) as Hg.
    destruct (g_init Hg Hgen Hi) as [Hl _].
    cbn [ask]. unfold ask_n. replace (z <=? 0)%Z with false by (symmetry; apply Z.leb_gt; lia).
    destruct (liar_of s) as [q|]; [|easy].
    unfold andthen, get, upd, lift, ret. cbv beta iota. rewrite Hc. cbn [dict_get].
    destruct (rg_randint G (o_rng o) 0 int_max) as [seed g] eqn:Eg.
    destruct (copy_total (rg_seed G seed) Hg Ha Hw) as (g' & cp & Ecp); [lia|].
    destruct (good_copy _ Hg Ecp) as [Hgc _]. destruct (copy_same _ Hg Ha Ecp) as (E0 & E1 & E2 & E3 & E4).
    destruct (@lie_loop_design q (is_ps (c_acq (o_cfg o))) (Z.to_nat z) cp l) as (o' & Hloop); auto.
    { rewrite E0. exact Hgen. }
    { unfold aligned in *. now rewrite E1, E2. }
    { now rewrite E4. }
    { rewrite E2, Hl. lia. }
    rewrite E2 in Hloop.
    rewrite Ecp. cbn [snd]. rewrite Hloop. cbn [snd]. eauto.
  Qed.
End Batch.
