(** BayesSearchCV (C38, C39). *)
From Coq Require Import String List ZArith Bool Lia Permutation.
From Verif Require Import Base BaseLemmas Num Values Transformers Dimension Space Optimizer OptSpec OptLemmas2 OptLemmas5 OptProps
  Minimize MinProps Named Search SearchSpec NamedLemmas.
Import ListNotations.
Open Scope list_scope.
Set Implicit Arguments.

Lemma slice_last_app {A} (a b : list A) : b <> [] -> slice_last (length b) (a ++ b) = b.
Proof.
  intros Hb. unfold slice_last. destruct (Nat.eqb_spec (length b) 0) as [E|_]; [destruct b; easy|].
  rewrite app_length. replace (length a + length b - length b) with (length a) by lia.
  rewrite skipn_app, skipn_all, Nat.sub_diag. reflexivity.
Qed.

Section SearchLemmas.
  Context {N RNG M : Type} (O : numops N) (G : rng_ops N RNG) (W : world N M) (neg : N -> N).
  Context (scorer : nat -> candidate N -> res N).
  Notation state := (opt N RNG M).
  Notation result := (result N RNG M).
  Notation seg := (list (point N * N)).
  Notation reachable := (reachable O G W).
  Definition rows_of (sp : space_dict N) (s : seg) (b : batch N) : Prop :=
    Forall2 (fun ps row => named sp (fst ps) (fst row) /\ snd row = snd ps) s b.
  Definition seg_x (s : seg) : list (xarg N) := map (fun ps => X1 (fst ps)) s.
  Definition seg_y (s : seg) : list (yval N) := map (fun ps => YS (neg (snd ps))) s.
  Definition scored (k : nat) (b : batch N) : Prop :=
    forall i c v, nth_error b i = Some (c, v) -> scorer (k + i) c = Ok v.
  Definition reports (r : result) (s : seg) : Prop :=
    res_x_iters r = seg_x s /\ res_func_vals r = map (fun ps => neg (snd ps)) s.

  Lemma score_from_ok : forall cs k b, score_from scorer k cs = Ok b ->
    map fst b = cs /\ scored k b.
  Proof.
    induction cs as [|c cs IH]; intros k b H; simpl in H.
    - injection H as <-. split; [easy|]. intros [|i]; discriminate.
    - apply bind_ok in H. destruct H as (v & Ev & H). apply bind_ok in H. destruct H as (rest & Er & H). injection H as <-.
      destruct (IH _ _ Er) as [E Hs]. split; [simpl; congruence|]. intros [|i] c' v' Hi; simpl in Hi.
      + injection Hi as <- <-. now rewrite Nat.add_0_r.
      + rewrite <- Nat.add_succ_comm. now apply Hs.
  Qed.
  Lemma scored_app k a b : scored k a -> scored (k + length a) b -> scored k (a ++ b).
  Proof.
    intros Ha Hb i c v Hi. destruct (Nat.lt_ge_cases i (length a)) as [Hl|Hl].
    - rewrite nth_error_app1 in Hi by easy. now apply Ha.
    - rewrite nth_error_app2 in Hi by easy. apply Hb in Hi. replace (k + length a + (i - length a)) with (k + i) in Hi by lia. easy.
  Qed.
  Lemma obs_neg ps (l : list N) vs : Forall2 (observation O ps) (map (fun s => YNum (neg s)) l) vs ->
    vs = map (fun s => YS (neg s)) l.
  Proof.
    revert vs. induction l as [|s l IH]; intros vs H; inversion H as [|? ? ? ? Ho Hr]; subst; [easy|].
    simpl. f_equal; [|auto]. now inversion Ho.
  Qed.

  Lemma step_facts sp n o log o' log' r : is_dict sp -> reachable o ->
    step O G W neg scorer sp n o log = Ok (o', log', r) ->
    exists s new, log' = log ++ [new] /\ (0 < n)%Z /\ Z.of_nat (length s) = n /\ rows_of sp s new /\
      scored (length (concat log)) new /\ reachable o' /\
      o_Xi o' = o_Xi o ++ seg_x s /\ o_yi o' = o_yi o ++ seg_y s /\
      res_x_iters r = o_Xi o' /\ res_func_vals r = map (@y_obj N) (o_yi o').
  Proof.
    intros Hd Hr. unfold step. destruct (ask O G W (NPInt n) "cl_min" o) as [o1 [[p|params]|e]] eqn:Ea; [intros H; discriminate H| |intros H; discriminate H].
    intros H. apply bind_ok in H. destruct H as (lg & El & H).
    destruct (tell O G W _ _ true o1) as [o2 [r'|e]] eqn:Et; [|discriminate]. injection H as <- <- <-.
    unfold evaluate in El. rewrite map_length in El. match type of El with (if ?b then _ else _) = _ => destruct b eqn:Hn; [discriminate El|] end.
    apply Nat.eqb_neq in Hn. assert (Hp : params <> []) by (intros ->; now apply Hn). clear Hn.
   
    apply bind_ok in El. destruct El as (new & Es & El). injection El as <-.
    destruct (score_from_ok _ _ Es) as [Ef Hs].
    assert (Hlen : length new = length params) by (rewrite <- (map_length fst), Ef, map_length; reflexivity).
    assert (Esl : slice_last (length params) (map snd (concat (log ++ [new]))) = map snd new).
    { rewrite concat_app, map_app. simpl. rewrite app_nil_r. rewrite <- Hlen, <- (map_length snd new). apply slice_last_app.
      destruct new; [destruct params; [congruence|discriminate Hlen]|discriminate]. }
    rewrite Esl in Et. destruct (c19_size _ _ Hr Ea) as (X & EX & Hz & _). injection EX as <-.
    pose proof Et as Et0. apply told_points in Et; [|now rewrite !map_length]. destruct Et as (vs & Ho & EXi & EYi & _ & _ & Eg).
    apply obs_neg in Ho. rewrite map_map in Ho.
    destruct (c18_frame _ _ _ _ _ _ Ea) as (F1 & F2 & _). rewrite F1 in EXi. rewrite F2 in EYi.
    exists (combine params (map snd new)), new. repeat match goal with |- _ /\ _ => split end; auto.
    - destruct params; [congruence|]. simpl in Hz. lia.
    - rewrite combine_length, map_length. lia.
    - unfold rows_of. clear -Ef Hd. revert new Ef. induction params as [|p params IH]; intros [|[c v] new] Ef; try discriminate; [constructor|].
      simpl in *. injection Ef as -> Ef. constructor; [|now apply IH]. simpl. split; [now apply asdict_named|easy].
    - replace o2 with (fst (do_call O G W (CTell (X2 params) (YLst (map (fun s => YNum (neg s)) (map snd new))) true)
        (fst (do_call O G W (CAsk (NPInt n) "cl_min") o)))).
      + now repeat constructor.
      + cbn [do_call]. rewrite Ea. cbn [fst]. rewrite Et0. reflexivity.
    - rewrite EXi. f_equal. unfold seg_x. clear -Hlen. revert new Hlen.
      induction params as [|p params IH]; intros [|[c v] new] H; try discriminate; [easy|]. simpl. f_equal. apply IH. simpl in H. lia.
    - rewrite EYi, Ho. f_equal. unfold seg_y. clear -Hlen. revert new Hlen.
      induction params as [|p params IH]; intros [|[c v] new] H; try discriminate; [easy|]. simpl. f_equal. apply IH. simpl in H. lia.
    - apply get_result_spec in Eg. tauto.
    - apply get_result_spec in Eg. tauto.
  Qed.

  (** *** One space *)
  Notation running := (running N RNG M).
  Lemma stops_false (cbs : list (callback N RNG M)) seen b : never_stops cbs -> stops cbs seen = Ok b -> b = false.
  Proof.
    intros Hn H. unfold stops in H. apply bind_ok in H. destruct H as (as_ & Hm & H). injection H as <-. apply mapM_ok in Hm.
    assert (Hc : forall c, In c cbs -> c seen <> Ok (Some true)) by (intros c Hc; now apply Hn). clear Hn.
    induction Hm as [|c a cbs as_ E Hm IH]; [easy|]. simpl. rewrite IH by (intros; apply Hc; now right).
    specialize (Hc c (or_introl eq_refl)). destruct a as [[|]|]; congruence || easy.
  Qed.
  Record ran (sp : space_dict N) (s s' : running) (sg : seg) (part : list (batch N)) : Prop := {
    ran_log : r_log s' = r_log s ++ part;
    ran_rows : rows_of sp sg (concat part);
    ran_scored : scored (length (concat (r_log s))) (concat part);
    ran_reach : reachable (r_opt s) -> reachable (r_opt s');
    ran_x : o_Xi (r_opt s') = o_Xi (r_opt s) ++ seg_x sg;
    ran_y : o_yi (r_opt s') = o_yi (r_opt s) ++ seg_y sg;
    ran_last : if Nat.eqb (length sg) 0 then r_last s' = r_last s
               else exists r, r_last s' = Some r /\ res_x_iters r = o_Xi (r_opt s') /\
                              res_func_vals r = map (@y_obj N) (o_yi (r_opt s')) }.
  Lemma loop_facts cbs sp size : is_dict sp -> forall fuel n s s', reachable (r_opt s) ->
    search_loop O G W neg scorer cbs sp size fuel n s = Ok s' ->
    exists sg part, ran sp s s' sg part /\ (never_stops cbs -> batched size n (map (@length _) part)) /\
      (Z.of_nat (length sg) <= Z.max 0 n)%Z /\ Forall (fun b => (1 <= Z.of_nat (length b) <= size)%Z) part.
  Proof.
    intros Hd. induction fuel as [|fuel IH]; intros n s s' Hr H; cbn [search_loop] in H.
    - destruct (n <=? 0)%Z eqn:En; [|discriminate]. injection H as <-. exists [], [].
      split; [|split; [intros _; constructor; lia|split; [simpl; lia|constructor]]].
      constructor; simpl; auto; rewrite ?app_nil_r; auto; [constructor|intros [|i]; discriminate].
    - destruct (n <=? 0)%Z eqn:En.
      { injection H as <-. exists [], []. split; [|split; [intros _; constructor; lia|split; [simpl; lia|constructor]]].
        constructor; simpl; auto; rewrite ?app_nil_r; auto; [constructor|intros [|i]; discriminate]. }
      apply bind_ok in H. destruct H as ([[o log] r] & Es & H). apply bind_ok in H. destruct H as (b & Eb & H).
      destruct (step_facts _ _ Hd Hr Es) as (s1 & new & El & Hn & Hz & Hrow & Hsc & Hr' & HX & HY & Hrx & Hrf).
      set (sm := mkRunning o log (r_seen s ++ [r]) (Some r)) in *.
      assert (R1 : ran sp s sm s1 [new]).
      { constructor; simpl; rewrite ?app_nil_r; auto. destruct (Nat.eqb_spec (length s1) 0); [lia|]. eauto. }
      assert (Hlen : length new = length s1) by (symmetry; eapply Forall2_len; exact Hrow).
      destruct b.
      { injection H as <-. exists s1, [new]. split; [easy|]. split; [|split; [lia|repeat constructor; lia]].
        intros Hs. apply stops_false in Eb; [discriminate|easy]. }
      apply IH in H; [|exact Hr']. destruct H as (s2 & part & R2 & Hb & Hm & Hf). exists (s1 ++ s2), (new :: part).
      split; [|split].
      + destruct R1 as [A1 A2 A3 A4 A5 A6 A7]. destruct R2 as [B1 B2 B3 B4 B5 B6 B7]. constructor.
        * rewrite B1, A1, <- app_assoc. reflexivity.
        * simpl in *. rewrite app_nil_r in A2. apply Forall2_app; assumption.
        * simpl in *. rewrite app_nil_r in A3. apply scored_app; [easy|].
          rewrite A1, concat_app, app_length in B3. simpl in B3. now rewrite app_nil_r in B3.
        * auto.
        * rewrite B5, A5, <- app_assoc. unfold seg_x. now rewrite map_app.
        * rewrite B6, A6, <- app_assoc. unfold seg_y. now rewrite map_app.
        * rewrite app_length. destruct (Nat.eqb_spec (length s1) 0) as [|_]; [lia|].
          destruct (Nat.eqb_spec (length s1 + length s2) 0) as [|_]; [lia|].
          destruct (Nat.eqb_spec (length s2) 0) as [E2|_]; [|exact B7]. rewrite B7. destruct A7 as (r' & E & F1 & F2).
          exists r'. split; [easy|]. destruct s2; [|discriminate]. unfold seg_x, seg_y in *. simpl in *. rewrite app_nil_r in *.
          rewrite B5, B6. easy.
      + intros Hs. specialize (Hb Hs). simpl. destruct (Z.leb_spec n size) as [Hle|Hle].
        * assert (part = []) as ->.
          { inversion Hb as [? ? Ep|? ? ? ? Ep|? ? ? ? ? ? Ep]; [|lia|lia]. now destruct part. }
          apply bt_last; lia.
        * apply bt_full; [lia|lia|exact Hb].
      + split; [rewrite app_length; lia|]. constructor; [lia|exact Hf].
  Qed.
  Lemma batched_sum size : forall n ks, batched size n ks -> Z.of_nat (list_sum ks) = Z.max 0 n.
  Proof. induction 1; simpl in *; lia. Qed.

  (** *** All spaces *)
  Lemma space_of_in (e : space_elem N) sp : space_of e = Ok sp -> space_in e sp.
  Proof. destruct e; simpl; intros H; try discriminate; injection H as ->; [now left|right; eauto]. Qed.
  Lemma make_all_reach kw : forall l g g' os, make_all O G W kw l g = (g', Ok os) ->
    length os = length l /\ Forall (fun o => reachable o /\ o_Xi o = [] /\ o_yi o = []) os.
  Proof.
    induction l as [|e l IH]; intros g g' os H; simpl in H.
    - injection H as <- <-. split; [easy|constructor].
    - destruct (space_of e) as [sp|]; [|discriminate].
      destruct (search_optimizer O G W kw sp g) as [g1 [o|]] eqn:Eo; [|discriminate].
      destruct (make_all O G W kw l g1) as [g2 [os'|]] eqn:Em; [|discriminate]. injection H as <- <-.
      destruct (IH _ _ _ Em) as [El Hf]. split; [simpl; congruence|]. constructor; [|easy].
      unfold search_optimizer in Eo. destruct (dimensions_aslist sp); [|discriminate].
      split; [eapply r_make; exact Eo|]. destruct (make_empty O G W _ _ Eo) as (_ & E1 & E2 & _). easy.
  Qed.
  Lemma spaces_facts cbs n_iter size : forall l g log seen prev os log' rs,
    all_dicts (map fst l) -> Forall (fun eo => reachable (snd eo) /\ o_Xi (snd eo) = [] /\ o_yi (snd eo) = []) l ->
    search_spaces O G W neg scorer cbs n_iter size l g log seen prev = Ok (os, log', rs) ->
    exists parts, log' = log ++ concat parts /\ accounted neg (map fst l) os rs (concat (concat parts)) /\
      scored (length (concat log)) (concat (concat parts)) /\
      (never_stops cbs -> Forall2 (fun e part => batched size (budget n_iter e) (map (@length _) part)) (map fst l) parts) /\
      Forall2 (fun e part => Z.of_nat (length (concat part)) <= Z.max 0 (budget n_iter e) /\
        Forall (fun b => 1 <= Z.of_nat (length b) <= size) part)%Z (map fst l) parts.
  Proof.
    induction l as [|[e o] l IH]; intros g log seen prev os log' rs Hd Hl H.
    - simpl in H. injection H as <- <- <-. exists []. simpl. rewrite app_nil_r. split; [easy|]. split; [constructor|].
      split; [intros [|i]; discriminate|]. split; [intros _|]; constructor.
    - cbn [search_spaces] in H. apply bind_ok in H. destruct H as (sp & Esp & H). apply bind_ok in H. destruct H as (s & Es & H).
      destruct (r_last s) as [r|] eqn:Er; [|discriminate]. apply bind_ok in H. destruct H as ([[os' lg] rs'] & Ev & H).
      injection H as <- <- <-. inversion Hl as [|? ? Ho Hl']; subst. cbn [snd] in Ho. destruct Ho as (Hr & EX & EY).
      apply space_of_in in Esp. assert (Hsp : is_dict sp) by (eapply Hd; [now left|exact Esp]).
      apply (loop_facts _ _ Hsp) in Es; [|now apply r_rng]. destruct Es as (sg & part & R & Hb & Hm & Hf).
      apply IH in Ev; [|intros e' sp' Hi; apply Hd; now right|easy].
      destruct Ev as (parts & E1 & Ha & Hs & Hbs & Hmx). destruct R as [A1 A2 A3 A4 A5 A6 A7]. simpl in A1, A3, A5, A6, A7.
      exists (part :: parts). split; [rewrite E1, A1; simpl; now rewrite <- app_assoc|].
      rewrite EX in A5. rewrite EY in A6. simpl in A5, A6.
      split; [|split; [|split]].
      + simpl. rewrite concat_app. econstructor; eauto. intros Hsg. destruct (Nat.eqb_spec (length sg) 0); [now destruct sg|].
        destruct A7 as (r' & E & F1 & F2). rewrite Er in E. injection E as <-. rewrite F1, F2, A5, A6. split; [easy|].
        unfold seg_y. rewrite map_map. reflexivity.
      + simpl. rewrite concat_app. apply scored_app; [easy|].
        rewrite A1, concat_app, app_length in Hs. exact Hs.
      + intros Hn. specialize (Hb Hn). simpl. constructor; [exact Hb|auto].
      + simpl. constructor; [|easy]. split; [|easy]. eapply Z.le_trans; [|exact Hm]. apply Nat2Z.inj_le, Nat.eq_le_incl. symmetry. exact (Forall2_len A2).
  Qed.

  Lemma fit_facts (s : search N) cbs g os log rs : all_dicts (given_spaces (s_spaces s)) ->
    search_fit O G W neg s scorer cbs g = Ok (os, log, rs) ->
    let l := given_spaces (s_spaces s) in
    exists parts, log = concat parts /\ accounted neg l os rs (concat (concat parts)) /\
      scored 0 (concat (concat parts)) /\
      (never_stops cbs -> Forall2 (fun e part => batched (s_npoints s) (budget (s_niter s) e) (map (@length _) part)) l parts) /\
      Forall2 (fun e part => Z.of_nat (length (concat part)) <= Z.max 0 (budget (s_niter s) e) /\
        Forall (fun b => 1 <= Z.of_nat (length b) <= s_npoints s) part)%Z l parts.
  Proof.
    intros Hd H. unfold search_fit in H. apply bind_ok in H. destruct H as (_ & _ & H). apply bind_ok in H.
    destruct H as (l & El & H). assert (l = given_spaces (s_spaces s)) by (destruct (s_spaces s); simpl in *; congruence). subst l.
    destruct (make_all O G W (s_kwargs s) (given_spaces (s_spaces s)) g) as [g' [os'|]] eqn:Em; [|discriminate].
    destruct (make_all_reach _ _ _ Em) as [Hlen Hf].
    assert (Ef : map fst (combine (given_spaces (s_spaces s)) os') = given_spaces (s_spaces s)) by (apply combine_fst; easy).
    apply spaces_facts in H.
    - rewrite Ef in H. exact H.
    - now rewrite Ef.
    - rewrite Forall_forall in *. intros [e o] Hi. apply in_combine_r in Hi. now apply Hf.
  Qed.
  Lemma budget_sum n_iter size (l : list (space_elem N)) parts : (forall e, In e l -> (0 <= budget n_iter e)%Z) ->
    Forall2 (fun e (part : list (batch N)) => batched size (budget n_iter e) (map (@length _) part)) l parts ->
    Z.of_nat (length (concat (concat parts))) = fold_right (fun e t => budget n_iter e + t)%Z 0%Z l.
  Proof.
    intros Hn F. induction F as [|e part l parts H F IH]; [easy|]. cbn [concat fold_right]. rewrite concat_app, app_length, Nat2Z.inj_add.
    rewrite IH by (intros; apply Hn; now right). f_equal. apply batched_sum in H. rewrite Z.max_r in H by (apply Hn; now left).
    rewrite <- H. f_equal. clear. induction part as [|b part IH]; [easy|]. simpl. rewrite app_length. now f_equal.
  Qed.
  Lemma checked_budget (s : search N) : check_search_space (s_spaces s) = Ok tt -> (0 <= s_niter s)%Z ->
    forall e, In e (given_spaces (s_spaces s)) -> (0 <= budget (s_niter s) e)%Z.
  Proof.
    intros Hc Hn e He. destruct (s_spaces s) as [sp|l|k]; simpl in *; [destruct He as [<-|[]]; easy| |easy].
    destruct l as [|e0 l]; [easy|]. apply rmap_ok in Hc. destruct Hc as (u & Hm & _). apply mapM_ok in Hm.
    remember (e0 :: l) as l' eqn:E. clear E. induction Hm as [|e1 x l1 u E Hm IH]; [easy|]. destruct He as [->|He]; [|auto].
    destruct e; simpl in *; try easy. destruct (n <? 0)%Z eqn:En; [discriminate|lia].
  Qed.
  Lemma c38_total (s : search N) l cbs g os log rs : s_spaces s = SList l -> (0 <= s_niter s)%Z -> all_dicts l -> never_stops cbs ->
    search_fit O G W neg s scorer cbs g = Ok (os, log, rs) ->
    Z.of_nat (length (concat log)) = total_iterations s.
  Proof.
    intros El Hn Hd Hs H. pose proof H as H0. apply fit_facts in H; [|now rewrite El].
    destruct H as (parts & -> & _ & _ & Hb & _). specialize (Hb Hs). rewrite (@budget_sum (s_niter s) (s_npoints s) l).
    - unfold total_iterations. rewrite El. reflexivity.
    - intros e He. apply checked_budget; [|easy|now rewrite El].
      unfold search_fit in H0. apply bind_ok in H0. now destruct H0 as ([] & E & _).
    - rewrite El in Hb. exact Hb.
  Qed.
End SearchLemmas.

Section SearchProps.
  Context {N RNG M : Type} (O : numops N) (G : rng_ops N RNG) (W : world N M) (neg : N -> N).
  Lemma c38_batches s scorer cbs g os log rs : all_dicts (given_spaces (s_spaces s)) -> never_stops cbs ->
    search_fit O G W neg s scorer cbs g = Ok (os, log, rs) ->
    exists parts, log = concat parts /\
      Forall2 (fun e part => batched (s_npoints s) (budget (s_niter s) e) (map (@length _) part)) (given_spaces (s_spaces s)) parts.
  Proof. intros Hd Hn H. apply fit_facts in H; [|easy]. destruct H as (parts & E & _ & _ & Hb & _). eauto. Qed.
  Lemma c38_bounded s scorer cbs g os log rs : all_dicts (given_spaces (s_spaces s)) ->
    search_fit O G W neg s scorer cbs g = Ok (os, log, rs) ->
    exists parts, log = concat parts /\
      Forall2 (fun e part => Z.of_nat (length (concat part)) <= Z.max 0 (budget (s_niter s) e) /\
        Forall (fun b => 1 <= Z.of_nat (length b) <= s_npoints s) part)%Z (given_spaces (s_spaces s)) parts.
  Proof. intros Hd H. apply fit_facts in H; [|easy]. destruct H as (parts & E & _ & _ & _ & Hb). eauto. Qed.
  Lemma c39_rows s scorer cbs g os log rs : all_dicts (given_spaces (s_spaces s)) ->
    search_fit O G W neg s scorer cbs g = Ok (os, log, rs) ->
    accounted neg (given_spaces (s_spaces s)) os rs (concat log) /\
    forall k c v, nth_error (concat log) k = Some (c, v) -> scorer k c = Ok v.
  Proof. intros Hd H. apply fit_facts in H; [|easy]. destruct H as (parts & -> & Ha & Hs & _). split; [exact Ha|exact Hs]. Qed.
  Lemma c38_unbound s scorer cbs g e l g' os : given_spaces (s_spaces s) = e :: l -> check_search_space (s_spaces s) = Ok tt ->
    make_all O G W (s_kwargs s) (e :: l) g = (g', Ok os) ->
    (budget (s_niter s) e <= 0)%Z -> search_fit O G W neg s scorer cbs g = Raise UnboundLocalError.
  Proof.
    intros El Hc Hm Hb. unfold search_fit. rewrite Hc. cbn [bind].
    assert (elems (s_spaces s) = Ok (e :: l)) as -> by (destruct (s_spaces s); simpl in *; congruence). cbn [bind]. rewrite Hm.
    simpl in Hm. destruct (space_of e) as [sp|] eqn:Es; [|discriminate].
    destruct (search_optimizer O G W (s_kwargs s) sp g) as [g1 [o|]]; [|discriminate].
    destruct (make_all O G W (s_kwargs s) l g1) as [g2 [os'|]]; [|discriminate]. injection Hm as <- <-.
    cbn [combine search_spaces]. rewrite Es. cbn [bind]. change (iters_of (s_niter s) e) with (budget (s_niter s) e).
    assert (Hf : forall fuel st, search_loop O G W neg scorer cbs sp (s_npoints s) fuel (budget (s_niter s) e) st = Ok st).
    { intros [|fuel] st; cbn [search_loop]; (destruct (Z.leb_spec (budget (s_niter s) e) 0); [reflexivity|lia]). }
    rewrite Hf. reflexivity.
  Qed.
End SearchProps.
