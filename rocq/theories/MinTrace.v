(** What a minimisation has done when it ends in any way, or is cut short. *)
From Coq Require Import String List ZArith Bool Lia.
From Verif Require Import Base Num Values Transformers Dimension Space Optimizer BaseLemmas OptSpec OptLemmas OptLemmas2
  OptLemmas4 OptLemmas5 OptProps Minimize MinSpec MinLemmas MinProps.
Import ListNotations.
Open Scope list_scope.
Set Implicit Arguments.

Section MinTrace.
  Context {N RNG M : Type} (O : numops N) (G : rng_ops N RNG) (W : world N M).
  Notation state := (opt N RNG M).
  Notation result := (result N RNG M).
  Notation event := (event N RNG M).
  Notation callback := (callback N RNG M).

  (** Events of a run that has [e] observations and evaluates at most [b] points before its next tell, [n]
      callbacks being called after each tell. *)
  Inductive paced (n : nat) : nat -> nat -> list event -> Prop :=
  | pc_part e b ps : length ps <= b -> paced n e b (map EEval ps)
  | pc_calls e b ps r j : length ps <= b -> j <= n -> length (res_func_vals r) = e + length ps ->
      paced n e b (map EEval ps ++ calls_of j r)
  | pc_round e b ps r t : length ps <= b -> length (res_func_vals r) = e + length ps ->
      paced n (e + length ps) 1 t -> paced n e b (map EEval ps ++ calls_of n r ++ t).

  Lemma prefix_app {A} (p q a b : list A) : p ++ q = a ++ b ->
    (exists a', a = p ++ a') \/ (exists b', p = a ++ b' /\ b = b' ++ q).
  Proof.
    intros H. apply app_eq_app in H. destruct H as (l & [[-> ->]|[-> ->]]); [right|left]; eauto.
  Qed.
  Lemma prefix_map {A B} (f : A -> B) l : forall p q, p ++ q = map f l -> exists l', p = map f l' /\ length l' <= length l.
  Proof.
    intros p q H. symmetry in H. apply map_eq_app in H. destruct H as (a & b & -> & <- & <-). exists a. rewrite app_length. split; [easy|lia].
  Qed.
  Lemma prefix_calls (r : result) k p q : p ++ q = calls_of k r -> exists j, j <= k /\ p = calls_of j r.
  Proof.
    intros H. exists (length p). assert (Hl : length p <= k).
    { apply (f_equal (@length _)) in H. unfold calls_of in H. rewrite app_length, map_length, seq_length in H. lia. }
    split; [exact Hl|]. unfold calls_of in *. replace k with (length p + (k - length p)) in H by lia.
    rewrite seq_app, map_app in H. apply (f_equal (firstn (length p))) in H.
    rewrite firstn_app, firstn_all, Nat.sub_diag, firstn_O, app_nil_r in H. rewrite H at 1.
    rewrite firstn_app, map_length, seq_length, Nat.sub_diag, firstn_O, app_nil_r.
    apply firstn_all2. rewrite map_length, seq_length. lia.
  Qed.
  Lemma prefix_head (n e b : nat) (ps : list (point N)) p q : length ps <= b -> p ++ q = map EEval ps -> paced n e b p.
  Proof. intros Hb H. apply prefix_map in H. destruct H as (l & -> & Hl). constructor. lia. Qed.
  Lemma paced_prefix n e b t : paced n e b t -> forall p q, p ++ q = t -> paced n e b p.
  Proof.
    induction 1 as [e b ps Hb|e b ps r j Hb Hj Hr|e b ps r t Hb Hr Ht IH]; intros p q E.
    - eapply prefix_head; eauto.
    - apply prefix_app in E. destruct E as [[a E]|(b' & -> & E)].
      + symmetry in E. eapply prefix_head; eauto.
      + symmetry in E. apply prefix_calls in E. destruct E as (k & Hk & ->). constructor; auto. lia.
    - apply prefix_app in E. destruct E as [[a E]|(b' & -> & E)].
      + symmetry in E. eapply prefix_head; eauto.
      + symmetry in E. apply prefix_app in E. destruct E as [[a E]|(b'' & -> & E)].
        * symmetry in E. apply prefix_calls in E. destruct E as (k & Hk & ->). now constructor.
        * apply pc_round; auto. eapply IH. symmetry. exact E.
  Qed.

  (** Every run is paced, whatever its outcome. *)
  Lemma callbacks_any (cbs : list callback) : forall i seen r stop (o : state) t s' res,
    eval_callbacks cbs i seen r stop (o, t) = (s', res) ->
    exists j, j <= length cbs /\ s' = (o, t ++ map (fun k => ECall k r) (seq i j)) /\ (is_ok res = true -> j = length cbs).
  Proof.
    induction cbs as [|c cbs IH]; intros i seen r stop o t s' res.
    - intros H. injection H as <- <-. exists 0. cbn. now rewrite app_nil_r.
    - cbn [eval_callbacks]. unfold emit at 1. unfold mthen at 1. cbn [fst snd].
      unfold mthen, mlift. destruct (c (seen ++ [r])) as [d|e].
      + intros H. apply IH in H. destruct H as (j & Hj & -> & Hok). exists (S j). cbn [length seq map]. rewrite <- app_assoc.
        split; [lia|]. split; [easy|]. intros K. now rewrite Hok.
      + intros H. injection H as <- <-. exists 1. cbn. split; [lia|]. split; [easy|discriminate].
  Qed.
  Lemma tell_length x y (o o' : state) r : tell O G W x y true o = (o', Ok r) -> length (res_func_vals r) = length (o_yi o').
  Proof. intros H. apply tell_get, get_result_spec in H. destruct H as (_ & _ & -> & _). apply map_length. Qed.

  Lemma loop_any f cbs n : forall k seen last (o : state) t s' res,
    min_loop O G W f cbs k n seen last (o, t) = (s', res) ->
    exists t', snd s' = t ++ t' /\ paced (length cbs) (length (o_yi o)) 1 t'.
  Proof.
    induction n as [|n IH]; intros k seen last o t s' res.
    - intros H. injection H as <- <-. exists []. cbn. rewrite app_nil_r. split; [easy|]. apply (@pc_part _ _ _ []). cbn. lia.
    - cbn [min_loop]. unfold mthen at 1. unfold onopt at 1. cbn [fst snd].
      destruct (ask1 O G o) as [o1 [p|e]] eqn:Ea.
      2:{ intros H. injection H as <- <-. exists []. cbn. rewrite app_nil_r. split; [easy|]. apply (@pc_part _ _ _ []). cbn. lia. }
      assert (Ha : ask O G W NPNone "cl_min" o = (o1, Ok (A1pt p))) by (rewrite ask_none, Ea; reflexivity).
      unfold mthen at 1. cbn [emit fst snd].
      assert (P1 : paced (length cbs) (length (o_yi o)) 1 [EEval p]) by (apply (@pc_part _ _ _ [p]); cbn; lia).
      unfold mthen at 1, mlift at 1. destruct (f k p) as [y|e].
      2:{ intros H. injection H as <- <-. exists [EEval p]. auto. }
      unfold mthen at 1, onopt at 1. cbn [fst snd]. destruct (tell O G W (X1 p) y true o1) as [o2 [r|e]] eqn:Et.
      2:{ intros H. injection H as <- <-. exists [EEval p]. auto. }
      destruct (step_grows O G W _ _ Ha Et) as (v & _ & _ & E2 & _).
      assert (Hr : length (res_func_vals r) = length (o_yi o) + length [p]).
      { rewrite (tell_length _ _ _ Et), E2, app_length. reflexivity. }
      unfold mthen. destruct (eval_callbacks cbs 0 seen r false (o2, t ++ [EEval p])) as [s3 [stop|e]] eqn:Ec;
        apply callbacks_any in Ec; destruct Ec as (j & Hj & -> & Hok).
      2:{ intros H. injection H as <- <-. exists (map EEval [p] ++ calls_of j r). cbn [snd]. rewrite <- app_assoc. split; [easy|].
          constructor; auto. }
      rewrite (Hok eq_refl) in *. destruct stop.
      + intros H. injection H as <- <-. exists (map EEval [p] ++ calls_of (length cbs) r). cbn [snd]. rewrite <- app_assoc. split; [easy|].
        now constructor.
      + intros H. apply IH in H. destruct H as (t' & -> & Ht').
        exists (map EEval [p] ++ calls_of (length cbs) r ++ t'). rewrite <- !app_assoc. split; [easy|].
        apply pc_round; auto. replace (length (o_yi o) + length [p]) with (length (o_yi o2)) by (rewrite E2, app_length; reflexivity).
        exact Ht'.
  Qed.
  Lemma points_any f : forall xs k (o : state) t s' res, eval_points f k xs (o, t) = (s', res) ->
    exists ps, length ps <= length xs /\ s' = (o, t ++ map EEval ps) /\
      match res with Ok ys => ps = xs /\ length ys = length xs | Raise _ => True end.
  Proof.
    induction xs as [|x xs IH]; intros k o t s' res.
    - intros H. injection H as <- <-. exists []. cbn. now rewrite app_nil_r.
    - cbn [eval_points]. unfold mthen at 1. cbn [emit fst snd]. unfold mthen at 1, mlift. destruct (f k x) as [y|e].
      2:{ intros H. injection H as <- <-. exists [x]. cbn. split; [lia|easy]. }
      unfold mthen. destruct (eval_points f (S k) xs (o, t ++ [EEval x])) as [s1 [ys|e]] eqn:E; apply IH in E;
        destruct E as (ps & Hl & -> & Hr); intros H; injection H as <- <-; exists (x :: ps); cbn [length map]; rewrite <- app_assoc.
      + destruct Hr as [-> Hr]. split; [lia|]. split; [easy|]. cbn. now rewrite Hr.
      + split; [lia|easy].
  Qed.
  Definition extra_of (y0 : y0arg N) (x0 : list (point N)) : nat :=
    match values_of y0 with Some _ => length x0 | None => 0 end.
  Lemma body_any f cbs n_calls x0 y0 (o : state) o' t res : o_yi o = [] ->
    min_body O G W f cbs n_calls x0 (y0_list y0) (o, []) = ((o', t), res) ->
    paced (length cbs) (extra_of y0 x0) (Nat.max 1 (length x0)) t.
  Proof.
    intros Ho. unfold min_body. destruct x0 as [|p x0].
    - intros H. apply loop_any in H. destruct H as (t' & E & H). cbn [snd app] in E. subst t. rewrite Ho in H. cbn [length] in H.
      unfold extra_of. destruct (values_of y0); exact H.
    - assert (Hnil : forall e b, paced (length cbs) e b []) by (intros e b; apply (@pc_part _ _ _ []); cbn; lia).
      set (xs := p :: x0). set (first := Nat.max 1 (length xs)). set (rest := fun y0k : list (yarg N) * nat => _).
      assert (R : forall te ys k, length te <= first -> (length ys = length xs -> length xs = extra_of y0 xs + length te) ->
                    rest (ys, k) (o, map EEval te) = (o', t, res) -> paced (length cbs) (extra_of y0 xs) first t).
      { intros te ys k Hte He. unfold rest. cbn beta iota zeta.
        destruct (negb (Nat.eqb (length xs) (length ys))) eqn:En.
        { intros H. injection H as _ <- _. now constructor. }
        apply negb_false_iff, Nat.eqb_eq in En.
        unfold mthen at 1, onopt. cbn [fst snd]. destruct (tell O G W (X2 xs) (YLst ys) true o) as [o1 [r|e]] eqn:Et.
        2:{ intros H. injection H as _ <- _. now constructor. }
        destruct (told_points O G W _ _ _ (eq_sym En) Et) as (vs & _ & _ & E2 & _ & E4 & _). rewrite Ho in E2. cbn [app] in E2.
        assert (Hr : length (res_func_vals r) = extra_of y0 xs + length te).
        { rewrite (tell_length _ _ _ Et), E2, E4. apply He. congruence. }
        unfold mthen. destruct (eval_callbacks cbs 0 [] r false (o1, map EEval te)) as [s3 [stop|e]] eqn:Ec;
          apply callbacks_any in Ec; destruct Ec as (j & Hj & -> & Hok).
        2:{ intros H. injection H as _ <- _. now constructor. }
        rewrite (Hok eq_refl) in *. destruct stop.
        + intros H. injection H as _ <- _. now constructor.
        + intros H. apply loop_any in H. destruct H as (t' & E & Ht'). cbn [snd] in E. subst t. rewrite <- app_assoc.
          apply pc_round; auto. rewrite <- Hr, (tell_length _ _ _ Et). exact Ht'. }
      unfold mthen at 1. destruct y0 as [|x|l|]; cbn [y0_list].
      + unfold mthen at 1. destruct (eval_points f 0 xs (o, [])) as [s1 [ys|e]] eqn:Ee; apply points_any in Ee;
          destruct Ee as (ps & Hl & -> & Hr).
        * destruct Hr as [-> Hr]. cbn [mret]. apply R; [unfold first; lia|]. intros _. reflexivity.
        * intros H. injection H as _ <- _. constructor. unfold first. lia.
      + cbn [mret]. apply (R [] [YNum x] 0); [cbn; lia|]. intros _. unfold extra_of. cbn [values_of length]. lia.
      + cbn [mret]. apply (R [] l 0); [cbn; lia|]. intros _. unfold extra_of. cbn [values_of length]. lia.
      + intros H. injection H as _ <- _. apply Hnil.
  Qed.

  Lemma given_same (x : x0arg N) a b : given x a -> given x b -> a = b.
  Proof.
    assert (I1 : forall l m : list (pyval N), map IVal l = map IVal m -> l = m).
    { induction l as [|v l IH]; intros [|w m] H; try discriminate; [easy|]. injection H as -> H. f_equal. auto. }
    assert (I2 : forall l m : list (point N), map IPt l = map IPt m -> l = m).
    { induction l as [|v l IH]; intros [|w m] H; try discriminate; [easy|]. injection H as -> H. f_equal. auto. }
    intros Ha Hb. destruct Ha as [|k vs Hv|ps Hp].
    - now inversion Hb.
    - remember (X0Seq k (map IVal vs)) as y eqn:E. destruct Hb as [|k' vs' Hv'|ps' Hp']; [discriminate| |].
      + injection E as _ E. f_equal. symmetry. auto.
      + injection E as _ E. destruct ps', vs; try discriminate; easy.
    - remember (X0Seq true (map IPt ps)) as y eqn:E. destruct Hb as [|k' vs' Hv'|ps' Hp']; [discriminate| |].
      + injection E as _ E. destruct vs', ps; try discriminate; easy.
      + injection E as E. symmetry. auto.
  Qed.
  Lemma base_any f a g t o' res x0 : base_minimize O G W f a g = (t, o', res) -> given (m_x0 a) x0 ->
    paced (length (callbacks_of a)) (extra_of (m_y0 a) x0) (Nat.max 1 (length x0)) t.
  Proof.
    intros H Hg.
    assert (Hnil : forall n e b, paced n e b []) by (intros n e b; apply (@pc_part _ _ _ []); cbn; lia).
    revert H. unfold base_minimize. destruct (x0_items (m_x0 a)) as [items|] eqn:Ex; [|intros H; injection H as <- _ _; auto].
    destruct (_ && _); [intros H; injection H as <- _ _; auto|]. destruct (_ <? _)%Z; [intros H; injection H as <- _ _; auto|].
    destruct (make_optimizer _ _ _ _ _) as [g' [o0|]] eqn:Em; [|intros H; injection H as <- _ _; auto].
    destruct (mapM as_point items) as [x1|] eqn:Ep; [|intros H; injection H as <- _ _; auto].
    destruct (negb _); [intros H; injection H as <- _ _; auto|].
    assert (Ecb : forall cbs, check_callback (m_callback a) = Ok cbs ->
              (if m_verbose a then cbs ++ [verbose_callback] else cbs) = callbacks_of a).
    { unfold callbacks_of, check_callback. destruct (m_callback a); intros cbs H; try discriminate; injection H as <-;
        destruct (m_verbose a); cbn; rewrite ?app_nil_r; auto. }
    destruct (check_callback (m_callback a)) as [cbs|]; [|intros H; injection H as <- _ _; auto]. rewrite (Ecb _ eq_refl).
    destruct (min_body _ _ _ _ _ _ _ _ _) as [[o1 t1] r1] eqn:Eb. intros H. injection H as -> _ _.
    rewrite <- (given_same (items_given _ Ex Ep) Hg). apply body_any in Eb; [exact Eb|]. now apply make_empty in Em.
  Qed.
  Lemma minimize_any m f a g t o' res x0 : minimize O G W m f a g = (t, o', res) -> given (m_x0 a) x0 ->
    paced (length (callbacks_of a)) (extra_of (m_y0 a) x0) (Nat.max 1 (length x0)) t.
  Proof.
    intros H Hg.
    assert (Hnil : forall n e b, paced n e b []) by (intros n e b; apply (@pc_part _ _ _ []); cbn; lia).
    destruct m; cbn [minimize] in H.
    - eapply base_any; eauto.
    - unfold dummy_minimize in H. destruct (match m_x0 a with X0None => _ | _ => _ end); [|injection H as <- _ _; auto].
      eapply base_any in H; eauto.
    - eapply base_any in H; eauto.
    - eapply base_any in H; eauto.
    - unfold gp_minimize in H. destruct (set_kinds_all _ _); [|injection H as <- _ _; auto]. eapply base_any in H; eauto.
  Qed.
End MinTrace.
