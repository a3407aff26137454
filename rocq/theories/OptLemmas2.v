(** Histories: what sequences of calls record (C13-C15, C18, C19, C21, C24). *)
From Coq Require Import String List ZArith Bool Lia.
From Verif Require Import Base Num Values Transformers Dimension Space Optimizer NumLaws BaseLemmas
  SpaceSpec MetricLemmas OptSpec OptLemmas.
Import ListNotations.
Open Scope list_scope.
Set Implicit Arguments.

Section OptHistory.
  Context {N RNG M : Type} (O : numops N) (G : rng_ops N RNG) (W : world N M).
  Notation state := (opt N RNG M).
  Notation do_call := (do_call O G W).
  Notation exec := (exec O G W).

  Definition hist_x (L : list (point N * yval N)) : list (xarg N) := map (fun a => X1 (fst a)) L.
  Definition hist_y (L : list (point N * yval N)) : list (yval N) := map snd L.

  Lemma hist_combine (pts : list (point N)) (vs : list (yval N)) : length pts = length vs ->
    hist_x (combine pts vs) = map (@X1 N) pts /\ hist_y (combine pts vs) = vs.
  Proof.
    revert vs. induction pts as [|p pts IH]; intros [|v vs] H; simpl in *; try lia; [easy|].
    destruct (IH vs ltac:(lia)) as [H1 H2]. now rewrite H1, H2.
  Qed.

  (** What a call whose arguments are accepted records, also when fitting fails later. *)
  Lemma tell_logs x y fit (o : state) :
    matched (CTell x y fit) ->
    (exists e, tell O G W x y fit o = (o, Raise e)) \/
    exists L, told O (ps_of o) x y L /\
      grown o (hist_x L) (hist_y L) (fst (tell O G W x y fit o)).
  Proof.
    intros Hm. destruct (tell_cases O G W x y fit o) as [Hf|(y' & xs & ys & _ & _ & Ec & Hr & E)]; [now left|].
    right. rewrite E. destruct (tell_grows O G W fit o Hr) as [Hg _].
    destruct x as [p|pts].
    - simpl in *. apply bind_ok in Ec. destruct Ec as (v & Ev & E'). injection E' as <-.
      inversion Hr; subst. exists [(p, v)]. split; [|exact Hg]. constructor. now apply convert_one.
    - destruct Hm as (l & -> & Hl). simpl in *. apply bind_ok in Ec. destruct Ec as (vs & Ev & E').
      injection E' as <-. inversion Hr; subst.
      assert (F : Forall2 (observation O (ps_of o)) l ys).
      { destruct (ps_of o); [now apply mapM_log_pair|now apply mapM_scalar]. }
      exists (combine pts ys). pose proof (Forall2_len F) as Hl'.
      destruct (hist_combine pts ys) as [H1 H2]; [congruence|]. rewrite H1, H2. split; [|exact Hg].
      now constructor.
  Qed.

  Lemma grown_nil (o : state) : grown o [] [] o.
  Proof. unfold grown. rewrite !app_nil_r. simpl. repeat split. lia. Qed.
  Lemma grown_trans (a b c : state) xs ys xs' ys' :
    grown a xs ys b -> grown b xs' ys' c -> grown a (xs ++ xs') (ys ++ ys') c.
  Proof.
    unfold grown. intros (A1 & A2 & A3 & A4 & A5) (B1 & B2 & B3 & B4 & B5).
    rewrite B1, B2, B3, B4, B5, A1, A2, A3, A4, A5, !app_assoc, app_length. repeat split. lia.
  Qed.
  Lemma grown_rng (o : state) g : grown o [] [] (set_rng g o).
  Proof. unfold grown. rewrite !app_nil_r. simpl. repeat split. lia. Qed.
  Lemma grown_app (a b c : state) L L' : grown a (hist_x L) (hist_y L) b -> grown b (hist_x L') (hist_y L') c ->
    grown a (hist_x (L ++ L')) (hist_y (L ++ L')) c.
  Proof. intros H K. unfold hist_x, hist_y. rewrite !map_app. eapply grown_trans; eauto. Qed.

  Lemma run_loop_S f k n o :
    run_loop O G W f k (S n) o =
    match ask1 O G o with
    | (o1, Raise e) => (o1, Raise e)
    | (o1, Ok p) =>
      match f k p with
      | Raise e => (o1, Raise e)
      | Ok y =>
        match tell O G W (X1 p) y true o1 with
        | (o2, Raise e) => (o2, Raise e)
        | (o2, Ok _) => run_loop O G W f (S k) n o2
        end
      end
    end.
  Proof.
    cbn [run_loop]. unfold andthen at 1. destruct (ask1 O G o) as [o1 [p|]]; [|reflexivity].
    unfold andthen at 1, lift. destruct (f k p) as [y|]; [|reflexivity].
    unfold andthen. destruct (tell O G W (X1 p) y true o1) as [o2 [r|]]; reflexivity.
  Qed.

  (** The history [run] leaves, complete when it succeeds. *)
  Lemma run_logs f n : forall k o,
    exists L, evaluated O (ps_of o) f k L /\ length L <= n /\
      grown o (hist_x L) (hist_y L) (fst (run_loop O G W f k n o)) /\
      (is_ok (snd (run_loop O G W f k n o)) = true -> length L = n).
  Proof.
    induction n as [|n IH]; intros k o.
    - exists []. split; [constructor|]. split; [easy|]. split; [apply grown_nil|easy].
    - assert (Hno : forall o1 e, grown o [] [] o1 ->
        exists L, evaluated O (ps_of o) f k L /\ length L <= S n /\
        grown o (hist_x L) (hist_y L) (fst (o1, Raise (A:=unit) e)) /\
        (is_ok (snd (o1, Raise (A:=unit) e)) = true -> length L = S n)).
      { intros o1 e Hg. exists []. split; [constructor|]. split; [simpl; lia|]. split; [exact Hg|discriminate]. }
      rewrite run_loop_S. destruct (ask1_frame O G o) as [g Hg].
      destruct (ask1 O G o) as [o1 [p|e]]; simpl in Hg; subst o1; [|apply Hno, grown_rng].
      destruct (f k p) as [y|e] eqn:Ef; [|apply Hno, grown_rng].
      destruct (tell_logs (X1 p) y true (set_rng g o) I) as [[e E]|(L & Ht & HL)].
      + rewrite E. apply Hno, grown_rng.
      + inversion Ht; subst. destruct (tell O G W (X1 p) y true (set_rng g o)) as [o2 [r|e]]; simpl in HL.
        * destruct (IH (S k) o2) as (L & HL1 & HL2 & HL3 & HL4). exists ((p, v) :: L).
          assert (Hc : ps_of o2 = ps_of o) by (unfold ps_of; destruct HL as [-> _]; reflexivity).
          rewrite Hc in HL1. split; [econstructor; eassumption|]. split; [simpl; lia|].
          split; [|intros Hok; simpl; rewrite HL4; auto].
          apply (@grown_app o o2 _ [(p, v)] L); [|exact HL3].
          exact (grown_trans (grown_rng o g) HL).
        * exists [(p, v)]. split; [econstructor; eauto; constructor|]. split; [simpl; lia|].
          split; [exact (grown_trans (grown_rng o g) HL)|discriminate].
  Qed.

  (** Any call, failing or not. *)
  Lemma call_logs c o : matched c ->
    exists L, grown o (hist_x L) (hist_y L) (fst (do_call c o)) /\
      (is_ok (snd (do_call c o)) = true -> logs O (ps_of o) c L).
  Proof.
    intros Hm. destruct c as [n s|x y fit|f n| |].
    - exists []. simpl. split; [|constructor].
      assert (H : exists g c, fst (ask O G W n s o) = set_cache c (set_rng g o)).
      { destruct n as [|z|]; simpl.
        - unfold andthen. destruct (ask1_frame O G o) as [g Hg].
          destruct (ask1 O G o) as [o1 [p|]]; simpl in *; subst; exists g, (o_cache o); now destruct o.
        - unfold andthen. destruct (ask_n_frame O G W z s o) as (g & c & H).
          destruct (ask_n O G W z s o) as [o1 [p|]]; simpl in *; eauto.
        - exists (o_rng o), (o_cache o). now destruct o. }
      destruct H as (g & c & H). destruct (ask O G W n s o) as [o1 r]. simpl in *. subst.
      unfold grown. rewrite !app_nil_r. simpl. repeat split. lia.
    - destruct (tell_logs x y fit o Hm) as [[e E]|(L & Ht & HL)].
      + simpl. rewrite E. exists []. simpl. split; [apply grown_nil|discriminate].
      + exists L. simpl. destruct (tell O G W x y fit o) as [o1 r]. simpl in *. split; [exact HL|].
        intros _. now constructor.
    - destruct (run_logs f n 0 o) as (L & H1 & H2 & H3 & H4). exists L. simpl. unfold run, andthen.
      destruct (run_loop O G W f 0 n o) as [o1 [u|e]]; simpl in *.
      + split; [exact H3|]. intros _. rewrite <- (H4 eq_refl). now constructor.
      + split; [exact H3|discriminate].
    - exists []. simpl. split; [apply grown_nil|]. constructor.
    - exists []. simpl. destruct (update_next_frame O G W o) as (g & nx & H).
      destruct (update_next O G W o) as [o1 r]. simpl in *. subst.
      split; [|constructor]. unfold grown. rewrite !app_nil_r. simpl. repeat split. lia.
  Qed.

  (** Without [matched]: values only ever get appended. *)
  Lemma call_grows c o : exists xs ys, grown o xs ys (fst (do_call c o)).
  Proof.
    assert (Hm : matched c -> exists xs ys, grown o xs ys (fst (do_call c o))).
    { intros H. destruct (call_logs c o H) as (L & HL & _). eauto. }
    destruct c as [n s|x y fit|f n| |]; try exact (Hm I). clear Hm.
    destruct (tell_cases O G W x y fit o) as [[e E]|(y' & xs & ys & _ & _ & Ec & Hr & E)].
    - simpl. rewrite E. exists [], []. apply grown_nil.
    - simpl. destruct (tell_grows O G W fit o Hr) as [Hg _]. rewrite <- E in Hg.
      destruct (tell O G W x y fit o). eauto.
  Qed.
  Lemma exec_cons c cs o : exec (c :: cs) o =
    (fst (exec cs (fst (do_call c o))), snd (do_call c o) :: snd (exec cs (fst (do_call c o)))).
  Proof. cbn [OptSpec.exec]. destruct (do_call c o) as [o1 r]. simpl. now destruct (exec cs o1). Qed.
  Lemma exec_grows cs : forall o, exists xs ys, grown o xs ys (fst (exec cs o)).
  Proof.
    induction cs as [|c cs IH]; intros o; [exists [], []; apply grown_nil|].
    rewrite exec_cons. simpl. destruct (call_grows c o) as (xs & ys & H).
    destruct (IH (fst (do_call c o))) as (xs' & ys' & H'). eexists _, _. eapply grown_trans; eauto.
  Qed.

  (** C13 *)
  Lemma exec_history cs : forall o o' outs,
    exec cs o = (o', outs) -> Forall (fun r => is_ok r = true) outs -> Forall matched cs ->
    exists Ls, Forall2 (logs O (ps_of o)) cs Ls /\
      o_Xi o' = o_Xi o ++ map (fun a => X1 (fst a)) (concat Ls) /\
      o_yi o' = o_yi o ++ map snd (concat Ls).
  Proof.
    induction cs as [|c cs IH]; intros o o' outs H Hok Hm.
    - injection H as <- <-. exists []. simpl. rewrite !app_nil_r. auto.
    - rewrite exec_cons in H. injection H as <- <-. inversion Hok; inversion Hm; subst.
      destruct (call_logs c o) as (L & Hg & HL); [easy|].
      destruct (exec cs (fst (do_call c o))) as [o2 rs] eqn:E.
      destruct (IH _ _ _ E) as (Ls & F & HX & HY); [easy|easy|].
      destruct Hg as (Hc & Hl & Hi & HX' & HY').
      exists (L :: Ls). simpl. rewrite !map_app, HX, HY, HX', HY', <- !app_assoc. repeat split.
      constructor; [now apply HL|].
      replace (ps_of o) with (ps_of (fst (do_call c o))); [exact F|]. unfold ps_of. now rewrite Hc.
  Qed.

  Definition aligned (o : state) : Prop := length (o_Xi o) = length (o_yi o).
  Lemma exec_aligned cs : forall o, aligned o -> Forall matched cs -> aligned (fst (exec cs o)).
  Proof.
    induction cs as [|c cs IH]; intros o Ha Hm; [easy|]. rewrite exec_cons. simpl. inversion Hm; subst.
    apply IH; [|easy]. destruct (call_logs c o) as (L & (_ & _ & _ & HX & HY) & _); [easy|].
    unfold aligned in *. rewrite HX, HY, !app_length. unfold hist_x, hist_y. rewrite !map_length. lia.
  Qed.

  Lemma get_result_spec (o o' : state) r : get_result O o = (o', Ok r) ->
    o' = o /\ res_x_iters r = o_Xi o /\ res_func_vals r = map y_obj (o_yi o) /\ res_models r = o_models o /\
    res_space r = c_dims (o_cfg o).
  Proof.
    unfold get_result, create_result. intros H. injection H as <- H.
    destruct (np_argmin _ _) as [i|]; [|discriminate].
    destruct (nth_error (o_Xi o) i); [|discriminate].
    destruct (nth_error _ i); [|discriminate]. injection H as <-. now repeat split.
  Qed.
  Lemma tell_get x y fit (o o' : state) r : tell O G W x y fit o = (o', Ok r) -> get_result O o' = (o', Ok r).
  Proof.
    intros H. destruct (tell_cases O G W x y fit o) as [[e E]|(y' & xs & ys & _ & _ & Ec & Hr & E)].
    - rewrite E in H. discriminate.
    - rewrite E in H. eapply tell_result; eauto.
  Qed.
  (** Every result is a result of the state it leaves. *)
  Lemma call_result c o o' r : do_call c o = (o', Ok (RResult r)) -> get_result O o' = (o', Ok r).
  Proof.
    destruct c as [n s|x y fit|f n| |]; simpl.
    - destruct (ask O G W n s o) as [o1 [a|]]; simpl; discriminate.
    - destruct (tell O G W x y fit o) as [o1 [a|]] eqn:E; simpl; [|discriminate].
      intros H. injection H as <- <-. eapply tell_get; eauto.
    - unfold run. destruct (andthen _ _ o) as [o1 [a|]] eqn:E; simpl; [|discriminate].
      intros H. injection H as <- <-. apply andthen_ok in E. destruct E as (o2 & u & _ & E).
      pose proof (get_result_spec E) as [-> _]. exact E.
    - intros H. injection H as <- H. destruct (create_result _ _ _ _ _ _) eqn:E; [|discriminate].
      injection H as <-. unfold get_result. now rewrite E.
    - destruct (update_next O G W o) as [o1 [a|]]; simpl; discriminate.
  Qed.
  Lemma result_history c o o' r : do_call c o = (o', Ok (RResult r)) ->
    res_x_iters r = o_Xi o' /\ res_func_vals r = map y_obj (o_yi o').
  Proof. intros H. apply call_result, get_result_spec in H. tauto. Qed.

  (** C18 *)
  Lemma ask_none s o : ask O G W NPNone s o =
    match ask1 O G o with (o1, Ok p) => (o1, Ok (A1pt p)) | (o1, Raise e) => (o1, Raise e) end.
  Proof. simpl. unfold andthen. destruct (ask1 O G o) as [o1 [p|]]; reflexivity. Qed.
  Lemma ask_frame n s (o : state) : exists g c, fst (ask O G W n s o) = set_cache c (set_rng g o).
  Proof.
    destruct n as [|z|]; simpl.
    - unfold andthen. destruct (ask1_frame O G o) as [g Hg].
      destruct (ask1 O G o) as [o1 [p|]]; simpl in *; subst; exists g, (o_cache o); now destruct o.
    - unfold andthen. destruct (ask_n_frame O G W z s o) as (g & c & H).
      destruct (ask_n O G W z s o) as [o1 [p|]]; simpl in *; eauto.
    - exists (o_rng o), (o_cache o). now destruct o.
  Qed.
  Lemma ask_model_stable s o : model_phase o ->
    fst (ask O G W NPNone s o) = o.
  Proof.
    intros H. rewrite ask_none. pose proof (ask1_model O G H) as E.
    destruct (ask1 O G o) as [o1 [p|]]; simpl in *; easy.
  Qed.

  (** C19 *)
  Lemma ask_n_length n s o o' X : ask_n O G W n s o = (o', Ok X) ->
    (forall k v, In (k, v) (o_cache o) -> length v = Z.to_nat (fst k)) -> length X = Z.to_nat n.
  Proof.
    intros H Hc. apply ask_n_ok in H. destruct H as (Hn & l & _ & [[Hd _]|(_ & _ & g0 & g1 & cp & cp' & _ & HL)]).
    - apply dict_get_in in Hd. destruct Hd as (k & Hi & Hk). apply key_eqb_eq in Hk. subst k.
      exact (Hc _ _ Hi).
    - eapply lie_loop_length; eauto.
  Qed.
  Lemma ask_n_cached n s o o' X : ask_n O G W n s o = (o', Ok X) ->
    dict_get key_eqb (o_cache o') (n, s) = Some X.
  Proof.
    intros H. apply ask_n_ok in H. destruct H as (_ & l & _ & [[Hd ->]|(_ & Hc & _)]); [easy|].
    rewrite Hc. simpl. now rewrite key_eqb_refl.
  Qed.
  Lemma ask_n_again n s o X : (0 < n)%Z -> liar_of s <> None -> dict_get key_eqb (o_cache o) (n, s) = Some X ->
    ask_n O G W n s o = (o, Ok X).
  Proof.
    intros Hn Hs Hd. unfold ask_n. replace (n <=? 0)%Z with false by (symmetry; apply Z.leb_gt; lia).
    destruct (liar_of s); [|easy]. unfold andthen, get. simpl. now rewrite Hd.
  Qed.
  (** Calls that leave the remembered batch alone. *)
  Definition quiet (c : call N) : Prop := match c with CAsk NPNone _ | CResult => True | _ => False end.
  Lemma quiet_cache cs : forall o, Forall quiet cs -> o_cache (fst (exec cs o)) = o_cache o.
  Proof.
    induction cs as [|c cs IH]; intros o H; [easy|]. rewrite exec_cons. simpl. inversion H; subst.
    rewrite IH by easy. destruct c as [[| |] s| | | |]; try easy. cbn [OptSpec.do_call].
    rewrite ask_none. destruct (ask1_frame O G o) as [g Hg]. destruct (ask1 O G o) as [o1 [p|]]; simpl in *; now subst.
  Qed.

  (** C21 *)
  Lemma valid_y_of ps x y y' : check_y ps x y = Ok tt -> convert_y O ps x y = Ok y' ->
    valid_y O ps x y \/ (ps = false /\ batch_scalar x y).
  Proof.
    intros Hc Hv.
    assert (One : forall y v, (if ps then log_pair O y else scalar y) = Ok v -> valid_y1 O ps y).
    { intros y0 v. unfold valid_y1. destruct ps; simpl.
      - unfold log_pair. destruct y0 as [|[|a [|b [|]]]|]; try discriminate.
        destruct b; try discriminate. unfold math_log. destruct (nleb O x0 (nofZ O 0)) eqn:El; try discriminate.
        simpl. destruct a; try discriminate. intros _. now exists x1, x0.
      - destruct y0; try discriminate. eauto. }
    destruct x as [p|pts].
    - left. simpl in *. apply bind_ok in Hv. destruct Hv as (v & Hv & _). eauto.
    - destruct y as [v|l|].
      + destruct ps; [discriminate|]. right. split; [easy|]. now exists pts, v.
      + left. simpl in Hv. apply bind_ok in Hv. destruct Hv as (vs & Hv & _). exists l. split; [easy|].
        split.
        * apply mapM_ok in Hv. clear Hc. induction Hv as [|y0 v l vs Hy Hv IH]; constructor; [|easy].
          destruct ps; eauto.
        * intros ->. destruct l; [|easy]. discriminate.
      + simpl in *. destruct ps; simpl in *; discriminate.
  Qed.
  Lemma tell_invalid x y fit o : ~ batch_scalar x y ->
    ~ (valid_x O (c_dims (o_cfg o)) x /\ valid_y O (ps_of o) x y) ->
    exists e, tell O G W x y fit o = (o, Raise e).
  Proof.
    intros Hb Hn. destruct (tell_cases O G W x y fit o) as [H|(y' & xs & ys & Hx & Hc & Hv & _)]; [easy|].
    destruct (valid_y_of _ _ _ Hc Hv) as [H|[_ H]]; tauto.
  Qed.
  (** Conversely, valid arguments are recorded. *)
  Lemma valid_recorded x y fit o : valid_x O (c_dims (o_cfg o)) x -> valid_y O (ps_of o) x y ->
    exists y' xs ys, recorded (targ_of x) y' xs ys /\ tell O G W x y fit o = tell_ O G W (targ_of x) y' fit o.
  Proof.
    intros Hx Hy.
    assert (Ex : check_x_in_space O x (c_dims (o_cfg o)) = Ok tt).
    { destruct x; [now apply check_point_ok|now apply check_batch_ok]. }
    assert (One : forall ps y, valid_y1 O ps y -> exists v, (if ps then log_pair O y else scalar y) = Ok v).
    { intros ps y0. unfold valid_y1. destruct ps.
      - intros (v & t & -> & Ht). simpl. unfold math_log. rewrite Ht. simpl. eauto.
      - intros (v & ->). simpl. eauto. }
    assert (Pair : forall y, valid_y1 O true y -> is_pair y = true).
    { intros y0 (v & t & -> & _). reflexivity. }
    assert (Num : forall y, valid_y1 O false y -> is_num y = true).
    { intros y0 (v & ->). reflexivity. }
    assert (Ey : check_y (ps_of o) x y = Ok tt).
    { destruct x as [p|pts]; simpl in Hy.
      - destruct (ps_of o); simpl; [now rewrite Pair|now rewrite Num].
      - destruct Hy as (l & -> & Hl & Hne). destruct (ps_of o); unfold check_y.
        + assert (F : forallb is_pair l = true).
          { apply forallb_forall. intros z Hz. rewrite Forall_forall in Hl. auto. }
          destruct l; [now elim Hne|]. simpl in F |- *. now rewrite F.
        + assert (F : forallb is_num l = true).
          { apply forallb_forall. intros z Hz. rewrite Forall_forall in Hl. auto. }
          now rewrite F. }
    assert (Ev : exists y', convert_y O (ps_of o) x y = Ok y' /\ exists xs ys, recorded (targ_of x) y' xs ys).
    { destruct x as [p|pts]; simpl in Hy.
      - destruct (One _ _ Hy) as [v Hv]. exists (Y1 v). simpl. split; [|eexists _, _; constructor].
        unfold convert_y. now rewrite Hv.
      - destruct Hy as (l & -> & Hl & Hne).
        destruct (mapM_all_ok (if ps_of o then log_pair O else @scalar N) l) as [vs Hvs].
        { intros z Hz. rewrite Forall_forall in Hl. destruct (One _ _ (Hl _ Hz)) as [v Hv].
          exists v. destruct (ps_of o); exact Hv. }
        exists (Yn vs). simpl. split; [|eexists _, _; constructor]. now rewrite Hvs. }
    destruct Ev as (y' & Ev & xs & ys & Hr). exists y', xs, ys. split; [exact Hr|].
    unfold tell, andthen at 1, get. simpl. unfold ps_of in *. rewrite Ex. unfold andthen, lift.
    rewrite Ey, Ev. reflexivity.
  Qed.

  (** C24 *)
  Lemma run_by_hand f n : forall k o o', run_loop O G W f k n o = (o', Ok tt) ->
    exists r, by_hand O G W f k n o o' r /\ (r = None <-> n = 0) /\
      (forall r', r = Some r' -> get_result O o' = (o', Ok r')).
  Proof.
    induction n as [|n IH]; intros k o o' H.
    - injection H as <-. exists None. repeat split; try constructor; try easy.
    - rewrite run_loop_S in H. destruct (ask1 O G o) as [o1 [p|e]] eqn:Ea; [|discriminate].
      destruct (f k p) as [y|e] eqn:Ef; [|discriminate].
      destruct (tell O G W (X1 p) y true o1) as [o2 [r|e]] eqn:Et; [|discriminate].
      destruct (IH _ _ _ H) as (r' & Hb & Hn & Hr).
      eexists. split; [econstructor; [|eassumption..]|].
      + rewrite ask_none, Ea. reflexivity.
      + split; [easy|]. intros r0 E. injection E as <-. destruct r' as [r'|]; [now apply Hr|].
        destruct Hn as [Hn _]. rewrite (Hn eq_refl) in H. injection H as <-. eapply tell_get; eauto.
  Qed.
  Lemma by_hand_run f k n o o' r : by_hand O G W f k n o o' r -> run_loop O G W f k n o = (o', Ok tt).
  Proof.
    induction 1 as [k o|k n o o1 o2 o3 p y r r' Ha Hf Ht Hb IH]; [reflexivity|].
    rewrite run_loop_S. rewrite ask_none in Ha. destruct (ask1 O G o) as [o1' [p'|]]; [|discriminate].
    injection Ha as -> ->. now rewrite Hf, Ht.
  Qed.
End OptHistory.
