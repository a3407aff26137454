(** Which observations each model was fitted to (C74). *)
From Coq Require Import String List ZArith Bool Lia Sorted.
From Verif Require Import Base Num Values Transformers Dimension Space Optimizer NumLaws BaseLemmas
  SpaceSpec MetricLemmas OptSpec OptLemmas OptLemmas2 OptLemmas3 OptLemmas4 ArgLemmas OptLemmas5 OptProps Minimize MinSpec
  MinLemmas MinProps FitSpec.
Import ListNotations.
Open Scope list_scope.
Set Implicit Arguments.

Section FitLemmas.
  Context {N RNG M : Type} (O : numops N) (G : rng_ops N RNG) (W : world N M).
  Notation state := (opt N RNG M).
  Notation result := (result N RNG M).
  Notation callback := (callback N RNG M).

  (** From [o] to [o'] the history has grown, and so have the models, each fitted to a beginning of it. *)
  Definition learnt (o o' : state) (ms : list M) (ns : list nat) : Prop :=
    Forall2 (fun m n => length (o_yi o) <= n <= length (o_yi o') /\
                        fitted_to O W (c_dims (o_cfg o')) (firstn n (o_Xi o')) (firstn n (o_yi o')) m) ms ns /\
    StronglySorted le ns.
  Definition learns (o o' : state) : Prop :=
    o_cfg o' = o_cfg o /\ aligned o' /\ (exists xs ys, o_Xi o' = o_Xi o ++ xs /\ o_yi o' = o_yi o ++ ys) /\
    exists ms ns, o_models o' = keep (c_queue (o_cfg o)) (o_models o ++ ms) /\ learnt o o' ms ns.

  Lemma learns_still (o o' : state) : good O G W o -> aligned o -> o_cfg o' = o_cfg o -> o_models o' = o_models o ->
    o_Xi o' = o_Xi o -> o_yi o' = o_yi o -> learns o o'.
  Proof.
    intros Hg Ha Hc Hm Hx Hy. split; [easy|]. split; [unfold aligned; congruence|].
    split; [exists [], []; now rewrite !app_nil_r|]. exists [], []. split; [|repeat constructor].
    rewrite app_nil_r, keep_nil; [easy|]. intros z Hz. apply (g_queue Hg Hz).
  Qed.
  Lemma sorted_app (a b : list nat) k : StronglySorted le a -> StronglySorted le b -> Forall (fun n => n <= k) a -> Forall (fun n => k <= n) b ->
    StronglySorted le (a ++ b).
  Proof.
    intros Ha Hb Fa Fb. induction Ha as [|x a Ha IH Hx]; [exact Hb|]. inversion Fa; subst. cbn. constructor; [now apply IH|].
    apply Forall_app. split; [exact Hx|]. apply Forall_forall. intros y Hy. rewrite Forall_forall in Fb. specialize (Fb y Hy). lia.
  Qed.
  Lemma learns_trans (o1 o2 o3 : state) : aligned o1 -> learns o1 o2 -> learns o2 o3 -> learns o1 o3.
  Proof.
    intros A1 (C1 & A2 & (x1 & y1 & X1' & Y1') & m1 & n1 & M1 & F1 & S1) (C2 & A3 & (x2 & y2 & X2' & Y2') & m2 & n2 & M2 & F2 & S2).
    split; [congruence|]. split; [easy|]. split; [exists (x1 ++ x2), (y1 ++ y2); rewrite X2', Y2', X1', Y1', !app_assoc; easy|].
    exists (m1 ++ m2), (n1 ++ n2). split; [now rewrite M2, C1, M1, keep_app, app_assoc|].
    assert (L1 : length (o_yi o1) <= length (o_yi o2)) by (rewrite Y1', app_length; lia).
    assert (L2 : length (o_yi o2) <= length (o_yi o3)) by (rewrite Y2', app_length; lia).
    split.
    - apply Forall2_app.
      + clear -F1 A2 L2 X2' Y2' C2. induction F1 as [|m n ms ns [Hn Hf] F IH]; constructor; [|exact IH].
        split; [lia|]. rewrite X2', Y2', !firstn_app, C2. unfold aligned in A2.
        replace (n - length (o_Xi o2)) with 0 by lia. replace (n - length (o_yi o2)) with 0 by lia. rewrite !firstn_O, !app_nil_r. exact Hf.
      + clear -F2 L1. induction F2 as [|m n ms ns [Hn Hf] F IH]; constructor; [|exact IH]. split; [lia|exact Hf].
    - apply sorted_app with (k := length (o_yi o2)); auto.
      + clear -F1. induction F1 as [|m n ms ns [Hn Hf] F IH]; constructor; [lia|exact IH].
      + clear -F2. induction F2 as [|m n ms ns [Hn Hf] F IH]; constructor; [lia|exact IH].
  Qed.

  Lemma learns_tell x y fit (o : state) : good O G W o -> aligned o -> matched (CTell x y fit) ->
    learns o (fst (tell O G W x y fit o)).
  Proof.
    intros Hg Ha Hm. destruct (tell_cases O G W x y fit o) as [[e E]|(y' & xs & ys & _ & _ & Ec & Hr & E)].
    - rewrite E. now apply learns_still.
    - destruct (tell_logs O G W x y fit o Hm) as [[e E']|(L & HL & (C & _ & _ & HX & HY))].
      { rewrite E'. now apply learns_still. }
      rewrite E in *. destruct (tell_any O G W fit o Hr) as ((S1 & S2 & S3 & S4 & S5) & _ & Hmod).
      set (o' := fst (tell_ O G W (targ_of x) y' fit o)) in *.
      assert (A' : aligned o').
      { unfold aligned in *. rewrite HX, HY, !app_length. unfold hist_x, hist_y. rewrite !map_length. lia. }
      split; [exact S1|]. split; [exact A'|]. split; [eauto|].
      assert (Still : o_models o' = o_models o -> exists ms ns, o_models o' = keep (c_queue (o_cfg o)) (o_models o ++ ms) /\ learnt o o' ms ns).
      { intros Em. exists [], []. split; [|repeat constructor]. rewrite app_nil_r, keep_nil; [easy|]. intros z Hz. apply (g_queue Hg Hz). }
      destruct Hmod as [Em|[_ [Em|(P & Xt & est & EP & EX & Hf & Hp)]]]; [now apply Still|now apply Still|].
      exists [est], [length (o_yi o')]. split; [exact (proj1 (keep_pushed _ _ _ Hp (g_queue Hg)))|].
      split; [|repeat constructor]. constructor; [|constructor]. split; [rewrite HY, app_length; lia|].
      unfold aligned in A'. rewrite <- A' at 1. rewrite !firstn_all. exists P, Xt. rewrite C.
      cbn [o_Xi o_yi o_cfg after] in *. split; [|split; [exact EX|]].
      + apply plain_points. rewrite S4. exact EP.
      + rewrite (proj1 S5). exact Hf.
  Qed.
  Lemma learns_run f n : forall k (o : state), good O G W o -> aligned o -> learns o (fst (run_loop O G W f k n o)).
  Proof.
    induction n as [|n IH]; intros k o Hg Ha; [now apply learns_still|]. rewrite run_loop_S.
    pose proof (good_ask1 Hg) as H1. destruct (ask1_frame O G o) as [g Eg].
    destruct (ask1 O G o) as [o1 [p|]]; simpl in H1, Eg; subst o1; [|now apply learns_still].
    assert (M1 : learns o (set_rng g o)) by now apply learns_still.
    destruct (f k p) as [y|]; [|exact M1].
    pose proof (good_tell_user (X1 p) y true H1) as H2. pose proof (learns_tell (X1 p) y true H1 Ha I) as M2.
    destruct (tell O G W (X1 p) y true (set_rng g o)) as [o2 [r|]]; simpl in H2, M2.
    - eapply learns_trans; [exact Ha|exact M1|]. eapply learns_trans; [exact Ha|exact M2|]. apply IH; [exact H2|apply M2].
    - eapply learns_trans; [exact Ha|exact M1|exact M2].
  Qed.
  Lemma learns_call c (o : state) : good O G W o -> aligned o -> matched c -> learns o (fst (do_call O G W c o)).
  Proof.
    intros Hg Ha Hm. destruct c as [n s|x y fit|f n| |]; cbn [do_call].
    - destruct (ask_frame O G W n s o) as (g & c & E). destruct (ask O G W n s o) as [o1 r]. simpl in *. subst.
      now apply learns_still.
    - pose proof (@learns_tell x y _ o Hg Ha Hm) as H. destruct (tell O G W x y fit o); exact H.
    - pose proof (learns_run f n 0 Hg Ha) as H. unfold run, andthen. destruct (run_loop O G W f 0 n o) as [o1 [u|]]; exact H.
    - now apply learns_still.
    - destruct (update_next_frame O G W o) as (g & nx & E). destruct (update_next O G W o) as [o1 r]. simpl in *. subst.
      now apply learns_still.
  Qed.
  Lemma learns_exec cs : forall o : state, good O G W o -> aligned o -> Forall matched cs -> learns o (fst (exec O G W cs o)).
  Proof.
    induction cs as [|c cs IH]; intros o Hg Ha Hm; [now apply learns_still|]. rewrite exec_cons. simpl. inversion Hm; subst.
    assert (L : learns o (fst (do_call O G W c o))) by now apply learns_call.
    eapply learns_trans; [exact Ha|exact L|]. apply IH; [now apply good_call|apply L|easy].
  Qed.

  Lemma c74_optimizer a g g' (o : state) cs o' outs : make_optimizer O G W a g = (g', Ok o) -> Forall matched cs -> exec O G W cs o = (o', outs) ->
    exists ms ns, o_models o' = keep (a_queue a) ms /\ StronglySorted le ns /\
      Forall2 (fun m n => n <= length (o_yi o') /\ fitted_to O W (c_dims (o_cfg o')) (firstn n (o_Xi o')) (firstn n (o_yi o')) m) ms ns.
  Proof.
    intros Hm Hc He. pose proof (make_good O G W _ _ Hm) as Hg. destruct (make_empty O G W _ _ Hm) as (E1 & E2 & E3 & _ & Eq & _).
    assert (Ha : aligned o) by (unfold aligned; now rewrite E2, E3).
    pose proof (@learns_exec cs o Hg Ha Hc) as L. rewrite He in L. cbn [fst] in L. destruct L as (C & _ & _ & ms & ns & Em & F & S).
    exists ms, ns. rewrite Em, E1, Eq. split; [easy|]. split; [exact S|].
    clear -F. induction F as [|m n ms ns [Hn Hf] F IH]; constructor; [|exact IH]. split; [lia|exact Hf].
  Qed.

  (** *** Minimisers *)
  Record paced (n : nat) (o : state) : Prop := {
    p_good : good O G W o; p_aligned : aligned o; p_est : has_est o = true; p_queue : c_queue (o_cfg o) = None;
    p_n0 : c_n0 (o_cfg o) = Z.of_nat n;
    p_count : length (o_models o) = length (o_yi o) + 1 - n;
    p_fit : forall i m, nth_error (o_models o) i = Some m ->
      fitted_to O W (c_dims (o_cfg o)) (firstn (n + i) (o_Xi o)) (firstn (n + i) (o_yi o)) m }.

  Lemma paced_tell n x y (o o' : state) r k : paced n o -> tell O G W x y true o = (o', Ok r) -> matched (CTell x y true) ->
    length (o_yi o') = length (o_yi o) + k -> (k = 1 \/ length (o_yi o') <= n /\ 0 < k) -> paced n o'.
  Proof.
    intros [Hg Ha He Hq Hn Hc Hf] H Hm Hk Hk'.
    pose proof (@learns_tell x y _ o Hg Ha Hm) as (Lc & La & (xs & ys & HX & HY) & _). pose proof (good_tell_user x y true Hg) as Hg'. rewrite H in *. cbn [fst] in *.
    assert (He' : has_est o' = true) by (unfold has_est in *; now rewrite Lc).
    assert (Old : forall i m, nth_error (o_models o) i = Some m -> fitted_to O W (c_dims (o_cfg o')) (firstn (n + i) (o_Xi o')) (firstn (n + i) (o_yi o')) m).
    { intros i m Hi. assert (Hlt : i < length (o_models o)) by (apply nth_error_Some; congruence).
      rewrite Lc, HX, HY, !firstn_app. unfold aligned in Ha. replace (n + i - length (o_Xi o)) with 0 by lia. replace (n + i - length (o_yi o)) with 0 by lia.
      rewrite !firstn_O, !app_nil_r. now apply Hf. }
    destruct (Nat.le_gt_cases n (length (o_yi o'))) as [Hle|Hgt].
    - destruct (@tell_fitted N RNG M O G W x y o o' r Hg H) as (o1 & E1 & E2 & E3 & E4 & E5 & _ & _ & [F]); [rewrite Lc, Hn; lia|exact He'|].
      pose proof (f_push F) as Hp. rewrite E1, Hq, E5 in Hp. cbn [pushed] in Hp.
      constructor; auto; [now rewrite Lc|now rewrite Lc| |].
      + rewrite Hp, app_length. cbn. lia.
      + intros i m Hi. destruct (Nat.lt_ge_cases i (length (o_models o))) as [Hlt|Hge].
        * apply Old. now rewrite Hp, nth_error_app1 in Hi.
        * assert (i < length (o_models o ++ [f_est F])) by (rewrite <- Hp; apply nth_error_Some; congruence).
          rewrite app_length in *. cbn in *. assert (i = length (o_models o)) by lia. rewrite Hp, nth_error_app2 in Hi by lia.
          replace (i - length (o_models o)) with 0 in Hi by lia. injection Hi as <-.
          assert (Ei : n + i = length (o_yi o')) by lia. rewrite Ei. unfold aligned in La. rewrite <- La at 1. rewrite !firstn_all.
          exists (f_P F), (f_Xt F). rewrite <- E2, <- E3, Lc. split; [apply plain_points, (f_plain F)|]. split; [rewrite <- E1; apply (f_trans F)|apply (f_fit F)].
    - destruct (@tell_unfitted N RNG M O G W x y true o o' r Hg H) as [Em _]; [right; left; rewrite Lc, Hn; lia|].
      constructor; auto; [now rewrite Lc|now rewrite Lc|rewrite Em, Hc; lia|]. intros i m Hi. apply Old. now rewrite <- Em.
  Qed.
  Lemma paced_rng n g (o : state) : paced n o -> paced n (set_rng g o).
  Proof. intros [Hg Ha He Hq Hn Hc Hf]. constructor; auto. now apply good_rng. Qed.
  Lemma paced_step n (o o1 o2 : state) p y r : paced n o -> ask O G W NPNone "cl_min" o = (o1, Ok (A1pt p)) ->
    tell O G W (X1 p) y true o1 = (o2, Ok r) -> paced n o2.
  Proof.
    intros H Hask Ht. destruct (step_grows O G W _ _ Hask Ht) as (v & _ & _ & Ey & _).
    rewrite ask_none in Hask. destruct (ask1_frame O G o) as [g Eg]. destruct (ask1 O G o) as [o3 q]. cbn [fst] in Eg. subst o3.
    assert (Eo : set_rng g o = o1) by (destruct q; congruence). subst o1. apply (@paced_tell n (X1 p) y (set_rng g o) o2 r 1); auto; [now apply paced_rng|exact I|].
    cbn [o_yi set_rng]. rewrite Ey, app_length. reflexivity.
  Qed.
  Lemma paced_loop n f cbs k c seen (o o' : state) L : looped O G W f cbs k c seen o o' L -> paced n o -> paced n o'.
  Proof. induction 1; intros P; [exact P|eapply paced_step; eauto|]. apply IHlooped. eapply paced_step; eauto. Qed.
  Lemma paced_session f cbs n_calls x0 (o0 : state) y0 t o' res n : session O G W f cbs n_calls x0 o0 y0 t o' res ->
    paced n o0 -> o_yi o0 = [] -> length x0 <= n -> paced n o'.
  Proof.
    intros S P E Hn.
    assert (T : forall ys (o1 : state) r, x0 <> [] -> length ys = length x0 -> tell O G W (X2 x0) (YLst ys) true o0 = (o1, Ok r) -> paced n o1).
    { intros ys o1 r Hx Hl Ht. destruct (@told_points N RNG M O G W x0 ys o0 o1 r Hl Ht) as (vs & _ & _ & Ey & _ & Hv & _).
      apply (@paced_tell n (X2 x0) (YLst ys) o0 o1 r (length x0)); auto; [now exists ys|rewrite Ey, app_length; lia|].
      right. rewrite Ey, E. cbn. rewrite Hv. split; [easy|]. destruct x0; [easy|cbn; lia]. }
    destruct S; [now apply (paced_loop H0)|eauto|]. apply (paced_loop H4). eauto.
  Qed.
  Lemma make_est a g g' (o : state) : make_optimizer O G W a g = (g', Ok o) -> a_est a <> None -> has_est o = true.
  Proof.
    unfold make_optimizer. intros H E. destruct (acq_of (a_acq a)) as [acq|]; [|discriminate].
    destruct (a_n0 a <? 0)%Z; [discriminate|]. destruct (a_est a) as [e|]; [|easy].
    destruct (negb (ed_regressor e)); [discriminate|]. destruct (negb (_ || _)); [discriminate|]. destruct (negb _ && _); [discriminate|].
    apply finish_ok in H. destruct H as (d & init & _ & -> & _). reflexivity.
  Qed.
  Lemma minimize_opt m f a g t o' res : minimize O G W m f a g = (t, o', Ok res) -> m <> MDummy ->
    exists x0 g0 g' o0 o1 y0 a0, o' = Some o1 /\ given (m_x0 a) x0 /\ make_optimizer O G W a0 g0 = (g', Ok o0) /\
      a_est a0 = a_est (m_opt a) /\ a_queue a0 = a_queue (m_opt a) /\ a_n0 a0 = (n_initial a + Z.of_nat (length x0))%Z /\
      session O G W f (callbacks_of a) (m_ncalls a) x0 o0 y0 t o1 res.
  Proof.
    intros H Hm.
    assert (B : exists a' g1, base_minimize O G W f a' g1 = (t, o', Ok res) /\ m_ncalls a' = m_ncalls a /\ m_x0 a' = m_x0 a /\
      callbacks_of a' = callbacks_of a /\ n_initial a' = n_initial a /\ a_est (m_opt a') = a_est (m_opt a) /\ a_queue (m_opt a') = a_queue (m_opt a)).
    { destruct m; cbn [minimize] in H; [exists a, g; auto 10|easy| | |].
      - eexists _, g. split; [exact H|]. now cbn.
      - eexists _, g. split; [exact H|]. now cbn.
      - unfold gp_minimize in H. destruct (set_kinds_all _ _); [|discriminate]. eexists _, _. split; [exact H|]. now cbn. }
    destruct B as (a' & g1 & H' & E1 & E2 & E3 & E4 & E5 & E6).
    apply base_ok in H'. destruct H' as (x0 & g' & o0 & o1 & -> & H1 & H2 & _ & _ & _ & _ & _ & H7).
    exists x0, g1, g', o0, o1, (values_of (m_y0 a')), (set_n0 (n_initial a' + Z.of_nat (length x0)) (m_opt a')).
    rewrite <- E1, <- E2, <- E3, <- E4, <- E5, <- E6. repeat (split; [easy|]). apply H7.
    destruct (m_y0 a'); cbn [values_of]; [left; constructor|left; constructor|left; constructor|now right].
  Qed.

  Lemma c74_minimizer m f a g t o' r : minimize O G W m f a g = (t, o', Ok (Some r)) -> m <> MDummy ->
    a_est (m_opt a) <> None -> a_queue (m_opt a) = None -> (0 <= n_initial a)%Z ->
    exists x0, given (m_x0 a) x0 /\ let n := Z.to_nat (n_initial a) + length x0 in
      length (res_models r) = length (res_func_vals r) + 1 - n /\
      forall i md, nth_error (res_models r) i = Some md ->
        fitted_on O W (res_space r) (firstn (n + i) (res_x_iters r)) (firstn (n + i) (res_func_vals r)) md.
  Proof.
    intros H Hm He Hq Hn. destruct (minimize_facts O G W m f a g H) as (xx & aa & ga & gb & oo & o1 & r1 & Eo & Er & _ & _ & _ & _ & _ & _ & F).
    injection Er as <-. pose proof (fc_result F) as R. clear F.
    destruct (@minimize_opt m f a g t o' (Some r) H Hm) as (x0 & g0 & g' & o0 & o2 & y0 & a0 & Eo' & Gx & Mk & Q1 & Q2 & Q3 & S).
    assert (o2 = o1) by congruence. subst o2. exists x0. split; [exact Gx|]. cbv zeta. set (n := Z.to_nat (n_initial a) + length x0).
    destruct (make_empty O G W _ _ Mk) as (E1 & E2 & E3 & _ & E4 & E5).
    assert (Pos : 0 < n).
    { pose proof (make_good O G W _ _ Mk). destruct x0; [|unfold n; cbn; lia].
      destruct (Z.eq_dec (n_initial a) 0) as [Ez|]; [|unfold n; cbn; lia]. exfalso.
      revert H Ez Gx. clear -Hm. intros H Ez Gx. apply minimize_base in H. destruct H as (a' & g1 & H & _ & X & _ & _ & Nn & _). apply base_ok in H.
      destruct H as (x1 & _ & _ & _ & _ & Gx' & _ & _ & Hpos & _). rewrite X in Gx'. rewrite (Nn Hm) in Hpos.
      assert (x1 = []) by (inversion Gx; subst; inversion Gx'; congruence). specialize (Hpos H). lia. }
    assert (P0 : paced n o0).
    { constructor.
      - eapply make_good; eauto.
      - unfold aligned. now rewrite E2, E3.
      - eapply make_est; eauto. now rewrite Q1.
      - now rewrite E4, Q2.
      - rewrite E5, Q3. unfold n. lia.
      - rewrite E1, E3. cbn [length]. lia.
      - intros i md Hi. rewrite E1 in Hi. destruct i; discriminate. }
    destruct (paced_session S P0 E3) as [_ _ _ _ _ Hc Hf]; [unfold n; lia|].
    destruct (get_result_spec R) as (_ & Rx & Rv & Rm & Rs). rewrite Rm, Rv, Rx, Rs, map_length. split; [exact Hc|].
    intros i md Hi. exists (firstn (n + i) (o_yi o1)). split; [now rewrite firstn_map|]. now apply Hf.
  Qed.
End FitLemmas.
