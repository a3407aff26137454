(** Consequences of the invariant: phases, queue, lies, copies (C17, C20, C22, C23, C25, C26). *)
From Coq Require Import String List ZArith Bool Lia Reals Lra.
From Verif Require Import Base Num Values Transformers Dimension Space Optimizer NumLaws BaseLemmas
  SpaceSpec MetricLemmas OptSpec OptLemmas OptLemmas2 OptLemmas3 OptLemmas4 ArgLemmas.
Import ListNotations.
Open Scope list_scope.
Set Implicit Arguments.

Section OptMore.
  Context {N RNG M : Type} (O : numops N) (G : rng_ops N RNG) (W : world N M).
  Notation state := (opt N RNG M).
  Notation dims o := (c_dims (o_cfg o)).
  Notation good := (good O G W).

  (** *** C17 *)
  Lemma ask_initial s o : good o -> (Z.of_nat (length (o_yi o)) < c_n0 (o_cfg o))%Z \/ has_est o = false ->
    o_models o = [] /\
    match o_init o with
    | Some l => gen_ok O W (dims o) (c_n0 (o_cfg o)) -> (Z.of_nat (length (o_yi o)) < c_n0 (o_cfg o))%Z ->
        exists p, nth_error l (length (o_yi o)) = Some p /\ ask O G W NPNone s o = (o, Ok (A1pt p))
    | None => forall o' p, ask O G W NPNone s o = (o', Ok (A1pt p)) ->
        exists P g, space_rvs O G (dims o) 1 (o_rng o) = (Ok (p :: P), g)
    end.
  Proof.
    intros Hg Hph. pose proof (g_left Hg) as Hl.
    assert (Hm : o_models o = []).
    { destruct (o_models o) eqn:E; [easy|].
      assert (Hne : o_models o <> []) by (rewrite E; discriminate).
      destruct (g_early Hg Hne) as [H1 H2]. destruct Hph as [Hph|Hph]; [lia|congruence]. }
    split; [exact Hm|].
    assert (Ec : (0 <? o_left o)%Z || negb (has_est o) = true).
    { destruct Hph as [Hph|Hph].
      - replace (0 <? o_left o)%Z with true; [easy|]. symmetry. apply Z.ltb_lt. lia.
      - rewrite Hph. simpl. apply orb_true_r. }
    destruct (o_init o) as [l|] eqn:Ei.
    - intros Hgen Hlt. destruct (g_init Hg Hgen Ei) as [Hlen _].
      destruct (nth_error l (length (o_yi o))) as [p|] eqn:En.
      + exists p. split; [easy|]. rewrite ask_none. unfold ask1, andthen at 1, get. rewrite Ec, Ei.
        unfold py_index. replace (0 <=? Z.of_nat (length l) - o_left o)%Z with true by (symmetry; apply Z.leb_le; lia).
        replace (Z.to_nat (Z.of_nat (length l) - o_left o)) with (length (o_yi o)) by (pose proof (g_n0 Hg); lia).
        now rewrite En.
      + apply nth_error_None in En. pose proof (g_n0 Hg). lia.
    - intros o' p. rewrite ask_none. unfold ask1, andthen at 1, get. rewrite Ec, Ei.
      destruct (space_rvs O G (dims o) 1 (o_rng o)) as [[P|e] g] eqn:Er; unfold andthen, upd, lift; [|discriminate].
      destruct P as [|q P]; simpl; [discriminate|]. intros H. injection H as _ <-. eauto.
  Qed.
  Lemma ask_surrogate s o o' p : good o -> (c_n0 (o_cfg o) <= Z.of_nat (length (o_yi o)))%Z -> has_est o = true ->
    ask O G W NPNone s o = (o', Ok (A1pt p)) -> o' = o /\ o_next o = Some p /\ o_models o <> [].
  Proof.
    intros Hg Hn He. pose proof (g_left Hg) as Hl. rewrite ask_none. unfold ask1, andthen at 1, get.
    replace (0 <? o_left o)%Z with false by (symmetry; apply Z.ltb_ge; lia). rewrite He. simpl.
    destruct (o_models o); [discriminate|]. destruct (o_next o) as [q|]; [|discriminate].
    unfold andthen, lift. destruct (mapM _ _) as [[|]|]; try discriminate.
    intros H. injection H as <- <-. now repeat split.
  Qed.

  Lemma plain_points (l : list (xarg N)) P : mapM (@plain N) l = Ok P -> l = map (@X1 N) P.
  Proof.
    intros H. apply mapM_ok in H. induction H as [|x p l P Hx H IH]; [easy|]. simpl. rewrite IH. f_equal.
    destruct x; [now injection Hx as ->|discriminate].
  Qed.

  (** A successful [tell] in the model phase fits the whole history. *)
  Lemma tell_fitted x y o o' r : good o -> tell O G W x y true o = (o', Ok r) ->
    (c_n0 (o_cfg o') <= Z.of_nat (length (o_yi o')))%Z -> has_est o' = true ->
    exists o1 : state, o_cfg o1 = o_cfg o /\ o_Xi o1 = o_Xi o' /\ o_yi o1 = o_yi o' /\ o_cfg o' = o_cfg o /\
      o_models o1 = o_models o /\ o_next_xs o1 = o_next_xs o /\ o_gains o1 = o_gains o /\
      inhabited (fitted O G W o1 o').
  Proof.
    intros Hg H Hn He.
    pose proof (good_tell_user x y true Hg) as Hg'. rewrite H in Hg'. simpl in Hg'.
    destruct (tell_cases O G W x y true o) as [[e E]|(y' & xs & ys & _ & _ & _ & Hr & E)]; [congruence|].
    rewrite E in H. clear E.
    destruct (tell_any O G W true o Hr) as ((S1 & S2 & S3 & S4 & S5 & _) & _). rewrite H in *. simpl fst in *.
    rewrite (tell_eq O G W true o Hr) in H.
    assert (Ef : fits_now true (after xs ys o) = true).
    { unfold fits_now. pose proof (g_left Hg') as Hl. rewrite S2 in Hl.
      replace (o_left (after xs ys o) <=? 0)%Z with true by (symmetry; apply Z.leb_le; lia).
      unfold has_est in *. now rewrite S1 in He. }
    rewrite Ef in H. destruct (refit O G W (after xs ys o)) as [o2 [[]|e]] eqn:Er; [|discriminate].
    destruct (refit_ok O G W _ Er) as [F]. destruct (get_result_spec H) as [E _]. subst o2.
    exists (after xs ys o). do 7 (split; [first [reflexivity|congruence|exact S1]|]). exact (inhabits F).
  Qed.
  Lemma tell_unfitted x y fit o o' r : good o -> tell O G W x y fit o = (o', Ok r) ->
    fit = false \/ (Z.of_nat (length (o_yi o')) < c_n0 (o_cfg o'))%Z \/ has_est o' = false ->
    o_models o' = o_models o /\ o_next o' = o_next o.
  Proof.
    intros Hg H Hn.
    pose proof (good_tell_user x y fit Hg) as Hg'. rewrite H in Hg'. simpl in Hg'.
    destruct (tell_cases O G W x y fit o) as [[e E]|(y' & xs & ys & _ & _ & _ & Hr & E)]; [congruence|].
    rewrite E in H. clear E.
    destruct (tell_any O G W fit o Hr) as ((S1 & S2 & S3 & S4 & S5 & _) & _). rewrite H in *. simpl fst in *.
    rewrite (tell_eq O G W fit o Hr) in H.
    assert (Ef : fits_now fit (after xs ys o) = false).
    { unfold fits_now. destruct Hn as [->|[Hn|Hn]]; [easy| |].
      - pose proof (g_left Hg') as Hl. rewrite S2 in Hl.
        replace (o_left (after xs ys o) <=? 0)%Z with false by (symmetry; apply Z.leb_gt; lia).
        now rewrite andb_false_r.
      - unfold has_est in *. rewrite S1 in Hn. rewrite Hn. apply andb_false_r. }
    rewrite Ef in H. destruct (get_result_spec H) as [E _]. now subst.
  Qed.

  (** *** C22 *)
  Lemma skipn_skipn' {A} a b (l : list A) : skipn a (skipn b l) = skipn (a + b) l.
  Proof.
    revert b l. induction b as [|b IH]; intros l; [now rewrite Nat.add_0_r|].
    rewrite Nat.add_succ_r. destruct l; simpl; [now rewrite !skipn_nil|]. apply IH.
  Qed.
  Lemma keep_app {A} q (a b : list A) : keep q (keep q a ++ b) = keep q (a ++ b).
  Proof.
    destruct q as [q|]; simpl; [|easy]. set (n := Z.to_nat q).
    rewrite !app_length, skipn_length.
    destruct (Nat.le_ge_cases (length a) n) as [H|H].
    - replace (length a - n) with 0 by lia. simpl. f_equal. lia.
    - rewrite !skipn_app, skipn_skipn', skipn_length. f_equal; f_equal; lia.
  Qed.
  Lemma keep_nil {A} q (l : list A) : (forall z, q = Some z -> (Z.of_nat (length l) <= Z.max 0 z)%Z) -> keep q l = l.
  Proof.
    intros H. destruct q as [z|]; [|easy]. simpl. specialize (H z eq_refl).
    replace (length l - Z.to_nat z) with 0 by lia. reflexivity.
  Qed.

  Definition is_fit (m : M) : Prop := exists X Y, w_fit W X Y = Ok m.
  Definition more_models (o o' : state) : Prop :=
    o_cfg o' = o_cfg o /\ exists ms, Forall is_fit ms /\ o_models o' = keep (c_queue (o_cfg o)) (o_models o ++ ms).
  Lemma more_refl o o' : good o -> o_cfg o' = o_cfg o -> o_models o' = o_models o -> more_models o o'.
  Proof.
    intros Hg Hc Hm. split; [easy|]. exists []. split; [constructor|]. rewrite app_nil_r, keep_nil; [easy|].
    intros z Hz. apply (g_queue Hg Hz).
  Qed.
  Lemma more_trans o1 o2 o3 : more_models o1 o2 -> more_models o2 o3 -> more_models o1 o3.
  Proof.
    intros (E1 & m1 & F1 & H1) (E2 & m2 & F2 & H2). split; [congruence|]. exists (m1 ++ m2).
    split; [now apply Forall_app|]. now rewrite H2, E1, H1, keep_app, app_assoc.
  Qed.
  Lemma more_tell x y fit o : good o -> more_models o (fst (tell O G W x y fit o)).
  Proof.
    intros Hg. destruct (tell_cases O G W x y fit o) as [[e E]|(y' & xs & ys & _ & _ & _ & Hr & E)].
    - rewrite E. now apply more_refl.
    - rewrite E. destruct (tell_any O G W fit o Hr) as ((S1 & _) & _ & Hm).
      set (o' := fst (tell_ O G W (targ_of x) y' fit o)) in *.
      destruct Hm as [Hm|[_ [Hm|(P & Xt & est & _ & _ & Hf & Hm)]]].
      + now apply more_refl.
      + now apply more_refl.
      + split; [exact S1|]. exists [est]. split; [constructor; [exists Xt, (o_yi (after xs ys o)); exact Hf|constructor]|].
        exact (proj1 (keep_pushed _ _ _ Hm (g_queue Hg))).
  Qed.
  Lemma more_run f n : forall k o, good o -> more_models o (fst (run_loop O G W f k n o)).
  Proof.
    induction n as [|n IH]; intros k o Hg; [now apply more_refl|]. rewrite run_loop_S.
    pose proof (good_ask1 Hg) as H1. destruct (ask1_frame O G o) as [g Eg].
    destruct (ask1 O G o) as [o1 [p|]]; simpl in H1, Eg; subst o1; [|now apply more_refl].
    assert (M1 : more_models o (set_rng g o)) by now apply more_refl.
    destruct (f k p) as [y|]; [|exact M1].
    pose proof (good_tell_user (X1 p) y true H1) as H2. pose proof (more_tell (X1 p) y true H1) as M2.
    destruct (tell O G W (X1 p) y true (set_rng g o)) as [o2 [r|]]; simpl in H2, M2.
    - eapply more_trans; [exact M1|]. eapply more_trans; [exact M2|]. now apply IH.
    - eapply more_trans; [exact M1|exact M2].
  Qed.
  Lemma more_call c o : good o -> more_models o (fst (do_call O G W c o)).
  Proof.
    intros Hg. destruct c as [n s|x y fit|f n| |]; cbn [do_call].
    - destruct (ask_frame O G W n s o) as (g & c & E). destruct (ask O G W n s o) as [o1 r]. simpl in *. subst.
      now apply more_refl.
    - pose proof (more_tell x y fit Hg) as H. destruct (tell O G W x y fit o); exact H.
    - pose proof (more_run f n 0 Hg) as H. unfold run, andthen. destruct (run_loop O G W f 0 n o) as [o1 [u|]]; exact H.
    - now apply more_refl.
    - destruct (update_next_frame O G W o) as (g & nx & E). destruct (update_next O G W o) as [o1 r]. simpl in *. subst.
      now apply more_refl.
  Qed.
  Lemma more_exec cs : forall o, good o -> more_models o (fst (exec O G W cs o)).
  Proof.
    induction cs as [|c cs IH]; intros o Hg; [now apply more_refl|]. rewrite exec_cons. simpl.
    eapply more_trans; [now apply more_call|]. apply IH. now apply good_call.
  Qed.
  Lemma make_empty a g g' o : make_optimizer O G W a g = (g', Ok o) ->
    o_models o = [] /\ o_Xi o = [] /\ o_yi o = [] /\ o_next_xs o = None /\ c_queue (o_cfg o) = a_queue a /\
    c_n0 (o_cfg o) = a_n0 a.
  Proof.
    unfold make_optimizer. destruct (acq_of (a_acq a)) as [acq|]; [|discriminate].
    destruct (a_n0 a <? 0)%Z; [discriminate|].
    assert (Main : forall e lb norm g0, finish O G W a acq e lb norm g0 = (g', Ok o) ->
      o_models o = [] /\ o_Xi o = [] /\ o_yi o = [] /\ o_next_xs o = None /\ c_queue (o_cfg o) = a_queue a /\
      c_n0 (o_cfg o) = a_n0 a).
    { intros e lb norm g0 H. apply finish_ok in H. destruct H as (d & init & _ & -> & _). now repeat split. }
    destruct (a_est a) as [e|].
    - destruct (negb (ed_regressor e)); [discriminate|].
      destruct (negb (_ || _)); [discriminate|]. destruct (negb _ && _); [discriminate|]. apply Main.
    - destruct (is_ps acq); [discriminate|]. destruct (_ || _); [apply Main|discriminate].
  Qed.

  (** *** C25 *)
  Lemma copy_same o g g' o' : good o -> aligned o -> copy O G W o g = (g', Ok o') ->
    o_cfg o' = unqueued (o_cfg o) /\ o_Xi o' = o_Xi o /\ o_yi o' = o_yi o /\ o_left o' = o_left o /\
    o_init o' = o_init o.
  Proof.
    intros Hg Ha H. destruct (good_copy _ Hg H) as [Hg' E]. split; [exact E|].
    destruct (copy_ok _ Hg H) as (o2 & E1 & E2 & E3 & E4 & E5 & E6 & E7 & E8 & E9 & E10 & Hc).
    assert (Hh : o_Xi o' = o_Xi o /\ o_yi o' = o_yi o /\ o_init o' = o_init o).
    { destruct Hc as [[Hx ->]|[_ (r & Ht)]].
      - unfold aligned in Ha. rewrite Hx in Ha. simpl in Ha. destruct (o_yi o); [|discriminate].
        rewrite E5, E6, Hx. auto.
      - assert (Hr : recorded (PH (o_Xi o)) (Yn (o_yi o)) (o_Xi o) (o_yi o)) by constructor.
        destruct (tell_grows O G W true o2 Hr) as [(H1 & H2 & H3 & H4 & H5) _]. rewrite Ht in *. simpl in *.
        rewrite H3, H4, H5, E5, E6. auto. }
    destruct Hh as (H1 & H2 & H3). repeat split; auto.
    rewrite (g_left Hg'), (g_left Hg), H2, E. reflexivity.
  Qed.

  (** *** C20 *)
  Definition times (yi : list (yval N)) : list N := map (fun v => match v with YP _ t => t | YS y => y end) yi.
  Definition all_plain (yi : list (yval N)) : Prop := Forall (fun v => exists y, v = YS y) yi.
  Lemma y_flat_plain yi : all_plain yi -> y_flat yi = map y_obj yi.
  Proof. induction 1 as [|v l [y ->] _ IH]; simpl; [easy|]. now rewrite IH. Qed.

  Definition stable (s : liar) (l : list N) : Prop :=
    forall m k, lie_stat O s l = Ok m -> lie_stat O s (l ++ repeat m k) = Ok m.

  Lemma repeat_snoc {A} (x : A) n : repeat x (S n) = repeat x n ++ [x].
  Proof. induction n as [|n IH]; simpl in *; [easy|]. now rewrite <- IH. Qed.

  Lemma lie_loop_history s n : forall (o o' : state) X h v k,
    o_yi o = h ++ repeat (YS v) k -> all_plain h -> h <> [] -> stable s (map y_obj h) ->
    lie_stat O s (map y_obj h) = Ok v ->
    lie_loop O G W s false n o = (o', Ok X) ->
    o_yi o' = h ++ repeat (YS v) (k + n) /\ o_Xi o' = o_Xi o ++ map (@X1 N) X.
  Proof.
    induction n as [|n IH]; intros o o' X h v k Hy Hp Hne Hst Hs H.
    - injection H as <- <-. rewrite Nat.add_0_r, app_nil_r. auto.
    - apply lie_loop_cons in H. destruct H as (o1 & x & l' & H1 & H2 & ->).
      apply lie_once_ok in H1. destruct H1 as (oa & w & r & Ha & Hw & Ht).
      destruct (ask1_frame O G o) as [g Eg]. rewrite Ha in Eg. simpl in Eg.
      assert (Hrec : recorded (P1 x) (Y1 w) [X1 x] [w]) by constructor.
      destruct (tell_grows O G W true oa Hrec) as [(_ & _ & _ & G4 & G5) _]. rewrite Ht in G4, G5. simpl in G4, G5.
      subst oa. simpl in G4, G5.
      assert (w = YS v) as ->.
      { unfold the_lie in Hw. rewrite Hy in Hw.
        destruct (h ++ repeat (YS v) k) as [|z zs] eqn:Ez; [now destruct h|]. rewrite <- Ez in Hw.
        assert (Hpl : all_plain (h ++ repeat (YS v) k)).
        { apply Forall_app. split; [easy|]. clear. induction k; simpl; constructor; eauto. }
        rewrite (y_flat_plain Hpl), map_app in Hw.
        replace (map y_obj (repeat (YS v) k)) with (repeat v k) in Hw
          by (clear; induction k; simpl; congruence).
        rewrite (Hst v k Hs) in Hw. now injection Hw as <-. }
      destruct (IH o1 o' l' h v (S k)) as [I1 I2]; auto.
      + rewrite G5, Hy, <- app_assoc, <- repeat_snoc. reflexivity.
      + split; [rewrite I1; do 2 f_equal; lia|]. rewrite I2, G4, <- app_assoc. reflexivity.
  Qed.

  Context (L : order_laws O).
  Lemma min_stable l : no_nan O l -> l <> [] -> stable ClMin l.
  Proof.
    intros Hn Hl m k. simpl. revert l Hn Hl. induction k as [|k IH]; intros l Hn Hl Hm.
    - now rewrite app_nil_r.
    - destruct (np_min_spec L Hl Hn) as (m' & E & Hin & _ & Ha). assert (m' = m) by congruence. subst m'.
      change (repeat m (S k)) with ([m] ++ repeat m k). rewrite app_assoc. apply IH.
      + apply Forall_app. split; [easy|]. constructor; [|constructor].
        unfold no_nan in Hn. rewrite Forall_forall in Hn. auto.
      + now destruct l.
      + exact Ha.
  Qed.
  Lemma max_stable l : no_nan O l -> l <> [] -> stable ClMax l.
  Proof.
    intros Hn Hl m k. simpl. revert l Hn Hl. induction k as [|k IH]; intros l Hn Hl Hm.
    - now rewrite app_nil_r.
    - destruct (np_max_spec L Hl Hn) as (m' & E & Hin & _ & Ha). assert (m' = m) by congruence. subst m'.
      change (repeat m (S k)) with ([m] ++ repeat m k). rewrite app_assoc. apply IH.
      + apply Forall_app. split; [easy|]. constructor; [|constructor].
        unfold no_nan in Hn. rewrite Forall_forall in Hn. auto.
      + now destruct l.
      + exact Ha.
  Qed.
End OptMore.

(** *** Over the reals *)
Section OptReal.
  Local Open Scope R_scope.
  Definition Rsum (l : list R) : R := fold_right Rplus 0 l.
  Lemma np_sum_acc l : forall a, fold_left Rplus l a = a + Rsum l.
  Proof. induction l as [|x l IH]; intros a; simpl; [lra|]. rewrite IH. lra. Qed.
  Lemma np_sum_R l : np_sum Rops l = Rsum l.
  Proof. unfold np_sum. simpl. rewrite np_sum_acc. lra. Qed.
  Lemma Rsum_app a b : Rsum (a ++ b) = Rsum a + Rsum b.
  Proof. induction a as [|x a IH]; simpl; [lra|]. rewrite IH. lra. Qed.
  Lemma Rsum_repeat x n : Rsum (repeat x n) = INR n * x.
  Proof. induction n as [|n IH]; [simpl; lra|]. rewrite S_INR. simpl. rewrite IH. lra. Qed.
  Lemma np_mean_R l : l <> [] -> np_mean Rops l = Ok (Rsum l / INR (length l)).
  Proof.
    intros H. destruct l as [|x l]; [easy|]. unfold np_mean. rewrite np_sum_R. cbn [nofZ ndiv Rops].
    now rewrite <- INR_IZR_INZ.
  Qed.
  Lemma mean_stable l : l <> [] -> stable Rops ClMean l.
  Proof.
    intros Hl m k. simpl. rewrite np_mean_R by easy. intros E. injection E as <-.
    rewrite np_mean_R by now destruct l. rewrite Rsum_app, Rsum_repeat, app_length, repeat_length, plus_INR.
    f_equal. assert (0 < INR (length l)).
    { apply lt_0_INR. destruct l; [easy|]. simpl. lia. }
    pose proof (pos_INR k). field. split; lra.
  Qed.
  Lemma no_nan_R l : no_nan Rops l.
  Proof. apply Forall_forall. intros x _. unfold nisnan. simpl. rewrite (proj2 (Rleb_spec x x)); [easy|lra]. Qed.

  (** C23: the softmax. *)
  Lemma softmax eta gains : gains <> [] ->
    exists ps, hedge_weights Rops eta gains = Ok ps /\ length ps = length gains /\
      Forall (fun p => 0 <= p) ps /\ Rsum ps = 1.
  Proof.
    intros Hg. unfold hedge_weights. destruct (np_max_spec Rops_order Hg (no_nan_R gains)) as (m & E & _).
    rewrite E. cbn [bind]. eexists. split; [reflexivity|]. split; [now rewrite !map_length|].
    cbn [nexp nmul nsub ndiv Rops]. set (e := map (fun g => exp (eta * (g - m))) gains).
    rewrite np_sum_R.
    assert (Hpos : Forall (fun x => 0 < x) e).
    { apply Forall_forall. intros x Hx. apply in_map_iff in Hx. destruct Hx as (g & <- & _). apply exp_pos. }
    assert (Hs : 0 < Rsum e).
    { assert (e <> []) by (unfold e; destruct gains; easy). destruct Hpos as [|x l Hx Hl]; [easy|].
      simpl. assert (0 <= Rsum l); [|lra]. clear - Hl. induction Hl; simpl; lra. }
    split.
    - apply Forall_forall. intros p Hp. apply in_map_iff in Hp. destruct Hp as (x & <- & Hx).
      rewrite Forall_forall in Hpos. specialize (Hpos x Hx).
      apply Rlt_le. apply Rdiv_lt_0_compat; lra.
    - assert (Hd : forall s l, Rsum (map (fun x => x / s) l) = Rsum l / s).
      { intros s l. induction l as [|x l IH]; simpl; [unfold Rdiv; lra|]. rewrite IH. unfold Rdiv. lra. }
      rewrite Hd. field. lra.
  Qed.
  Lemma sub_list_R a : forall b c, sub_list Rops a b = Ok c ->
    length b = length a /\ forall i x y, nth_error a i = Some x -> nth_error b i = Some y -> nth_error c i = Some (x - y).
  Proof.
    induction a as [|x a IH]; intros [|y b] c H; simpl in H; try discriminate.
    - split; [easy|]. intros [|i] u v; discriminate.
    - destruct (sub_list Rops a b) as [d|] eqn:E; [|discriminate]. injection H as <-.
      destruct (IH _ _ E) as [H1 H2]. split; [simpl; congruence|].
      intros [|i] u v Hu Hv; simpl in *; [congruence|]. eauto.
  Qed.
End OptReal.
