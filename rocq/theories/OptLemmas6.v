(** Stored observations have the shape the acquisition function asks for (C20, C26, C62). *)
From Coq Require Import String List ZArith Bool Lia Sorted Permutation.
From Verif Require Import Base Num Values Transformers Dimension Space Optimizer NumLaws BaseLemmas
  SpaceSpec OptSpec OptLemmas OptLemmas2 OptLemmas3 OptLemmas4 OptLemmas5 ArgLemmas.
Import ListNotations.
Open Scope list_scope.
Set Implicit Arguments.

Section Typed.
  Context {N RNG M : Type} (O : numops N) (G : rng_ops N RNG) (W : world N M).
  Notation state := (opt N RNG M).

  Definition shape (ps : bool) (v : yval N) : Prop := match v with YS _ => ps = false | YP _ _ => ps = true end.
  Definition shaped (o : state) : Prop := Forall (shape (ps_of o)) (o_yi o).

  Lemma obs_shape ps y v : observation O ps y v -> shape ps v.
  Proof. now inversion 1. Qed.
  Lemma convert_shape ps x y y' xs ys : convert_y O ps x y = Ok y' -> recorded (targ_of x) y' xs ys -> Forall (shape ps) ys.
  Proof.
    intros Hc Hr.
    assert (One : forall v, (if ps then log_pair O y else scalar y) = Ok v -> Forall (shape ps) [v]).
    { intros v Hv. apply convert_one in Hv. constructor; [|constructor]. eapply obs_shape; eauto. }
    destruct x as [p|pts]; simpl in Hc.
    - apply bind_ok in Hc. destruct Hc as (v & Hv & E). injection E as <-. inversion Hr; subst. auto.
    - destruct y as [w|l|].
      + apply bind_ok in Hc. destruct Hc as (v & Hv & E). injection E as <-. inversion Hr; subst. auto.
      + apply bind_ok in Hc. destruct Hc as (vs & Hv & E). injection E as <-. inversion Hr; subst.
        assert (F : Forall2 (observation O ps) l ys) by (destruct ps; [now apply mapM_log_pair|now apply mapM_scalar]).
        clear - F. induction F; constructor; auto. eapply obs_shape; eauto.
      + apply bind_ok in Hc. destruct Hc as (v & Hv & E). injection E as <-. inversion Hr; subst. auto.
  Qed.
  Lemma shaped_grown (o o' : state) xs ys : grown o xs ys o' -> shaped o -> Forall (shape (ps_of o)) ys -> shaped o'.
  Proof.
    intros (E & _ & _ & _ & H) Ho Hy. unfold shaped, ps_of in *. rewrite E, H. now apply Forall_app.
  Qed.
  Lemma shaped_tell x y fit o : shaped o -> shaped (fst (tell O G W x y fit o)).
  Proof.
    intros Ho. destruct (tell_cases O G W x y fit o) as [[e E]|(y' & xs & ys & _ & _ & Hc & Hr & E)]; rewrite E; [easy|].
    destruct (tell_grows O G W fit o Hr) as [Hg _]. eapply shaped_grown; eauto. eapply convert_shape; eauto.
  Qed.
  Lemma shaped_run f n : forall k o, shaped o -> shaped (fst (run_loop O G W f k n o)).
  Proof.
    induction n as [|n IH]; intros k o Ho; [easy|]. rewrite run_loop_S.
    destruct (ask1_frame O G o) as [g Eg]. destruct (ask1 O G o) as [o1 [p|]]; simpl in Eg; subst o1; [|easy].
    destruct (f k p) as [y|]; [|easy]. assert (Ho1 : shaped (set_rng g o)) by exact Ho.
    pose proof (shaped_tell (X1 p) y true Ho1) as H.
    destruct (tell O G W (X1 p) y true (set_rng g o)) as [o2 [r|]]; [|exact H]. now apply IH.
  Qed.
  Lemma shaped_call c o : shaped o -> shaped (fst (do_call O G W c o)).
  Proof.
    intros Ho. destruct c as [n s|x y fit|f n| |]; cbn [do_call].
    - destruct (ask_frame O G W n s o) as (g & c & E). destruct (ask O G W n s o) as [o1 r]. simpl in *. now subst.
    - pose proof (shaped_tell x y fit Ho) as H. destruct (tell O G W x y fit o); exact H.
    - pose proof (shaped_run f n 0 Ho) as H. unfold run, andthen. destruct (run_loop O G W f 0 n o) as [o1 [u|]]; exact H.
    - exact Ho.
    - destruct (update_next_frame O G W o) as (g & nx & E). destruct (update_next O G W o) as [o1 r]. simpl in *. now subst.
  Qed.
  Lemma reachable_shaped o : reachable O G W o -> shaped o.
  Proof.
    induction 1 as [a g g' o H|c o Hr IH|o g g' o' Hr IH H|g o Hr IH].
    - destruct (make_empty O G W _ _ H) as (_ & _ & E & _). unfold shaped. rewrite E. constructor.
    - now apply shaped_call.
    - destruct (copy_ok _ (reachable_good Hr) H) as (o2 & E1 & _ & _ & _ & _ & E2 & _ & _ & _ & _ & H2).
      assert (S2 : shaped o2) by (unfold shaped; rewrite E2; constructor).
      destruct H2 as [[_ ->]|[_ (r & H2)]]; [exact S2|].
      destruct (tell_grows O G W true o2 (rec_hist (o_Xi o) (o_yi o))) as [Hg _]. rewrite H2 in Hg.
      eapply shaped_grown; [exact Hg|exact S2|]. unfold shaped, ps_of in *. rewrite E1. exact IH.
    - exact IH.
  Qed.
  Lemma shaped_plain o : shaped o -> ps_of o = false -> all_plain (o_yi o).
  Proof.
    unfold shaped, all_plain. intros H E. rewrite E in H. eapply Forall_impl; [|exact H].
    intros [y|y t]; simpl; [eauto|discriminate].
  Qed.

  Lemma mapM_Forall2_ok {A B} (f : A -> res B) l ys : mapM f l = Ok ys -> Forall2 (fun x y => f x = Ok y) l ys.
  Proof.
    revert ys. induction l as [|a l IH]; intros ys H; cbn in H; [injection H as <-; constructor|]. apply bind_ok in H. destruct H as (y & Hy & H).
    apply bind_ok in H. destruct H as (ys' & Hys & H). injection H as <-. constructor; auto.
  Qed.
  Lemma clip_val_clipped (L : order_laws O) b v w : clip_val O b v = Ok w -> clipped O b v w.
  Proof.
    unfold clip_val. destruct (to_num O v) as [x|] eqn:E; [|discriminate]. intros H. injection H as <-. exists x, (nclip O (fst b) (snd b) x).
    split; [easy|]. split; [easy|]. split; [|split]; intros H1 H2.
    - now apply clip_id.
    - unfold nclip. rewrite H1. now rewrite (le_nlt L _ _ H2).
    - unfold nclip. destruct (nltb O x (fst b)) eqn:E1; [|now rewrite H1].
      exfalso. apply (ol_lt L) in E1. apply (ol_lt L) in H1. destruct E1 as (A1 & A2 & A3), H1 as (B1 & B2 & B3).
      destruct (ol_total L _ _ A1 A2) as [Q|Q]; [|congruence]. pose proof (ol_trans L _ _ _ Q H2). congruence.
  Qed.
  Lemma clip_choice (L : order_laws O) (c : bool) b x0 nx : (if c then nx = x0 else clip_row O b x0 = Ok nx) -> if c then nx = x0 else clipped_row O b x0 nx.
  Proof.
    destruct c; [easy|]. unfold clip_row. destruct (Nat.eqb (length b) (length x0)) eqn:E; [|discriminate]. apply Nat.eqb_eq in E. intro H. split; [congruence|].
    apply mapM_Forall2_ok in H. eapply Forall2_weaken; [|exact H]. intros bv w. now apply clip_val_clipped.
  Qed.

  (** C62 *)
  Lemma c62 (L : order_laws O) x y o o' r a : reachable O G W o -> tell O G W x y true o = (o', Ok r) ->
    (c_n0 (o_cfg o') <= Z.of_nat (length (o_yi o')))%Z -> c_est (o_cfg o') <> None ->
    c_lbfgs (o_cfg o') = false -> c_acq (o_cfg o') = AOne a -> ps_of o' = false -> no_nan O (map y_obj (o_yi o')) ->
    exists ms m g P X yopt vals i x0 nx p rest,
      o_models o' = ms ++ [m] /\
      fst (space_rvs O G (c_dims (o_cfg o')) (c_npoints (o_cfg o')) g) = Ok P /\
      space_transform O (c_dims (o_cfg o')) P = Ok X /\
      (In yopt (map y_obj (o_yi o')) /\ forall v, In v (map y_obj (o_yi o')) -> nleb O yopt v = true) /\
      w_acq W a m yopt X = Ok vals /\ nth_error X i = Some x0 /\
      (no_nan O vals -> exists v, nth_error vals i = Some v /\ forall v', In v' vals -> nleb O v v' = true) /\
      (if is_categorical (c_dims (o_cfg o')) then nx = x0
       else clipped_row O (space_tbounds O (c_dims (o_cfg o'))) x0 nx) /\
      space_inverse O (c_dims (o_cfg o')) [nx] = Ok (p :: rest) /\ o_next o' = Some p.
  Proof.
    intros Hr H Hn He Hb Ha Hps Hnn. pose proof (reachable_good Hr) as Hg.
    assert (Hr' : reachable O G W o').
    { pose proof (r_call (CTell x y true) Hr) as Hr'. cbn [do_call] in Hr'. now rewrite H in Hr'. }
    pose proof (shaped_plain (reachable_shaped Hr') Hps) as Hpl.
    assert (He' : has_est o' = true) by (unfold has_est; now destruct (c_est (o_cfg o'))).
    destruct (tell_fitted _ _ Hg H Hn He') as (o1 & E1 & E2 & E3 & E4 & E5 & E6 & E7 & [F]).
    assert (Ec : o_cfg o' = o_cfg o1) by congruence. rewrite Ec in *.
    assert (Hlast : exists ms, o_models o' = ms ++ [f_est F]).
    { pose proof (f_push F) as Hp. unfold pushed in Hp. destruct (c_queue (o_cfg o1)); [|eauto].
      destruct Hp as [[_ Hp]|[_ (m & t & _ & Hp)]]; eauto. }
    destruct Hlast as [ms Hms]. destruct (f_cand F) as (g & P0 & Hrv & Htr).
    pose proof (f_prop F) as Hp. rewrite Ha in Hp. cbn [cand_acqs] in Hp.
    inversion Hp as [|? c1 ? ? Hp0 Hp1]; subst. inversion Hp1; subst.
    pose proof (f_choice F) as Hc. rewrite (f_single F Ha) in Hc.
    assert (Efx : f_xs F = [c1]) by congruence. rewrite Efx in Hc. simpl in Hc. injection Hc as Hc.
    destruct Hp0 as (yopt & x0 & Hy & Hpick & Hclip). rewrite E3 in Hy. rewrite (y_flat_plain Hpl) in Hy.
    unfold pick in Hpick. apply bind_ok in Hpick. destruct Hpick as (vals & Hv & Hpick). rewrite Hb in Hpick.
    destruct (np_argmin O vals) as [i|] eqn:Ei; simpl in Hpick; [|discriminate].
    destruct (nth_error (f_X F) i) as [x1|] eqn:En; [|discriminate]. injection Hpick as ->.
    assert (Hyne : map y_obj (o_yi o') <> []) by (intros Z; rewrite Z in Hy; discriminate).
    destruct (np_min_spec L Hyne Hnn) as (m & Hm1 & Hm2 & Hm3 & _). assert (m = yopt) by congruence. subst m.
    exists ms, (f_est F), g, P0, (f_X F), yopt, vals, i, x0, c1, (f_p F), (f_rest F).
    split; [exact Hms|]. split; [exact Hrv|]. split; [exact Htr|]. split; [auto|]. split; [exact Hv|]. split; [exact En|].
    split.
    { intros Hnv. assert (Hvne : vals <> []) by (intros ->; discriminate).
      destruct (np_min_spec L Hvne Hnv) as (v & Hv1 & Hv2 & Hv3 & _). exists v. split; [|exact Hv3].
      unfold np_min in Hv1. rewrite Ei in Hv1. simpl in Hv1. destruct (nth_error vals i); [|discriminate]. congruence. }
    split; [now apply clip_choice|]. rewrite Hc. split; [apply F|apply F].
  Qed.

  (** C76 *)
  Lemma argsort_firstn (L : order_laws O) vals k : argsort_ok O W -> no_nan O vals ->
    let is := firstn k (w_argsort W vals) in NoDup is /\ length is = Nat.min k (length vals) /\
      forall i j a b, In i is -> ~ In j is -> nth_error vals i = Some a -> nth_error vals j = Some b -> nleb O a b = true.
  Proof.
    intros Ha Hn. destruct (Ha vals Hn) as [P S]. cbv zeta. set (l := w_argsort W vals) in *.
    assert (Nl : NoDup l) by (eapply Permutation_NoDup; [apply Permutation_sym; exact P|apply seq_NoDup]).
    split; [|split].
    - rewrite <- (firstn_skipn k l) in Nl. revert Nl. generalize (skipn k l) as m. clear. induction (firstn k l) as [|x f IH]; intros m H; [constructor|].
      cbn in H. inversion H as [|? ? H1 H2]; subst. constructor; [|now apply (IH m)]. intro Q. apply H1, in_or_app. now left.
    - rewrite firstn_length. apply Permutation_length in P. rewrite seq_length in P. lia.
    - intros i j a b Hi Hj Ea Eb. assert (Hl : In j l).
      { eapply Permutation_in; [apply Permutation_sym; exact P|]. apply in_seq. split; [lia|]. apply nth_error_Some. congruence. }
      rewrite <- (firstn_skipn k l) in Hl, S. apply in_app_or in Hl. destruct Hl as [|Hl]; [easy|].
      clear -S Hi Hl Ea Eb. induction (firstn k l) as [|x m IH]; [easy|]. cbn in S. inversion S as [|? ? S1 S2]; subst. destruct Hi as [->|Hi]; [|auto].
      rewrite Forall_forall in S2. apply (S2 j); [apply in_or_app; now right|easy|easy].
  Qed.
  Lemma c76 (L : order_laws O) x y o o' r a : argsort_ok O W -> reachable O G W o -> tell O G W x y true o = (o', Ok r) ->
    (c_n0 (o_cfg o') <= Z.of_nat (length (o_yi o')))%Z -> c_est (o_cfg o') <> None ->
    c_lbfgs (o_cfg o') = true -> c_acq (o_cfg o') = AOne a -> ps_of o' = false -> no_nan O (map y_obj (o_yi o')) ->
    exists ms m g P X yopt vals is starts ends i x0 nx p rest,
      o_models o' = ms ++ [m] /\
      fst (space_rvs O G (c_dims (o_cfg o')) (c_npoints (o_cfg o')) g) = Ok P /\
      space_transform O (c_dims (o_cfg o')) P = Ok X /\
      (In yopt (map y_obj (o_yi o')) /\ forall v, In v (map y_obj (o_yi o')) -> nleb O yopt v = true) /\
      w_acq W a m yopt X = Ok vals /\
      (no_nan O vals -> NoDup is /\ length is = Nat.min (c_restarts (o_cfg o')) (length vals) /\
        forall i j u v, In i is -> ~ In j is -> nth_error vals i = Some u -> nth_error vals j = Some v -> nleb O u v = true) /\
      Forall2 (fun i s => nth_error X i = Some s) is starts /\
      Forall2 (fun s e => w_lbfgs W a m yopt (space_tbounds O (c_dims (o_cfg o'))) s = Ok e) starts ends /\
      (exists f, nth_error ends i = Some (x0, f) /\ (no_nan O (map snd ends) -> forall e, In e ends -> nleb O f (snd e) = true)) /\
      (if is_categorical (c_dims (o_cfg o')) then nx = x0
       else clipped_row O (space_tbounds O (c_dims (o_cfg o'))) x0 nx) /\
      space_inverse O (c_dims (o_cfg o')) [nx] = Ok (p :: rest) /\ o_next o' = Some p.
  Proof.
    intros Has Hr H Hn He Hb Ha Hps Hnn. pose proof (reachable_good Hr) as Hg.
    assert (Hr' : reachable O G W o').
    { pose proof (r_call (CTell x y true) Hr) as Hr'. cbn [do_call] in Hr'. now rewrite H in Hr'. }
    pose proof (shaped_plain (reachable_shaped Hr') Hps) as Hpl.
    assert (He' : has_est o' = true) by (unfold has_est; now destruct (c_est (o_cfg o'))).
    destruct (tell_fitted _ _ Hg H Hn He') as (o1 & E1 & E2 & E3 & E4 & E5 & E6 & E7 & [F]).
    assert (Ec : o_cfg o' = o_cfg o1) by congruence. rewrite Ec in *.
    assert (Hlast : exists ms, o_models o' = ms ++ [f_est F]).
    { pose proof (f_push F) as Hp. unfold pushed in Hp. destruct (c_queue (o_cfg o1)); [|eauto].
      destruct Hp as [[_ Hp]|[_ (m & t & _ & Hp)]]; eauto. }
    destruct Hlast as [ms Hms]. destruct (f_cand F) as (g & P0 & Hrv & Htr).
    pose proof (f_prop F) as Hp. rewrite Ha in Hp. cbn [cand_acqs] in Hp.
    inversion Hp as [|? c1 ? ? Hp0 Hp1]; subst. inversion Hp1; subst.
    pose proof (f_choice F) as Hc. rewrite (f_single F Ha) in Hc.
    assert (Efx : f_xs F = [c1]) by congruence. rewrite Efx in Hc. simpl in Hc. injection Hc as Hc.
    destruct Hp0 as (yopt & x0 & Hy & Hpick & Hclip). rewrite E3 in Hy. rewrite (y_flat_plain Hpl) in Hy.
    unfold pick in Hpick. apply bind_ok in Hpick. destruct Hpick as (vals & Hv & Hpick). rewrite Hb in Hpick.
    apply bind_ok in Hpick. destruct Hpick as (starts & Hst & Hpick). apply bind_ok in Hpick. destruct Hpick as (ends & Hen & Hpick).
    destruct (np_argmin O (map snd ends)) as [i|] eqn:Ei; simpl in Hpick; [|discriminate].
    destruct (nth_error (map fst ends) i) as [x1|] eqn:En; [|discriminate]. injection Hpick as ->.
    assert (Hyne : map y_obj (o_yi o') <> []) by (intros Z; rewrite Z in Hy; discriminate).
    destruct (np_min_spec L Hyne Hnn) as (m & Hm1 & Hm2 & Hm3 & _). assert (m = yopt) by congruence. subst m.
    exists ms, (f_est F), g, P0, (f_X F), yopt, vals, (firstn (c_restarts (o_cfg o1)) (w_argsort W vals)), starts, ends, i, x0, c1, (f_p F), (f_rest F).
    split; [exact Hms|]. split; [exact Hrv|]. split; [exact Htr|]. split; [auto|]. split; [exact Hv|].
    split; [intro Hnv; now apply argsort_firstn|].
    split; [|split; [|split; [|split; [now apply clip_choice|]]]].
    - apply mapM_Forall2_ok in Hst. eapply Forall2_weaken; [|exact Hst]. intros j s. cbv beta. unfold nth_row. destruct (nth_error (f_X F) j); [|discriminate]. congruence.
    - now apply mapM_Forall2_ok in Hen.
    - rewrite nth_error_map in En. destruct (nth_error ends i) as [[e f]|] eqn:Ee; [|discriminate]. injection En as ->. exists f. split; [easy|].
      intros Hne e He0. assert (Hvne : map snd ends <> []) by (intros Q; rewrite Q in Ei; discriminate).
      destruct (np_min_spec L Hvne Hne) as (v & Hv1 & Hv2 & Hv3 & _). unfold np_min in Hv1. rewrite Ei in Hv1. simpl in Hv1.
      rewrite nth_error_map, Ee in Hv1. injection Hv1 as ->. apply Hv3. now apply in_map.
    - rewrite Hc. split; [apply F|apply F].
  Qed.
End Typed.
