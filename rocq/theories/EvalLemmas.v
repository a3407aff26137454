From Coq Require Import String List ZArith Bool Lia.
From Verif Require Import Base BaseLemmas Num Values Transformers Dimension Space NumLaws SpaceSpec CatLemmas SpaceLemmas EachLemmas
  Optimizer Plots PlotLemmas DependLemmas Expected Objective PanelSpec PlotCats ObjectiveLemmas.
Import ListNotations.
Open Scope nat_scope.
Open Scope list_scope.
Set Implicit Arguments.

Section Evaluations.
  Context {N : Type} (O : numops N).
  Notation val := (pyval N).
  Notation axis_value := (axis_value O).

  Lemma bins_num (d : dim N) nbins : is_cat d = false -> exists lo hi, dim_bounds O d = Some (lo, hi) /\ bins_of O d nbins (if is_log d then BLog lo hi nbins else BNumber nbins) (Some (lo, hi)).
  Proof. destruct d as [r|i|c]; cbn; [destruct (r_prior r)|destruct (i_prior i)|discriminate]; intros _; cbn; eauto. Qed.
  Lemma column_ok dims a d x_iters pts : Forall (in_space O dims) x_iters -> Forall2 (fun p xs => Forall2 (fun dv x => axis_value (fst dv) (snd dv) x) (combine dims p) xs) x_iters pts ->
    nth_error dims a = Some d ->
    exists col, mapM (fun r : list N => match nth_error r a with Some v => Ok v | None => Raise IndexError end) pts = Ok col /\
      Forall2 (fun p x => exists v, nth_error p a = Some v /\ axis_value d v x) x_iters col.
  Proof.
    intros HX F Hd. induction F as [|p xs x_iters pts H F IH]; [now exists []|]. inversion HX as [|? ? Hp HX']; subst. destruct (IH HX') as (col & E & C).
    assert (La : a < length xs). { rewrite (Forall2_len H), combine_length, (in_space_length Hp), Nat.min_id. apply nth_error_Some. congruence. }
    destruct (nth_error xs a) as [x|] eqn:Ex; [|apply nth_error_None in Ex; lia]. destruct (@axis_nth N O dims p xs (in_space_length Hp) H a x Ex) as (d' & v & A1 & A2 & A3).
    assert (d' = d) by congruence. subst d'. exists (x :: col). cbn [mapM]. rewrite Ex. cbn [bind]. rewrite E. split; [easy|]. constructor; [now exists v|easy].
  Qed.
  Lemma pairs_total dims a b di dj x_iters pts : Forall (in_space O dims) x_iters -> Forall2 (fun p xs => Forall2 (fun dv x => axis_value (fst dv) (snd dv) x) (combine dims p) xs) x_iters pts ->
    nth_error dims a = Some di -> nth_error dims b = Some dj -> exists ps, mapM (pair_at a b) pts = Ok ps.
  Proof.
    intros HX F Ha Hb. apply mapM_total. intros xs Hx. assert (L : length xs = length dims).
    { clear -F HX Hx. induction F as [|p ys x_iters pts H F IH]; [easy|]. inversion HX as [|? ? Hp HX']; subst. destruct Hx as [->|Hx]; [|auto]. now rewrite (Forall2_len H), combine_length, (in_space_length Hp), Nat.min_id. }
    unfold pair_at, entry. destruct (nth_error xs a) eqn:E1; [|apply nth_error_None in E1; apply nth_lt in Ha; lia]. cbn [bind].
    destruct (nth_error xs b) eqn:E2; [|apply nth_error_None in E2; apply nth_lt in Hb; lia]. cbn [bind]. eauto.
  Qed.

  (** The diagonal is right when the kind at position [i] of the space is that of the dimension shown there. *)
  Lemma diagonal_ok dims keys i a d x_iters pts nbins : Forall (in_space O dims) x_iters ->
    Forall2 (fun p xs => Forall2 (fun dv x => axis_value (fst dv) (snd dv) x) (combine dims p) xs) x_iters pts ->
    nth_error (shown O dims keys) i = Some (Some (a, d)) -> (exists d', nth_error dims i = Some d' /\ is_cat d' = is_cat d) ->
    exists r, diagonal O dims (shown O dims keys) pts nbins i = Ok r /\ hist_of O a d x_iters nbins (EHist (fst (fst r)) (snd (fst r)) (snd r)).
  Proof.
    intros HX F Hs (d' & Hd' & Hk). destruct (column_ok _ HX F (shown_nth _ _ _ _ Hs)) as (col & E & C).
    unfold diagonal. rewrite Hs. rewrite (map_nth_error _ _ _ Hd'), Hk. destruct (is_cat d) eqn:Ec.
    - destruct d as [r|z|c]; try discriminate. cbn [bind]. rewrite E. cbn [bind]. eexists. split; [reflexivity|]. cbn [fst snd]. eexists _, _, _. split; [reflexivity|]. easy.
    - destruct (bins_num d nbins Ec) as (lo & hi & Eb & B). rewrite Eb. cbn [bind]. rewrite E. cbn [bind].
      destruct d as [r|z|c]; [| |discriminate]; cbn [bind]; eexists; (split; [reflexivity|]); cbn [fst snd]; (eexists _, _, _; split; [reflexivity|]); (split; [|exact C]); exact B.
  Qed.

  Lemma evaluations dims x x_iters keys nbins : Forall (wf_dim O) dims -> in_space O dims x -> Forall (in_space O dims) x_iters ->
    (forall i e, nth_error (shown O dims keys) i = Some e -> exists a d d', e = Some (a, d) /\ nth_error dims i = Some d' /\ is_cat d' = is_cat d) ->
    exists grid, plot_evaluations O dims x x_iters keys nbins = Ok grid /\ length grid = length (shown O dims keys) /\
      forall i a d, nth_error (shown O dims keys) i = Some (Some (a, d)) -> exists row c, nth_error grid i = Some row /\ length row = S i /\
         nth_error row i = Some c /\ hist_of O a d x_iters nbins c /\
         forall j b d', j < i -> nth_error (shown O dims keys) j = Some (Some (b, d')) ->
           exists ps star, nth_error row j = Some (EScatter ps star) /\ Forall2 (placed O dims b a) x_iters ps /\ placed O dims b a x star.
  Proof.
    intros Hw Hx HX Hk. destruct (map_categories_ok Hw HX Hx) as (pts & m & E & Hpts & Hm). unfold plot_evaluations. rewrite E. cbn [bind fst snd].
    set (S0 := shown O dims keys) in *.
    assert (P : forall i j e1, nth_error S0 i = Some e1 -> j <= i -> exists c, evaluations_panel O dims S0 pts m nbins i j = Ok c /\
      forall a d, e1 = Some (a, d) -> (i = j -> hist_of O a d x_iters nbins c) /\
        (forall b d', i <> j -> nth_error S0 j = Some (Some (b, d')) -> exists ps star, c = EScatter ps star /\ Forall2 (placed O dims b a) x_iters ps /\ placed O dims b a x star)).
    { intros i j e1 He Hj. destruct (Hk i e1 He) as (a & d & d' & -> & Hd' & Hc). unfold evaluations_panel. destruct (Nat.eqb i j) eqn:Q.
      - apply Nat.eqb_eq in Q. subst j. destruct (@diagonal_ok dims keys i a d x_iters pts nbins HX Hpts He) as (r & Er & Hr); [now exists d'|]. fold S0 in Er. rewrite Er. cbn [bind].
        eexists. split; [reflexivity|]. intros a0 d0 Q. injection Q as <- <-. split; easy.
      - apply Nat.eqb_neq in Q. rewrite He. destruct (nth_error S0 j) as [e2|] eqn:Ej; [|apply nth_error_None in Ej; apply nth_lt in He; lia].
        destruct (Hk j e2 Ej) as (b & d2 & d2' & -> & Hd2' & Hc2). cbn [bind unpack fst].
        pose proof (shown_nth _ _ _ _ He) as Ha. pose proof (shown_nth _ _ _ _ Ej) as Hb.
        destruct (pairs_total _ _ HX Hpts Hb Ha) as (ps & Eps). rewrite Eps. cbn [bind].
        destruct (@pairs_total dims b a d2 d [x] [m]) as (ms & Ems); auto. cbn [mapM] in Ems. destruct (pair_at b a m) as [star|] eqn:Est; [|discriminate]. cbn [bind].
        eexists. split; [reflexivity|]. intros a0 d0 Q'. injection Q' as <- <-. split; [easy|]. intros b0 d0 _ Q'. injection Q' as <- <-. exists ps, star. split; [easy|]. split.
        + exact (@pairs_placed N O dims b a x_iters pts ps HX Hpts Eps).
        + exact (@pair_placed N O dims b a x m star (in_space_length Hx) Hm Est). }
    assert (T : exists grid, mapM (fun i => mapM (evaluations_panel O dims S0 pts m nbins i) (seq 0 (S i))) (seq 0 (length S0)) = Ok grid).
    { apply mapM_total. intros i Hi. apply mapM_total. intros j Hj. apply in_seq in Hi, Hj. destruct (nth_error S0 i) as [e|] eqn:Ee; [|apply nth_error_None in Ee; lia].
      destruct (P i j e Ee) as (c & Ec & _); [lia|]. now exists c. }
    destruct T as (grid & Eg). exists grid. split; [easy|]. split; [rewrite (mapM_length _ _ Eg); apply seq_length|]. intros i a d Hs.
    destruct (mapM_at _ _ i Eg (nth_seq0 (@nth_lt _ _ _ _ Hs))) as (row & Hrow & Er). cbn beta in Er.
    destruct (mapM_at _ _ i Er (nth_seq0 (Nat.lt_succ_diag_r i))) as (c & Hc & Ec). exists row, c. split; [easy|]. split; [rewrite (mapM_length _ _ Er); apply seq_length|]. split; [easy|].
    split.
    - destruct (P i i _ Hs) as (c' & Ec' & Hp); [lia|]. destruct (Hp a d eq_refl) as [H _]. assert (c' = c) by congruence. subst. now apply H.
    - intros j b d' Hj Hs'. assert (Hj' : j < S i) by lia. destruct (mapM_at _ _ j Er (nth_seq0 Hj')) as (c2 & Hc2 & Ec2).
      destruct (P i j _ Hs) as (c' & Ec' & Hp); [lia|]. destruct (Hp a d eq_refl) as [_ H]. assert (c' = c2) by congruence. subst. destruct (H b d') as (ps & star & -> & A & B); [lia|easy|]. now exists ps, star.
  Qed.

  Lemma histogram dims x_iters k i d nbins : Forall (wf_dim O) dims -> Forall (in_space O dims) x_iters -> space_get dims k = Some (i, d) ->
    exists h samples, plot_histogram O dims x_iters k nbins = Ok h /\ Forall2 (fun p v => nth_error p i = Some v) x_iters samples /\ bars_of O d samples nbins h.
  Proof.
    intros Hw HX Hg. pose proof (get_nth _ _ Hg) as Hd. unfold plot_histogram. rewrite Hg.
    assert (Q : exists samples, mapM (coordinate i) x_iters = Ok samples /\ Forall2 (fun p v => nth_error p i = Some v) x_iters samples /\ Forall (in_dim O d) samples).
    { induction HX as [|p x_iters Hp HX (samples & E & F & I)]; [now exists []|]. destruct (nth_error p i) as [v|] eqn:Ev.
      2:{ apply nth_error_None in Ev. rewrite (in_space_length Hp) in Ev. apply nth_lt in Hd. lia. }
      exists (v :: samples). cbn [mapM]. unfold coordinate at 1. rewrite Ev. cbn [bind]. rewrite E. split; [easy|]. split; [now constructor|]. constructor; [|easy].
      clear -Hd Hp Ev. revert i Hd Ev. induction Hp as [|d0 v0 dims p H Hp IH]; intros [|i] Hd Ev; cbn in Hd, Ev; try discriminate; [congruence|eauto]. }
    destruct Q as (samples & E & F & I). rewrite E. cbn [bind]. destruct (is_cat d) eqn:Ec.
    - destruct d as [r|z|c]; try discriminate. eexists _, samples. split; [reflexivity|]. split; [easy|]. cbn [bars_of].
      assert (Hdis : distinct O (c_cats c)). { rewrite Forall_forall in Hw. specialize (Hw _ (nth_error_In _ _ Hd)). now destruct Hw as (_ & _ & H). }
      assert (Hin : incl samples (c_cats c)). { intros v Hv. rewrite Forall_forall in I. specialize (I v Hv). now inversion I. }
      pose proof (counter_tally Hdis Hin) as T. split; [easy|]. split; [now rewrite !map_length|].
      assert (Ecomb : combine (map fst (counter O samples)) (map snd (counter O samples)) = counter O samples) by (clear; induction (counter O samples) as [|[a b] l IH]; cbn; congruence).
      rewrite Ecomb. split; [exact T|]. eapply tally_sum; eassumption.
    - destruct (bins_num d nbins Ec) as (lo & hi & Eb & B). exists (HHist samples (if is_log d then BLog lo hi nbins else BNumber nbins) (Some (lo, hi))), samples. rewrite Eb.
      split; [now destruct d|]. split; [easy|]. easy.
  Qed.
End Evaluations.
