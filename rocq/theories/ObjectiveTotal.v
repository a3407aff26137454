From Coq Require Import String List ZArith Bool Lia Reals Lra.
From Verif Require Import Base BaseLemmas LooseLemmas Num Values Transformers Dimension Space NumLaws SpaceSpec CatLemmas SpaceLemmas NormLaws RealLemmas EachLemmas ForestSpec Optimizer Plots
  PlotSpec PlotLemmas DependSpec DependLemmas DependPoints DependTotal SpaceProps2 PlotCats Expected Objective PanelSpec ObjectiveLemmas EvalLemmas.
Import ListNotations.
Open Scope nat_scope.
Open Scope list_scope.
Set Implicit Arguments.

Section Total.
  Notation val := (pyval R).
  Variable predict : list (list val) -> res (list R).
  Hypothesis Hpred : forall rows, rows <> [] -> exists p, predict rows = Ok p /\ p <> [].
  Context {RNG : Type} (G : rng_ops R RNG).
  Variable below_inf : R -> bool.
  Variable sp : (list R -> res R) -> list val -> list (R * R) -> res (list R * R).
  Notation sources := (sources_by predict G below_inf sp).

  Lemma data_total dims x x_iters src mn n_samples n_search g1 g2 g3 P x_vals : dims <> [] -> Forall ideal_dim dims -> Forall (in_space Rops dims) x_iters ->
    sources dims x src n_samples n_search g2 g3 P -> P <> [] -> Forall (in_space Rops dims) P ->
    evaluate_min_params Rops G predict below_inf sp dims x mn n_search g1 = Ok x_vals -> in_space Rops dims x_vals ->
    exists rows pts m, objective_data Rops G predict below_inf sp dims x x_iters src mn n_samples n_search g1 g2 g3 = Ok (rows, pts, m) /\ space_transform Rops dims P = Ok rows /\
      Forall2 (fun p xs => Forall2 (fun dv x => axis_value Rops (fst dv) (snd dv) x) (combine dims p) xs) x_iters pts /\
      Forall2 (fun dv x => axis_value Rops (fst dv) (snd dv) x) (combine dims x_vals) m.
  Proof.
    intros Hne Hi HX HS Hn HP Hv Hx. destruct (map_categories_ok (ideal_wf_all Hi) HX Hx) as (pts & m & Em & Hpts & Hm).
    destruct (@space_roundtrip_R dims P Hne Hi Hn HP) as (rows & Er & _). exists rows, pts, m. split; [|easy].
    unfold objective_data. rewrite Hv. cbn [bind].
    match goal with |- (bind ?e _) = _ => assert (E : e = Ok rows) end; [|rewrite E; cbn [bind]; now rewrite Em].
    unfold sources_by in HS.
    assert (T : forall s, (exists x_eval, evaluate_min_params Rops G predict below_inf sp dims x s n_search g3 = Ok x_eval /\ P = [x_eval]) ->
      (x_eval <- evaluate_min_params Rops G predict below_inf sp dims x s n_search g3;; space_transform Rops dims [x_eval]) = Ok rows).
    { intros s (xe & -> & ->). exact Er. }
    assert (T2 : fst (space_rvs Rops G dims n_samples g2) = Ok P -> (P <- fst (space_rvs Rops G dims n_samples g2);; space_transform Rops dims P) = Ok rows) by (intros ->; exact Er).
    clear -HS T T2. destruct src as [s| |]; try (now apply T). unfold sources_by in HS.
    repeat (match type of HS with context [match ?s with EmptyString => _ | String _ _ => _ end] => destruct s | context [match ?b with true => _ | false => _ end] => destruct b | context [match ?a with Ascii.Ascii _ _ _ _ _ _ _ _ => _ end] => destruct a end); try (now apply T); now apply T2.
  Qed.

  Lemma objective_total dims x x_iters keys src mn n_samples n n_search zscale show g1 g2 g3 P x_vals :
    dims <> [] -> Forall ideal_dim dims -> Forall (in_space Rops dims) x_iters ->
    sources dims x src n_samples n_search g2 g3 P -> P <> [] -> Forall (in_space Rops dims) P ->
    evaluate_min_params Rops G predict below_inf sp dims x mn n_search g1 = Ok x_vals -> in_space Rops dims x_vals ->
    (forall i, i < panels_asked Rops dims keys -> exists a d, asked Rops dims keys i a d) -> 0 < n -> zscale = "linear"%string \/ zscale = "log"%string ->
    exists grid, plot_objective Rops G predict below_inf sp dims x x_iters keys src mn n_samples n n_search zscale show g1 g2 g3 = Ok grid.
  Proof.
    intros Hne Hi HX HS Hn HP Hv Hx Hk Hp Hz. destruct (data_total x src mn n_samples n_search g1 g2 g3 Hne Hi HX HS Hn HP Hv Hx) as (rows & pts & m & E & Er & Hpts & Hm).
    destruct (@points_split dims P rows Hne Hi Hn HP Er) as (Hr & pss & Hss).
    unfold plot_objective. rewrite E. cbn [bind fst snd].
    replace (_ || _)%bool with true by (destruct Hz as [->| ->]; reflexivity). cbn [bind].
    apply mapM_total. intros i Hin. apply mapM_total. intros j Hj. apply in_seq in Hin, Hj.
    assert (K : forall i, i < length (shown Rops dims keys) -> exists a d, nth_error (shown Rops dims keys) i = Some (Some (a, d))).
    { intros i0 H0. rewrite shown_length in H0. destruct (Hk i0 H0) as (a & d & Ha). exists a, d. now apply shown_asked. }
    destruct (K i) as (a & d & Ha); [lia|]. destruct (K j) as (b & d' & Hb); [lia|].
    pose proof (shown_nth _ _ _ _ Ha) as Na. pose proof (shown_nth _ _ _ _ Hb) as Nb.
    unfold objective_panel. rewrite Ha, Hb. cbn [bind unpack fst].
    destruct (@pairs_total R Rops dims a a d d [x_vals] [m]) as (ms & Ems); auto.
    destruct (@pairs_total R Rops dims b a d' d [x_vals] [m]) as (ms' & Ems'); auto.
    cbn [mapM] in Ems, Ems'.
    destruct (Nat.eqb i j).
    - destruct (@total_1D predict Hpred dims a d rows pss n Na) as (r & E1); auto; [exact (Forall_nth_ideal _ Hi Na)|]. rewrite E1. cbn [bind].
      unfold pair_at in Ems. destruct (entry m a) as [v|] eqn:Ev; [|discriminate]. cbn [bind]. eauto.
    - destruct (@total_2D predict Hpred dims a b d d' rows pss n Na Nb) as (r & E1); auto; [exact (Forall_nth_ideal _ Hi Na)|exact (Forall_nth_ideal _ Hi Nb)|]. rewrite E1. cbn [bind].
      destruct (@pairs_total R Rops dims b a d' d x_iters pts HX Hpts Nb Na) as (ps & Eps).
      destruct (pair_at b a m) as [star|] eqn:Est; [|discriminate].
      destruct show; [rewrite Eps|]; cbn [bind]; eauto.
  Qed.
  Theorem objective dims x x_iters keys src mn n_samples n n_search zscale show g1 g2 g3 P x_vals :
    dims <> [] -> Forall ideal_dim dims -> Forall (in_space Rops dims) x_iters ->
    sources dims x src n_samples n_search g2 g3 P -> P <> [] -> Forall (in_space Rops dims) P ->
    evaluate_min_params Rops G predict below_inf sp dims x mn n_search g1 = Ok x_vals -> in_space Rops dims x_vals ->
    (forall i, i < panels_asked Rops dims keys -> exists a d, asked Rops dims keys i a d) -> 0 < n -> zscale = "linear"%string \/ zscale = "log"%string ->
    exists grid, plot_objective Rops G predict below_inf sp dims x x_iters keys src mn n_samples n n_search zscale show g1 g2 g3 = Ok grid /\
      length grid = panels_asked Rops dims keys /\
      forall i a d, asked Rops dims keys i a d -> exists row c, nth_error grid i = Some row /\ length row = S i /\
         nth_error row i = Some c /\ line_of predict dims a P x_vals n c /\
         forall j b d', j < i -> asked Rops dims keys j b d' ->
           exists c, nth_error row j = Some c /\ contour_of predict dims a b P x_iters x_vals show n c.
  Proof.
    intros Hne Hi HX HS Hn HP Hv Hx Hk Hp Hz. destruct (@objective_total dims x x_iters keys src mn n_samples n n_search zscale show g1 g2 g3 P x_vals Hne Hi HX HS Hn HP Hv Hx Hk Hp Hz) as (grid & E). exists grid. split; [easy|].
    destruct (@panels predict _ G below_inf sp dims x x_iters keys src mn n_samples n n_search zscale show g1 g2 g3 grid Hne Hi HX E) as (P' & x_vals' & HS' & Hv' & L & H). assert (x_vals' = x_vals) by congruence. subst x_vals'.
    assert (P' = P). { clear -HS HS'. unfold sources_by in *. destruct src as [s| |].
      2,3: destruct HS as (u & E1 & ->), HS' as (u' & E2 & ->); congruence.
      repeat (match type of HS with context [match ?s with EmptyString => _ | String _ _ => _ end] => destruct s | context [match ?b with true => _ | false => _ end] => destruct b | context [match ?a with Ascii.Ascii _ _ _ _ _ _ _ _ => _ end] => destruct a end);
        try (destruct HS as (u & E1 & ->), HS' as (u' & E2 & ->); congruence); congruence. }
    subst P'. split; [now rewrite L, shown_length|]. intros i a d Ha. apply shown_asked in Ha. destruct (H Hn HP Hx i a d Ha) as (row & c & A & B & C & D & F). exists row, c.
    split; [easy|]. split; [easy|]. split; [easy|]. split; [easy|]. intros j b d' Hj Hb. apply (F j b d' Hj). now apply shown_asked.
  Qed.
End Total.

Section Kinds.
  Context {N : Type} (O : numops N).
  Lemma asked_every dims i : i < panels_asked O dims None -> exists a d, asked O dims None i a d.
  Proof.
    intro H. destruct (nth_error (shown O dims None) i) as [e|] eqn:E; [|apply nth_error_None in E; rewrite shown_length in E; lia].
    assert (Q : exists p, e = Some p). { cbn [shown] in E. apply nth_error_In, in_map_iff in E. destruct E as (p & <- & _). now exists p. }
    destruct Q as ([a d] & ->). exists a, d. now apply shown_asked.
  Qed.
  Lemma filter_all {A} (f : A -> bool) l : Forall (fun x => f x = true) l -> filter f l = l.
  Proof. induction 1 as [|x l H F IH]; [easy|]. cbn. now rewrite H, IH. Qed.
  Lemma evaluations_all dims x x_iters nbins : Forall (wf_dim O) dims -> Forall (fun d => is_constant O d = false) dims -> in_space O dims x -> Forall (in_space O dims) x_iters ->
    exists grid, plot_evaluations O dims x x_iters None nbins = Ok grid /\ length grid = length dims /\
      forall i d, nth_error dims i = Some d -> exists row c, nth_error grid i = Some row /\ length row = S i /\
         nth_error row i = Some c /\ hist_of O i d x_iters nbins c /\
         forall j, j < i -> exists ps star, nth_error row j = Some (EScatter ps star) /\ Forall2 (placed O dims j i) x_iters ps /\ placed O dims j i x star.
  Proof.
    intros Hw Hc Hx HX.
    assert (F : forall l, Forall (fun d => is_constant O d = false) l -> filter (fun d => negb (is_constant O d)) l = l) by (intros l H; apply filter_all; eapply Forall_impl; [|exact H]; cbn; intros d ->; easy).
    assert (A : forall i a d, asked O dims None i a d <-> nth_error dims i = Some d /\ a = i).
    { intros i a d. cbn [asked]. assert (Fa : Forall (fun d => is_constant O d = false) (firstn a dims)). { apply Forall_forall. intros y Hy. rewrite Forall_forall in Hc. apply Hc. rewrite <- (firstn_skipn a dims). apply in_or_app. now left. }
      rewrite (F _ Fa). split.
      - intros (H & _ & L). rewrite firstn_length_le in L by (apply nth_lt in H; lia). now subst.
      - intros [H ->]. split; [easy|]. split; [rewrite Forall_forall in Hc; apply Hc; now apply nth_error_In in H|]. apply firstn_length_le. apply nth_lt in H. lia. }
    assert (L : panels_asked O dims None = length dims) by (cbn; now rewrite (F _ Hc)).
    destruct (@evaluations N O dims x x_iters None nbins Hw Hx HX) as (grid & E & Lg & H).
    { intros i e He. assert (Li : i < panels_asked O dims None) by (rewrite <- shown_length; now apply nth_lt in He). destruct (asked_every dims Li) as (a & d & Ha). pose proof Ha as Ha'. apply shown_asked in Ha. apply A in Ha'. destruct Ha' as [H1 ->].
      exists i, d, d. split; [congruence|easy]. }
    exists grid. split; [easy|]. split; [now rewrite Lg, shown_length|]. intros i d Hd. assert (Hs : asked O dims None i i d) by now apply A. apply shown_asked in Hs.
    destruct (H i i d Hs) as (row & c & H1 & H2 & H3 & H4 & H5). exists row, c. split; [easy|]. split; [easy|]. split; [easy|]. split; [easy|]. intros j Hj.
    destruct (nth_error dims j) as [d'|] eqn:Ej; [|apply nth_error_None in Ej; apply nth_lt in Hd; lia]. assert (Hs' : asked O dims None j j d') by now apply A. apply shown_asked in Hs'. exact (H5 j j d' Hj Hs').
  Qed.
End Kinds.
