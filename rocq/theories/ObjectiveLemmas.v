From Coq Require Import String List ZArith Bool Lia Reals Lra.
From Verif Require Import Base BaseLemmas LooseLemmas Num Values Transformers Dimension Space NumLaws SpaceSpec CatLemmas SpaceLemmas NormLaws RealLemmas EachLemmas
  ForestSpec Optimizer Plots PlotSpec PlotLemmas DependSpec DependLemmas DependPoints PanelSpec PlotCats Expected Objective.
Import ListNotations.
Open Scope nat_scope.
Open Scope list_scope.
Set Implicit Arguments.

Section Axes.
  Context {N : Type} (O : numops N).
  Notation placed := (placed O).
  Notation axis_value := (axis_value O).
  Lemma axis_nth dims p xs : length p = length dims -> Forall2 (fun dv x => axis_value (fst dv) (snd dv) x) (combine dims p) xs -> forall i x, nth_error xs i = Some x ->
    exists d v, nth_error dims i = Some d /\ nth_error p i = Some v /\ axis_value d v x.
  Proof.
    revert p xs. induction dims as [|d dims IH]; intros [|v p] xs Hl F i x Hx; try discriminate; cbn in F; inversion F; subst; [now destruct i|].
    destruct i; cbn in Hx; [injection Hx as <-; now exists d, v|]. injection Hl as Hl. now apply (IH p l').
  Qed.
  Lemma pair_placed dims i j p xs ab : length p = length dims -> Forall2 (fun dv x => axis_value (fst dv) (snd dv) x) (combine dims p) xs -> pair_at i j xs = Ok ab -> placed dims i j p ab.
  Proof.
    intros Hl F H. unfold pair_at, entry in H. destruct (nth_error xs i) as [a|] eqn:Ea; [|discriminate]. cbn [bind] in H.
    destruct (nth_error xs j) as [b|] eqn:Eb; [|discriminate]. injection H as <-.
    destruct (@axis_nth dims p xs Hl F i a Ea) as (di & vi & A1 & A2 & A3). destruct (@axis_nth dims p xs Hl F j b Eb) as (dj & vj & B1 & B2 & B3).
    exists di, dj, vi, vj. easy.
  Qed.
  Lemma pairs_placed dims i j P xss abs : Forall (in_space O dims) P -> Forall2 (fun p xs => Forall2 (fun dv x => axis_value (fst dv) (snd dv) x) (combine dims p) xs) P xss ->
    mapM (pair_at i j) xss = Ok abs -> Forall2 (placed dims i j) P abs.
  Proof.
    intros HP F. revert abs. induction F as [|p xs P xss H F IH]; intros abs E; cbn [mapM] in E; [injection E as <-; constructor|].
    inversion HP; subst. destruct (pair_at i j xs) as [ab|] eqn:Ep; [|discriminate]. cbn [bind] in E. destruct (mapM _ xss) as [r|]; [|discriminate]. injection E as <-.
    constructor; [|now apply IH]. apply (@pair_placed dims i j p xs ab (in_space_length H2) H Ep).
  Qed.

  Lemma get_from_nth (ds : list (dim N)) k : forall i n d, get_from i ds k = Some (n, d) -> i <= n /\ nth_error ds (n - i) = Some d.
  Proof.
    induction ds as [|d0 ds IH]; intros i n d H; [discriminate|]. cbn [get_from] in H.
    assert (K : Some (i, d0) = Some (n, d) \/ get_from (S i) ds k = Some (n, d)).
    { destruct k as [s|z]; [destruct (dim_name d0) as [s'|]; [destruct (String.eqb s s')|]|destruct (Z.eqb z (Z.of_nat i))]; auto. }
    clear H. destruct K as [H|H].
    - injection H as <- <-. rewrite Nat.sub_diag. now split.
    - apply IH in H. destruct H as [H1 H2]. split; [lia|]. replace (n - i) with (S (n - S i)) by lia. exact H2.
  Qed.
  Lemma get_nth (ds : list (dim N)) k n d : space_get ds k = Some (n, d) -> nth_error ds n = Some d.
  Proof. intro H. apply get_from_nth in H. rewrite Nat.sub_0_r in H. now destruct H. Qed.
  Lemma enumerate_nth {A} (l : list A) n x : In (n, x) (enumerate l) -> nth_error l n = Some x.
  Proof.
    unfold enumerate. assert (Q : forall k, In (n, x) (enumerate_from k l) -> k <= n /\ nth_error l (n - k) = Some x).
    { induction l as [|a l IH]; intros k H; [easy|]. cbn in H. destruct H as [H|H].
      - injection H as <- <-. rewrite Nat.sub_diag. now split.
      - apply IH in H. destruct H as [H1 H2]. split; [lia|]. replace (n - k) with (S (n - S k)) by lia. exact H2. }
    intro H. apply Q in H. rewrite Nat.sub_0_r in H. now destruct H.
  Qed.
  Lemma shown_nth dims keys i a d : nth_error (shown O dims keys) i = Some (Some (a, d)) -> nth_error dims a = Some d.
  Proof.
    intro H. apply nth_error_In in H. destruct keys as [ks|]; cbn [shown] in H.
    - unfold space_get_list in H. apply in_map_iff in H. destruct H as (k & E & _). now apply get_nth in E.
    - apply in_map_iff in H. destruct H as ([n d'] & E & Hin). injection E as -> ->. apply filter_In in Hin. now apply enumerate_nth.
  Qed.
  Lemma nth_lt {A} (l : list A) n x : nth_error l n = Some x -> n < length l.
  Proof. intro H. apply nth_error_Some. congruence. Qed.
  Lemma mapM_at {A B} (f : A -> res B) l ys i x : mapM f l = Ok ys -> nth_error l i = Some x -> exists y, nth_error ys i = Some y /\ f x = Ok y.
  Proof. intros H Hx. apply mapM_each in H. exact (Forall2_nth1 _ H Hx). Qed.

  Lemma filter_enum_length (f : dim N -> bool) l : forall k, length (filter (fun id => f (snd id)) (enumerate_from k l)) = length (filter f l).
  Proof. induction l as [|x l IH]; intro k; [easy|]. cbn. destruct (f x); cbn; now rewrite IH. Qed.
  Lemma shown_length dims keys : length (shown O dims keys) = panels_asked O dims keys.
  Proof. destruct keys as [ks|]; cbn [shown panels_asked]; [apply map_length|]. rewrite map_length. apply (filter_enum_length (fun d => negb (is_constant O d))). Qed.
  Lemma filter_enum (f : dim N -> bool) l : forall k i a d, k <= a -> nth_error (filter (fun id => f (snd id)) (enumerate_from k l)) i = Some (a, d) <->
    nth_error l (a - k) = Some d /\ f d = true /\ length (filter f (firstn (a - k) l)) = i.
  Proof.
    induction l as [|x l IH]; intros k i a d Hk. { cbn. split; [now destruct i|]. intros [H _]. now destruct (a - k). }
    cbn [enumerate_from filter snd]. assert (A : a = k \/ S k <= a) by lia. destruct A as [->|A].
    - rewrite Nat.sub_diag. cbn [firstn filter nth_error length].
      assert (B : forall j, nth_error (filter (fun id => f (snd id)) (enumerate_from (S k) l)) j <> Some (k, d)).
      { intros j H. apply nth_error_In, filter_In in H. destruct H as [H _]. assert (Q : forall l n, In (k, d) (enumerate_from n l) -> n <= k).
        { clear. induction l as [|y l IH]; intros n H; [easy|]. destruct H as [H|H]; [injection H as -> _; easy|]. apply IH in H. lia. }
        apply Q in H. lia. }
      destruct (f x) eqn:Fx.
      + destruct i; cbn [nth_error].
        * split; [intro H; injection H as ->; easy|]. intros (H & _). congruence.
        * split; [intro H; now apply B in H|]. intros (_ & _ & H). discriminate.
      + split; [intro H; now apply B in H|]. intros (H & H' & _). congruence.
    - replace (a - k) with (S (a - S k)) by lia. cbn [firstn filter nth_error]. destruct (f x) eqn:Fx.
      + destruct i; cbn [nth_error length].
        * split; [intro H; injection H as -> _; lia|]. intros (_ & _ & H). discriminate.
        * rewrite IH by easy. split; intros (? & ? & ?); repeat split; auto; lia.
      + rewrite IH by easy. easy.
  Qed.
  Lemma shown_asked dims keys i a d : nth_error (shown O dims keys) i = Some (Some (a, d)) <-> asked O dims keys i a d.
  Proof.
    destruct keys as [ks|]; cbn [shown asked].
    - unfold space_get_list. split.
      + intro H. destruct (nth_error ks i) as [k|] eqn:E.
        * rewrite (map_nth_error _ _ _ E) in H. exists k. split; [easy|congruence].
        * apply nth_error_None in E. assert (Q : nth_error (map (space_get dims) ks) i = None) by (apply nth_error_None; now rewrite map_length). congruence.
      + intros (k & E & H). rewrite (map_nth_error _ _ _ E). now f_equal.
    - pose proof (filter_enum (fun d => negb (is_constant O d)) dims i d (Nat.le_0_l a)) as Q. rewrite Nat.sub_0_r in Q. rewrite negb_true_iff in Q.
      fold (enumerate dims) in Q. rewrite <- Q. clear Q. set (l := filter _ _). split.
      + intro H. destruct (nth_error l i) as [e|] eqn:E; [rewrite (map_nth_error _ _ _ E) in H; congruence|].
        apply nth_error_None in E. assert (Q : nth_error (map Some l) i = None) by (apply nth_error_None; now rewrite map_length). congruence.
      + intro H. now rewrite (map_nth_error _ _ _ H).
  Qed.
End Axes.

Section Objective.
  Notation val := (pyval R).
  Variable predict : list (list val) -> res (list R).
  Notation placed := (placed Rops).
  Notation axis_value := (axis_value Rops).

  Lemma plot_dim dims i d : Forall ideal_dim dims -> nth_error dims i = Some d -> plottable d.
  Proof. intros H Hd. rewrite Forall_forall in H. specialize (H d (nth_error_In _ _ Hd)). destruct d; cbn; auto. Qed.
  Lemma points_2D dims i j di dj P rows n xi yi zi : dims <> [] -> Forall ideal_dim dims -> nth_error dims i = Some di -> nth_error dims j = Some dj -> P <> [] -> Forall (in_space Rops dims) P ->
    space_transform Rops dims P = Ok rows -> partial_dependence_2D Rops predict dims i j rows n = Ok (xi, yi, zi) ->
    exists vx vy, plotted dj n xi vx /\ plotted di n yi vy /\
      Forall2 (fun y zs => Forall2 (fun x z => mean_at predict dims (map (fun p => with_part i y (with_part j x p)) P) z) vx zs) vy zi.
  Proof.
    intros Hne Hi Hdi Hdj Hn HP0 Ht H. destruct (gs_of Hi) as (gs & F). assert (HP : Forall (loose dims) P) by (eapply Forall_impl; [apply loose_in|exact HP0]). rewrite (transform_parts Hne F Hn HP) in Ht. injection Ht as <-.
    assert (S : Forall2 (split_row dims) (map (fun p => concat (parts_of gs p)) P) (map (parts_of gs) P)).
    { clear -F HP. induction HP as [|p P Hp HP IH]; cbn; constructor; [|easy]. now apply parts_split. }
    destruct (@c59_2D predict dims i j di dj _ _ n xi yi zi Hdi Hdj (plot_dim _ Hi Hdi) (plot_dim _ Hi Hdj) S H) as (vx & vy & Px & Py & V).
    exists vx, vy. split; [easy|]. split; [easy|].
    apply plotted_draws in Px; [|exact (Forall_nth_ideal _ Hi Hdj)]. apply plotted_draws in Py; [|exact (Forall_nth_ideal _ Hi Hdi)]. clear H.
    destruct (Forall2_nth1 _ F Hdi) as (gi & Hgi & Hri). destruct (Forall2_nth1 _ F Hdj) as (gj & Hgj & Hrj).
    assert (LEN : length gs = length dims) by (clear -F; induction F; cbn; congruence).
    induction V as [|y zs vy zi Hy V IH]; [constructor|]. inversion Py as [|? ? Iy Py']; subst. constructor; [|exact (IH Py')]. clear IH V.
    induction Hy as [|x z vx zs Hz Hy IH]; [constructor|]. inversion Px as [|? ? Ix Px']; subst. constructor; [|exact (IH Px')]. clear IH Hy.
    destruct Hz as (py & px & p & Wy & Wx & _ & _ & Ep & ->). rewrite (warped_unique Hri Iy Wy), (warped_unique Hrj Ix Wx) in Ep. rewrite map_map in Ep.
    assert (HP' : Forall (loose dims) (map (fun p => with_part i y (with_part j x p)) P)).
    { apply Forall_map. eapply Forall_impl; [|exact HP]. intros q Hq. apply loose_with with di; auto. now apply loose_with with dj. }
    eexists _, p. split; [apply (transform_parts Hne F); [now destruct P|exact HP']|]. split; [|easy]. rewrite map_map. rewrite <- Ep. f_equal. apply map_ext_in.
    intros q Hq. f_equal. rewrite Forall_forall in HP. specialize (HP q Hq). pose proof (loose_length HP) as Lq.
    rewrite (@parts_with gs i gi y (with_part j x q)); [|easy|].
    - f_equal. apply parts_with; [easy|congruence].
    - rewrite (loose_length (@loose_with dims j dj x q Hdj Ix HP)). congruence.
  Qed.

  Context {RNG : Type} (G : rng_ops R RNG).
  Variable below_inf : R -> bool.
  Variable sp : (list R -> res R) -> list val -> list (R * R) -> res (list R * R).
  (** The points averaged over, by the model *)
  Definition sources_by (dims : list (dim R)) (x : list val) (src : min_params (N:=R)) n_samples n_search g2 g3 (P : list (list val)) : Prop :=
    match src with
    | MName "random" => fst (space_rvs Rops G dims n_samples g2) = Ok P
    | s => exists x_eval, evaluate_min_params Rops G predict below_inf sp dims x s n_search g3 = Ok x_eval /\ P = [x_eval]
    end%string.
  Notation sources := sources_by.
  Lemma data_ok dims x x_iters src mn n_samples n_search g1 g2 g3 samples pts m : Forall (wf_dim Rops) dims -> Forall (in_space Rops dims) x_iters ->
    objective_data Rops G predict below_inf sp dims x x_iters src mn n_samples n_search g1 g2 g3 = Ok (samples, pts, m) ->
    exists P x_vals, sources dims x src n_samples n_search g2 g3 P /\ evaluate_min_params Rops G predict below_inf sp dims x mn n_search g1 = Ok x_vals /\
      space_transform Rops dims P = Ok samples /\
      (in_space Rops dims x_vals -> Forall2 (fun p xs => Forall2 (fun dv x => axis_value (fst dv) (snd dv) x) (combine dims p) xs) x_iters pts /\
        Forall2 (fun dv x => axis_value (fst dv) (snd dv) x) (combine dims x_vals) m).
  Proof.
    intros Hw HX H. unfold objective_data in H. destruct (evaluate_min_params _ _ _ _ _ dims x mn _ _) as [x_vals|] eqn:Ev; [|discriminate]. cbn [bind] in H.
    match type of H with (bind ?e _) = _ => destruct e as [s|] eqn:Es; [|discriminate] end. cbn [bind] in H.
    destruct (map_categories Rops dims x_iters x_vals) as [mc|] eqn:Em; [|discriminate]. cbn [bind] in H.
    assert (E1 : s = samples) by congruence. assert (E2 : fst (fst mc) = pts) by congruence. assert (E3 : snd (fst mc) = m) by congruence. subst s. clear H.
    assert (Q : exists P, sources dims x src n_samples n_search g2 g3 P /\ space_transform Rops dims P = Ok samples).
    { unfold sources_by. 
      assert (T : forall s, (x_eval <- evaluate_min_params Rops G predict below_inf sp dims x s n_search g3;; space_transform Rops dims [x_eval]) = Ok samples ->
        exists P, (exists x_eval, evaluate_min_params Rops G predict below_inf sp dims x s n_search g3 = Ok x_eval /\ P = [x_eval]) /\ space_transform Rops dims P = Ok samples).
      { intros s E. destruct (evaluate_min_params _ _ _ _ _ dims x s _ _) as [xe|] eqn:Ee; [|discriminate]. exists [xe]. split; [now exists xe|exact E]. }
      assert (T2 : (P <- fst (space_rvs Rops G dims n_samples g2);; space_transform Rops dims P) = Ok samples -> exists P, fst (space_rvs Rops G dims n_samples g2) = Ok P /\ space_transform Rops dims P = Ok samples).
      { intro E. destruct (fst (space_rvs Rops G dims n_samples g2)) as [P|] eqn:Er; [|discriminate]. now exists P. }
      clear -Es T T2. destruct src as [s| |]; try (now apply T).
      repeat (match type of Es with context [match ?s with EmptyString => _ | String _ _ => _ end] => destruct s | context [match ?b with true => _ | false => _ end] => destruct b | context [match ?a with Ascii.Ascii _ _ _ _ _ _ _ _ => _ end] => destruct a end); try (now apply T); now apply T2. }
    destruct Q as (P & HS & HT). exists P, x_vals. split; [easy|]. split; [easy|]. split; [easy|]. intro Hx.
    destruct (map_categories_ok Hw HX Hx) as (xss & ms & E & A & B). rewrite Em in E. injection E as ->. cbn in E2, E3. subst. now split.
  Qed.

  Lemma ideal_wf d : ideal_dim d -> wf_dim Rops d.
  Proof. destruct d as [r|i|c]; cbn; [now intros []|now intros (_ & H & _)|now intros []]. Qed.
  Lemma ideal_wf_all dims : Forall ideal_dim dims -> Forall (wf_dim Rops) dims.
  Proof. intro H. eapply Forall_impl; [|exact H]. apply ideal_wf. Qed.
  Notation on_axes dims := (fun p xs => Forall2 (fun dv x => axis_value (fst dv) (snd dv) x) (combine dims p) xs).

  Lemma contour_ok dims a b P rows x_iters pts x_vals m show n r ps star : dims <> [] -> Forall ideal_dim dims -> a < length dims -> b < length dims ->
    P <> [] -> Forall (in_space Rops dims) P -> Forall (in_space Rops dims) x_iters -> in_space Rops dims x_vals -> space_transform Rops dims P = Ok rows ->
    Forall2 (on_axes dims) x_iters pts -> on_axes dims x_vals m ->
    partial_dependence_2D Rops predict dims a b rows n = Ok r -> (if show : bool then mapM (pair_at b a) pts else Ok []) = Ok ps -> pair_at b a m = Ok star ->
    contour_of predict dims a b P x_iters x_vals show n (PContour (fst (fst r)) (snd (fst r)) (snd r) ps star).
  Proof.
    intros Hne Hi Ha Hb Hn HP HX Hx Ht Hpts Hm Hr Hps Hstar. destruct r as [[xi yi] zi]. cbn [fst snd].
    destruct (nth_error dims a) as [di|] eqn:Ea; [|apply nth_error_None in Ea; lia]. destruct (nth_error dims b) as [dj|] eqn:Eb; [|apply nth_error_None in Eb; lia].
    destruct (@points_2D dims a b di dj P rows n xi yi zi Hne Hi Ea Eb Hn HP Ht Hr) as (vx & vy & Px & Py & V).
    exists di, dj, xi, yi, zi, ps, star, vx, vy. split; [easy|]. split; [easy|]. split; [easy|]. split; [easy|]. split; [easy|]. split; [exact V|]. split.
    - destruct show; [|congruence]. apply (@pairs_placed R Rops dims b a x_iters pts ps HX Hpts Hps).
    - exact (@pair_placed R Rops dims b a x_vals m star (in_space_length Hx) Hm Hstar).
  Qed.
  Lemma line_ok dims a P rows x_vals m n r v : dims <> [] -> Forall ideal_dim dims -> a < length dims -> P <> [] -> Forall (in_space Rops dims) P -> in_space Rops dims x_vals ->
    space_transform Rops dims P = Ok rows -> on_axes dims x_vals m -> partial_dependence_1D Rops predict dims a rows n = Ok r -> entry m a = Ok v ->
    line_of predict dims a P x_vals n (PLine (fst r) (snd r) v).
  Proof.
    intros Hne Hi Ha Hn HP Hx Ht Hm Hr Hv. destruct r as [xi ys]. cbn [fst snd]. destruct (nth_error dims a) as [d|] eqn:Ea; [|apply nth_error_None in Ea; lia].
    destruct (@c59_points predict dims a d P rows n xi ys Hne Hi Ea Hn HP Ht Hr) as (vals & Pl & F).
    unfold entry in Hv. destruct (nth_error m a) as [w|] eqn:Em; [|discriminate]. injection Hv as ->. destruct (@axis_nth R Rops dims x_vals m (in_space_length Hx) Hm a v Em) as (d' & u & A1 & A2 & A3).
    assert (d' = d) by congruence. subst d'. exists d, xi, ys, v, vals, u. easy.
  Qed.

  Theorem panels dims x x_iters keys src mn n_samples n n_search zscale show g1 g2 g3 grid : dims <> [] -> Forall ideal_dim dims -> Forall (in_space Rops dims) x_iters ->
    plot_objective Rops G predict below_inf sp dims x x_iters keys src mn n_samples n n_search zscale show g1 g2 g3 = Ok grid ->
    exists P x_vals, sources dims x src n_samples n_search g2 g3 P /\ evaluate_min_params Rops G predict below_inf sp dims x mn n_search g1 = Ok x_vals /\
      length grid = length (shown Rops dims keys) /\
      (P <> [] -> Forall (in_space Rops dims) P -> in_space Rops dims x_vals ->
       forall i a d, nth_error (shown Rops dims keys) i = Some (Some (a, d)) -> exists row c, nth_error grid i = Some row /\ length row = S i /\
         nth_error row i = Some c /\ line_of predict dims a P x_vals n c /\
         forall j b d', j < i -> nth_error (shown Rops dims keys) j = Some (Some (b, d')) ->
           exists c, nth_error row j = Some c /\ contour_of predict dims a b P x_iters x_vals show n c).
  Proof.
    intros Hne Hi HX H. unfold plot_objective in H. destruct (objective_data _ _ _ _ _ _ _ _ _ _ _ _ _ _ _) as [[[rows pts] m]|] eqn:E; [|discriminate]. cbn [bind fst snd] in H.
    destruct (_ || _)%bool; [|discriminate]. cbn [bind] in H.
    destruct (@data_ok dims x x_iters src mn n_samples n_search g1 g2 g3 rows pts m (ideal_wf_all Hi) HX E) as (P & x_vals & HS & Hv & Ht & Hmap). exists P, x_vals. split; [easy|]. split; [easy|].
    split; [rewrite (mapM_length _ _ H); apply seq_length|]. intros Hn HP Hx i a d Hs. destruct (Hmap Hx) as [Hpts Hm]. clear E Hmap.
    destruct (mapM_at _ _ i H (nth_seq0 (@nth_lt _ _ _ _ Hs))) as (row & Hrow & Er). cbn beta in Er.
    assert (La : a < length dims) by (eapply nth_lt, shown_nth; exact Hs).
    destruct (mapM_at _ _ i Er (nth_seq0 (Nat.lt_succ_diag_r i))) as (c & Hc & Ec).
    exists row, c. split; [easy|]. split; [rewrite (mapM_length _ _ Er); apply seq_length|]. split; [easy|]. split.
    - unfold objective_panel in Ec. rewrite Hs in Ec. cbn [bind unpack fst] in Ec. rewrite Nat.eqb_refl in Ec.
      destruct (partial_dependence_1D _ _ _ _ _ _) as [r|] eqn:E1; [|discriminate]. cbn [bind] in Ec. destruct (entry m a) as [v|] eqn:E2; [|discriminate]. cbn [bind] in Ec. injection Ec as <-.
      now apply line_ok with rows m.
    - intros j b d' Hj Hs'. assert (Lb : b < length dims) by (eapply nth_lt, shown_nth; exact Hs').
      assert (Hj' : j < S i) by lia. destruct (mapM_at _ _ j Er (nth_seq0 Hj')) as (c' & Hc' & Ec'). exists c'. split; [easy|].
      unfold objective_panel in Ec'. rewrite Hs, Hs' in Ec'. cbn [bind unpack fst] in Ec'. destruct (Nat.eqb i j) eqn:Q; [apply Nat.eqb_eq in Q; lia|].
      destruct (partial_dependence_2D _ _ _ _ _ _ _) as [r|] eqn:E1; [|discriminate]. cbn [bind] in Ec'.
      destruct (if show then mapM (pair_at b a) pts else Ok []) as [ps|] eqn:E2; [|discriminate]. cbn [bind] in Ec'.
      destruct (pair_at b a m) as [star|] eqn:E3; [|discriminate]. cbn [bind] in Ec'. injection Ec' as <-.
      now apply contour_ok with rows pts m.
  Qed.
  Theorem panel_2D dims x x_iters k1 k2 src mn n_samples n n_search g1 g2 g3 c : dims <> [] -> Forall ideal_dim dims -> Forall (in_space Rops dims) x_iters ->
    plot_objective_2D Rops G predict below_inf sp dims x x_iters k1 k2 src mn n_samples n n_search g1 g2 g3 = Ok c ->
    exists P x_vals a d1 b d2, sources dims x src n_samples n_search g2 g3 P /\ evaluate_min_params Rops G predict below_inf sp dims x mn n_search g1 = Ok x_vals /\
      space_get dims k1 = Some (a, d1) /\ space_get dims k2 = Some (b, d2) /\
      (P <> [] -> Forall (in_space Rops dims) P -> in_space Rops dims x_vals -> contour_of predict dims b a P x_iters x_vals true n c).
  Proof.
    intros Hne Hi HX H. unfold plot_objective_2D in H. destruct (objective_data _ _ _ _ _ _ _ _ _ _ _ _ _ _ _) as [[[rows pts] m]|] eqn:E; [|discriminate]. cbn [bind fst snd] in H.
    destruct (@data_ok dims x x_iters src mn n_samples n_search g1 g2 g3 rows pts m (ideal_wf_all Hi) HX E) as (P & x_vals & HS & Hv & Ht & Hmap).
    destruct (space_get dims k1) as [[a d1]|] eqn:E1; [|discriminate]. destruct (space_get dims k2) as [[b d2]|] eqn:E2; [|discriminate]. cbn [bind unpack fst snd] in H.
    exists P, x_vals, a, d1, b, d2. split; [easy|]. split; [easy|]. split; [easy|]. split; [easy|]. intros Hn HP Hx. destruct (Hmap Hx) as [Hpts Hm].
    destruct (mapM (pair_at a b) pts) as [ps|] eqn:E3; [|discriminate]. cbn [bind] in H. destruct (pair_at a b m) as [star|] eqn:E4; [|discriminate]. cbn [bind] in H.
    destruct (partial_dependence_2D _ _ _ _ _ _ _) as [r|] eqn:E5; [|discriminate]. cbn [bind] in H. injection H as <-.
    apply contour_ok with rows pts m; auto; [eapply nth_lt, get_nth; exact E2|eapply nth_lt, get_nth; exact E1].
  Qed.
End Objective.
