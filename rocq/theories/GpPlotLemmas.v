From Coq Require Import String List ZArith Bool Lia Reals Lra.
From Verif Require Import Base BaseLemmas Num Values Transformers Dimension Space NumLaws SpaceSpec CatLemmas SpaceLemmas RealLemmas LooseLemmas EachLemmas ForestSpec
  Optimizer OptSpec ArgLemmas OptLemmas5 OptBatch Minimize MinSpec CbSpec Plots PlotSpec PlotLemmas DependSpec DependLemmas DependPoints DependTotal FitSpec FitLemmas GpPlot GpPlotSpec.
Import ListNotations.
Open Scope nat_scope.
Open Scope list_scope.
Set Implicit Arguments.

Section Any.
  Context {N RNG M KW : Type} (O : numops N) (v_predict : M -> list (list (pyval N)) -> res (list N * list N))
    (v_acq : acq1 -> option KW -> M -> N -> list (list (pyval N)) -> res (list N)).
  Notation result := (result N RNG M).

  Lemma rmap_ok {A B} (f : A -> B) r b : rmap f r = Ok b -> exists a, r = Ok a /\ b = f a.
  Proof. destruct r; [|discriminate]. cbn. intros H. injection H as <-. eauto. Qed.
  Lemma if_shown_ok {A} b (r : res A) o : if_shown b r = Ok o -> if b then exists a, r = Ok a /\ o = Some a else o = None.
  Proof. destruct b; cbn; [apply rmap_ok|congruence]. Qed.
  Lemma draw_ok (x : list (pyval N)) y p : draw x y = Ok p -> p = mkPath x y /\ length x = length y.
  Proof. unfold draw. destruct (Nat.eqb _ _) eqn:E; [|discriminate]. apply Nat.eqb_eq in E. intros H. now injection H as <-. Qed.
  Lemma band_ok (x : list (pyval N)) y lo hi b : draw_band x y lo hi = Ok b ->
    b = mkBanded (mkPath x y) (mkPath (x ++ rev x) (lo ++ rev hi)) /\ length x = length y /\ length (x ++ rev x) = length (lo ++ rev hi).
  Proof.
    unfold draw_band. intros H. apply bind_ok in H. destruct H as (l & Hl & H). apply bind_ok in H. destruct H as (b' & Hb & H). injection H as <-.
    apply draw_ok in Hl. apply draw_ok in Hb. destruct Hl as [-> Hl], Hb as [-> Hb]. auto.
  Qed.

  (** The model, the points and the values a plot is about. *)
  Definition n_random_of (r : result) (sp : specs KW) : Z :=
    match sp_random sp with Some n => n | None => (Z.of_nat (length (res_x_iters r)) - Z.of_nat (length (res_models r)))%Z end.
  Record parts (r : result) (sp : specs KW) (a : gp_args N) (pic : picture N) := {
    q_d : dim N; q_x : list (pyval N); q_a : arr (pyval N); q_m : M; q_cx : list (xarg N); q_cy : list N;
    q_space : res_space r = [q_d];
    q_even : evenly_sample O q_d (gp_points a) = Ok (q_x, q_a);
    q_current : current r (n_random_of r sp) (gp_calls a) = Ok (q_m, q_cx, q_cy);
    q_true : match gp_objective a with
             | None => pic_true pic = None
             | Some f => exists fx b, mapM f q_x = Ok fx /\ pic_true pic = Some b /\
                 draw_band q_x fx (map (fun y => nsub O y (nmul O (z96 O) (gp_noise a))) fx) (map (fun y => nadd O y (nmul O (z96 O) (gp_noise a))) fx) = Ok b
             end;
    q_mu : if gp_mu a then exists p b, v_predict q_m (x_model O q_a) = Ok p /\ pic_mu pic = Some b /\
             draw_band q_x (fst p) (zip_with (nsub O) (fst p) (map (nmul O (z96 O)) (snd p))) (zip_with (nadd O) (fst p) (map (nmul O (z96 O)) (snd p))) = Ok b
           else pic_mu pic = None;
    q_obs : pic_obs pic = if gp_obs a then Some (q_cx, q_cy) else None;
    q_acq : if gp_acq a then exists y_opt k values nx na, np_min O q_cy = Ok y_opt /\ name_acq (sp_acq sp) = Ok k /\
                v_acq k (sp_kwargs sp) q_m y_opt (x_model O q_a) = Ok values /\ length q_x = length values /\
                nth_of q_x (np_argmin O values) = Ok nx /\ nth_of values (np_argmin O values) = Ok na /\
                pic_acq pic = Some (mkPath q_x (map (fun v => nsub O (nofZ O 0) v) values)) /\
                pic_next pic = if gp_next a then Some (nx, nsub O (nofZ O 0) na) else None
            else pic_acq pic = None /\ pic_next pic = None }.
  Lemma plot_parts r sp a pic : plot_gaussian_process O v_predict v_acq r sp a = Ok pic -> exists s, sp = Some s /\ inhabited (parts r s a pic).
  Proof.
    unfold plot_gaussian_process. destruct (res_space r) as [|d [|]] eqn:Ed; try discriminate. intros H.
    apply bind_ok in H. destruct H as ([x ar] & He & H). cbn [fst snd] in H. destruct sp as [sp|]; [|discriminate]. fold (n_random_of r sp) in H.
    apply bind_ok in H. destruct H as (fx & Hfx & H). apply bind_ok in H. destruct H as ([[m cx] cy] & Hc & H).
    apply bind_ok in H. destruct H as (tr & Htr & H). apply bind_ok in H. destruct H as (mu & Hmu & H). apply bind_ok in H. destruct H as (ac & Hac & H).
    apply bind_ok in H. destruct H as ([] & _ & H). injection H as <-. exists sp. split; [easy|]. constructor.
    apply (@Build_parts r sp a _ d x ar m cx cy); auto; cbn [pic_true pic_mu pic_obs pic_acq pic_next].
    - destruct (gp_objective a) as [f|]; [|injection Hfx as <-; now injection Htr as <-].
      apply rmap_ok in Hfx. destruct Hfx as (l & Hl & ->). apply rmap_ok in Htr. destruct Htr as (b & Hb & ->). eauto.
    - apply if_shown_ok in Hmu. destruct (gp_mu a); [|easy]. destruct Hmu as (b & Hb & ->). apply bind_ok in Hb. destruct Hb as (p & Hp & Hb). eauto.
    - apply if_shown_ok in Hac. destruct (gp_acq a); [|subst; cbn; now destruct (gp_next a)].
      destruct Hac as ([l q] & Hb & ->). apply bind_ok in Hb. destruct Hb as (yo & H1 & Hb). apply bind_ok in Hb. destruct Hb as (k & H2 & Hb).
      apply bind_ok in Hb. destruct Hb as (vs & H3 & Hb). apply bind_ok in Hb. destruct Hb as (nx & H4 & Hb). apply bind_ok in Hb. destruct Hb as (na & H5 & Hb).
      cbv zeta in Hb. apply bind_ok in Hb. destruct Hb as (l' & H6 & Hb). injection Hb as <- <-. apply draw_ok in H6. destruct H6 as [-> H6]. rewrite map_length in H6.
      exists yo, k, vs, nx, na. cbn [option_map fst snd]. auto 10.
  Qed.

  Lemma prefix_nat {A} (l : list A) (n : nat) : py_prefix l (Z.of_nat n) = firstn n l.
  Proof. unfold py_prefix. destruct (Z.ltb_spec (Z.of_nat n) 0); [lia|]. now rewrite Nat2Z.id. Qed.
  Lemma current_model r nr c m cx cy : current r nr c = Ok (m, cx, cy) -> model_of (r : result) c m.
  Proof.
    unfold current, model_of. destruct (c <? 0)%Z eqn:E.
    - unfold py_index. cbn. destruct (0 <=? Z.of_nat (length (res_models r)) + -1)%Z eqn:E1; [|discriminate].
      destruct (nth_error _ _) as [m'|] eqn:E2; [|discriminate]. intros H. injection H as <- _ _. apply Z.leb_le in E1.
      destruct (@exists_last _ (res_models r)) as (ms & x & Em); [intros Q; rewrite Q in E2; destruct (Z.to_nat _); discriminate|].
      exists ms. rewrite Em in *. rewrite app_length in *. cbn in *. rewrite nth_error_app2 in E2 by lia.
      replace (Z.to_nat (Z.of_nat (length ms + 1) + -1) - length ms) with 0 in E2 by lia. injection E2 as ->. reflexivity.
    - unfold py_index. destruct (0 <=? c)%Z eqn:E1; [|apply Z.leb_gt in E1; apply Z.ltb_ge in E; lia].
      destruct (nth_error _ _) as [m'|]; [|discriminate]. intros H. now injection H as <- _ _.
  Qed.
End Any.

Lemma current_subject {N RNG M KW} (r : result N RNG M) (s : specs KW) c m cx cy : (0 <= before r s)%Z -> current r (n_random_of r s) c = Ok (m, cx, cy) -> subject r s c m cx cy.
Proof.
  intros Hb H. split; [exact (current_model _ _ _ H)|]. unfold current in H. destruct (c <? 0)%Z eqn:E.
  - destruct (py_index _ _); [|discriminate]. now injection H as _ <- <-.
  - destruct (py_index _ _); [|discriminate]. injection H as _ <- <-. apply Z.ltb_ge in E. fold (before r s) in *. unfold n_random_of. fold (before r s).
    rewrite <- (Z2Nat.id (before r s + c)) by lia. rewrite !prefix_nat. now rewrite Nat2Z.id.
Qed.
Lemma subject_current {N RNG M KW} (r : result N RNG M) (s : specs KW) c m cx cy : (0 <= before r s)%Z -> subject r s c m cx cy -> current r (n_random_of r s) c = Ok (m, cx, cy).
Proof.
  intros Hb [Hm H]. unfold current, model_of in *. destruct (c <? 0)%Z eqn:E.
  - destruct Hm as (ms & Em). destruct H as [-> ->]. unfold py_index. cbn [Z.leb Z.compare Z.ltb]. rewrite Em, app_length. cbn [length].
    destruct (0 <=? Z.of_nat (length ms + 1) + -1)%Z eqn:E1; [|apply Z.leb_gt in E1; lia]. rewrite nth_error_app2 by lia.
    replace (Z.to_nat (Z.of_nat (length ms + 1) + -1) - length ms) with 0 by lia. reflexivity.
  - apply Z.ltb_ge in E. destruct H as [-> ->]. unfold py_index. destruct (0 <=? c)%Z eqn:E1; [|apply Z.leb_gt in E1; lia]. rewrite Hm.
    unfold n_random_of. fold (before r s). rewrite <- (Z2Nat.id (before r s + c)) by lia. rewrite !prefix_nat. now rewrite Nat2Z.id.
Qed.

Section Fits.
  Context {N RNG M KW : Type} (O : numops N) (G : rng_ops N RNG) (W : world N M) (v_predict : M -> list (list (pyval N)) -> res (list N * list N))
    (v_acq : acq1 -> option KW -> M -> N -> list (list (pyval N)) -> res (list N)).

  Lemma run_before m f a g t o' r : minimize O G W m f a g = (t, o', Ok (Some r)) -> m <> MDummy ->
    a_est (m_opt a) <> None -> a_queue (m_opt a) = None -> (0 <= n_initial a)%Z ->
    exists x0, let n := Z.to_nat (n_initial a) + length x0 in given (m_x0 a) x0 /\ 0 < n /\ length (res_x_iters r) = length (res_func_vals r) /\
      length (res_models r) = length (res_func_vals r) + 1 - n /\ (0 <= before r (specs_of (KW:=KW) a))%Z /\
      (res_models r <> [] -> before r (specs_of (KW:=KW) a) = match m_random_starts a with Some s => s | None => (Z.of_nat n - 1)%Z end) /\
      forall i m, nth_error (res_models r) i = Some m -> fitted_on O W (res_space r) (firstn (n + i) (res_x_iters r)) (firstn (n + i) (res_func_vals r)) m.
  Proof.
    intros H Hm He Hq Hn. destruct (@c74_minimizer N RNG M O G W m f a g t o' r H Hm He Hq Hn) as (x0 & Gx & Hl & Hf). exists x0. cbv zeta in *.
    set (n := Z.to_nat (n_initial a) + length x0) in *.
    assert (Lx : length (res_x_iters r) = length (res_func_vals r)).
    { destruct (@MinProps.c27_budget N RNG M O G W m f a g t o' (Some r) H) as (x1 & r1 & _ & E & _ & L). injection E as <-. cbv zeta in L. destruct L. congruence. }
    assert (Np : 0 < n).
    { destruct (@MinLemmas.minimize_base N RNG M O G W m f a g t o' (Some r) H) as (a' & g1 & H' & _ & X & _ & _ & Nn & _).
      apply MinLemmas.base_ok in H'. destruct H' as (x1 & g2 & oa & ob & _ & Gx' & _ & _ & Hpos & _). rewrite X in Gx'. rewrite (Nn Hm) in Hpos.
      destruct x0; [|unfold n; cbn; lia]. assert (x1 = []) by (inversion Gx; subst; inversion Gx'; congruence). specialize (Hpos H0). unfold n. fold (n_initial a) in Hpos. cbn [length]. lia. }
    split; [easy|]. split; [easy|]. split; [easy|]. split; [easy|]. unfold before. cbn [sp_random specs_of]. unfold n_initial in Hn.
    assert (Em : res_models r <> [] -> 0 < length (res_models r)) by (destruct (res_models r); cbn; [easy|lia]).
    split; [|split; [intro Ne; specialize (Em Ne)|exact Hf]]; destruct (m_random_starts a); lia.
  Qed.
  Lemma c75_counts m f a g t o' r c cx cy md : minimize O G W m f a g = (t, o', Ok (Some r)) -> m <> MDummy ->
    a_est (m_opt a) <> None -> a_queue (m_opt a) = None -> (0 <= n_initial a)%Z ->
    subject r (specs_of (KW:=KW) a) c md cx cy ->
    exists x0 n k, given (m_x0 a) x0 /\ fitted_on O W (res_space r) (firstn n (res_x_iters r)) (firstn n (res_func_vals r)) md /\
      cx = firstn k (res_x_iters r) /\ cy = firstn k (res_func_vals r) /\
      if (c <? 0)%Z then n = k /\ k = length (res_func_vals r)
      else Z.of_nat n = (n_initial a + Z.of_nat (length x0) + c)%Z /\
           Z.of_nat k = match m_random_starts a with Some s => (s + c)%Z | None => (Z.of_nat n - 1)%Z end.
  Proof.
    intros H Hm He Hq Hn [Md Hc]. destruct (@run_before m f a g t o' r H Hm He Hq Hn) as (x0 & Gx & Np & Lx & Hl & Hb & Hb' & Hf). set (n := Z.to_nat (n_initial a) + length x0) in *.
    unfold model_of in *. destruct (c <? 0)%Z eqn:Ec.
    - destruct Md as (ms & Em). destruct Hc as [-> ->].
      exists x0, (length (res_func_vals r)), (length (res_func_vals r)). split; [easy|].
      specialize (Hf (length ms) md). rewrite Em, app_length in Hl. cbn [length] in Hl.
      replace (n + length ms) with (length (res_func_vals r)) in Hf by lia.
      split; [apply Hf; rewrite Em, nth_error_app2, Nat.sub_diag by lia; reflexivity|].
      split; [rewrite <- Lx; symmetry; apply firstn_all|]. split; [symmetry; apply firstn_all|easy].
    - apply Z.ltb_ge in Ec. destruct Hc as [-> ->].
      assert (Ne : res_models r <> []) by (intros Q; rewrite Q in Md; destruct (Z.to_nat c); discriminate). rewrite (Hb' Ne) in *.
      exists x0, (n + Z.to_nat c), (Z.to_nat (match m_random_starts a with Some s => s | None => Z.of_nat n - 1 end + c)).
      split; [easy|]. split; [now apply Hf|]. split; [easy|]. split; [easy|]. split; [unfold n; lia|]. rewrite Z2Nat.id by lia. destruct (m_random_starts a); lia.
  Qed.
  Lemma c75_observations m f a g t o' r c cx cy md : minimize O G W m f a g = (t, o', Ok (Some r)) -> m <> MDummy ->
    a_est (m_opt a) <> None -> a_queue (m_opt a) = None -> (0 <= n_initial a)%Z ->
    (c < 0)%Z \/ (m_random_starts a <> None /\ m_x0 a = X0None) ->
    subject r (specs_of (KW:=KW) a) c md cx cy -> fitted_on O W (res_space r) cx cy md.
  Proof.
    intros H Hm He Hq Hn Hor Hs. destruct (@c75_counts m f a g t o' r c cx cy md H Hm He Hq Hn Hs) as (x0 & n & k & Gx & Hf & -> & -> & Hk).
    enough (n = k) by congruence. destruct (c <? 0)%Z eqn:Ec; [easy|]. apply Z.ltb_ge in Ec. destruct Hor as [|[Hr Hx]]; [lia|].
    rewrite Hx in Gx. inversion Gx; subst. unfold n_initial in Hk. destruct (m_random_starts a); [|easy]. cbn [length] in Hk. lia.
  Qed.
End Fits.

Section Reals.
  Context {RNG M KW : Type} (v_predict : M -> list (list (pyval R)) -> res (list R * list R))
    (v_acq : acq1 -> option KW -> M -> R -> list (list (pyval R)) -> res (list R)).

  Lemma grid_rows d n xs ar : ideal_dim d -> tsize d = 1 -> 0 < n -> evenly_sample Rops d n = Ok (xs, ar) ->
    exists vals, plotted d n xs vals /\ space_transform Rops [d] (map (fun v => [v]) vals) = Ok (x_model Rops ar) /\ length xs = length vals /\ vals <> [].
  Proof.
    intros Hi Ht Hn He. assert (Pl : plottable d) by (destruct d; cbn; auto). destruct (evenly _ _ Pl He) as (vals & Pv & Rv & Wv). exists vals.
    assert (L : length xs = length vals /\ vals <> []).
    { destruct d as [r|i|c]; cbn in Pv.
      1,2: destruct Pv as (-> & l & -> & Le & _); split; [easy|]; intros Q; apply (f_equal (@length _)) in Q; rewrite map_length in Q; cbn in Q; lia.
      destruct Pv as (F & Lx & _). pose proof (BaseLemmas.Forall2_len F) as Lf. split; [congruence|]. intros ->. cbn in Lf. rewrite Lf in Lx. symmetry in Lx.
      destruct (c_cats c) eqn:Ec; [|cbn [length] in Lx; destruct n; cbn in Lx; lia]. cbn [evenly_sample] in He. rewrite Ec in He. discriminate. }
    destruct L as [L Hne]. split; [easy|]. split; [|easy].
    destruct (ideal_warps _ Hi) as (g & Hg). assert (D : Forall (may_draw d) vals) by (eapply plotted_draws; [exact Hi|exact Pv]).
    assert (F1 : Forall2 warps [d] [g]) by (constructor; [exact Hg|constructor]).
    assert (HL : Forall (loose [d]) (map (fun v => [v]) vals)).
    { apply Forall_map. eapply Forall_impl; [|exact D]. intros v Hv. constructor; [exact Hv|constructor]. }
    assert (Hne' : map (fun v : pyval R => [v]) vals <> []) by now destruct vals.
    assert (Hd : [d] <> []) by easy.
    rewrite (@transform_parts [d] [g] _ Hd F1 Hne' HL). f_equal. rewrite map_map. unfold x_model.
    clear He Pv L Hne Hne' HL. revert D. induction Rv as [|v r vals rows Hr F IH]; intros D; [easy|]. inversion D as [|? ? D1 D2]; subst. inversion Wv as [|? ? W1 W2]; subst.
    cbn [map concat app]. rewrite map_app. rewrite Ht in W1. destruct r as [|v0 [|]]; try discriminate. cbn [map app]. f_equal; [|now apply IH].
    pose proof (@warped_unique d g v _ Hg D1 (raw_warped Hr)) as E. unfold parts_of. cbn [combine map concat fst snd]. rewrite app_nil_r, <- E. reflexivity.
  Qed.

  Lemma zip_triples {A} (x : list A) (y w : list R) : length x = length y -> length y = length w ->
    exists l : list (A * R * R), x = map (fun t => fst (fst t)) l /\ y = map (fun t => snd (fst t)) l /\ w = map snd l.
  Proof.
    revert y w. induction x as [|a x IH]; intros [|b y] [|c w] H1 H2; try discriminate; [now exists []|].
    injection H1 as H1. injection H2 as H2. destruct (IH y w H1 H2) as (l & -> & -> & ->). now exists ((a, b, c) :: l).
  Qed.
  Lemma combine_app2 {A B} (a b : list A) (c d : list B) : length a = length c -> combine (a ++ b) (c ++ d) = combine a c ++ combine b d.
  Proof. revert c. induction a as [|x a IH]; intros [|y c] H; try discriminate; [easy|]. cbn. f_equal. apply IH. now injection H. Qed.
  Lemma combine_map2 {A B C} (f : A -> B) (g : A -> C) l : combine (map f l) (map g l) = map (fun t => (f t, g t)) l.
  Proof. induction l; cbn; congruence. Qed.
  Lemma zip_map {A B C D} (f : A -> B) (g : A -> C) (h : B -> C -> D) l : zip_with h (map f l) (map g l) = map (fun t => h (f t) (g t)) l.
  Proof. induction l; cbn; congruence. Qed.
  Lemma zip_len {A B C} (h : A -> B -> C) a b : length (zip_with h a b) = Nat.min (length a) (length b).
  Proof. revert b. induction a as [|x a IH]; intros [|y b]; cbn; auto. Qed.
  Lemma z96_R : z96 Rops = 1.96%R.
  Proof. unfold z96. cbn. lra. Qed.
  Lemma band_around (x : list (pyval R)) (y w : list R) b : length y = length w ->
    draw_band x y (zip_with (nsub Rops) y (map (nmul Rops (z96 Rops)) w)) (zip_with (nadd Rops) y (map (nmul Rops (z96 Rops)) w)) = Ok b -> around b x y w.
  Proof.
    intros Hl H. apply band_ok in H. destruct H as (-> & H1 & H2). destruct (@zip_triples _ x y w H1 Hl) as (l & -> & -> & ->). exists l.
    cbn [bd_line bd_band pt_x pt_y]. repeat split; auto. rewrite z96_R. rewrite !map_map, !zip_map. rewrite <- !map_rev. rewrite combine_app2 by now rewrite !map_length.
    rewrite !combine_map2. reflexivity.
  Qed.

  Lemma c75_picture (r : result R RNG M) d sp a pic : res_space r = [d] -> ideal_dim d -> tsize d = 1 -> 0 < gp_points a ->
    (forall m rows p, v_predict m rows = Ok p -> length (fst p) = length (snd p)) ->
    plot_gaussian_process Rops v_predict v_acq r sp a = Ok pic ->
    exists s xs vals rows m cx cy, sp = Some s /\ plotted d (gp_points a) xs vals /\ space_transform Rops [d] (map (fun v => [v]) vals) = Ok rows /\
      ((0 <= before r s)%Z -> subject r s (gp_calls a) m cx cy) /\
      (match gp_objective a with
       | None => pic_true pic = None
       | Some f => exists b ys, pic_true pic = Some b /\ Forall2 (fun x y => f x = Ok y) xs ys /\ around b xs ys (repeat (gp_noise a) (length ys))
       end) /\
      (if gp_mu a then exists b mean std, pic_mu pic = Some b /\ v_predict m rows = Ok (mean, std) /\ around b xs mean std else pic_mu pic = None) /\
      (pic_obs pic = if gp_obs a then Some (cx, cy) else None) /\
      (if gp_acq a then
         exists k y_opt values, acq_of (sp_acq s) = Some k /\ In y_opt cy /\ (forall y, In y cy -> y_opt <= y)%R /\
           v_acq (match k with AHedge => EI | AOne k1 => k1 end) (sp_kwargs s) m y_opt rows = Ok values /\
           pic_acq pic = Some (mkPath xs (map Ropp values)) /\ length xs = length values /\
           (if gp_next a then exists i x v, pic_next pic = Some (x, - v)%R /\ nth_error xs i = Some x /\ nth_error values i = Some v /\ forall u, In u values -> (v <= u)%R
            else pic_next pic = None)
       else pic_acq pic = None /\ pic_next pic = None).
  Proof.
    intros Hd Hi Ht Hn Hp H. apply plot_parts in H. destruct H as (s & -> & [Q]). destruct Q as [d' xs ar m cx cy Es Ee Ec Q1 Q2 Q3 Q4]. assert (d' = d) by congruence. subst d'.
    destruct (@grid_rows d _ _ _ Hi Ht Hn Ee) as (vals & Pv & Tv & Lv & Nv). exists s, xs, vals, (x_model Rops ar), m, cx, cy. split; [easy|]. split; [easy|]. split; [easy|].
    split; [|split; [|split; [|split; [exact Q3|]]]].
    - intro Hb. eapply current_subject; eassumption.
    - destruct (gp_objective a) as [f|]; [|easy]. destruct Q1 as (fx & b & Hf & -> & Hb). exists b, fx. split; [easy|]. split; [now apply mapM_each|].
      apply band_around; [now rewrite repeat_length|]. rewrite <- Hb. f_equal; clear; generalize (gp_noise a); intro c; induction fx as [|y fx IH]; [reflexivity|cbn [zip_with map repeat length]; f_equal; exact IH|reflexivity|cbn [zip_with map repeat length]; f_equal; exact IH].
    - destruct (gp_mu a); [|easy]. destruct Q2 as ([mean std] & b & Hv & -> & Hb). cbn [fst snd] in Hb. exists b, mean, std. split; [easy|]. split; [easy|].
      apply band_around; [exact (Hp _ _ _ Hv)|exact Hb].
    - destruct (gp_acq a); [|easy]. destruct Q4 as (y_opt & k & values & nx & na & Hy & Hk & Hv & Hl & Hx & Ha & -> & Hnx).
      assert (Cy : cy <> []) by (intros ->; discriminate). destruct (np_min_least Rops_order Cy (no_nan_R cy)) as (y' & Hy' & [Hi1 Hi2]).
      assert (y' = y_opt) by congruence. subst y'. unfold name_acq in Hk. destruct (acq_of (sp_acq s)) as [k'|]; [|discriminate].
      exists k', y_opt, values. split; [easy|]. split; [easy|]. split; [intros y Y; apply Rleb_spec; exact (Hi2 y Y)|].
      split; [destruct k'; injection Hk as <-; exact Hv|]. split; [f_equal; f_equal; apply map_ext; intro u; cbn; lra|]. split; [easy|].
      destruct (gp_next a); [|easy]. assert (Vn : values <> []) by (intros ->; discriminate).
      destruct (argmin_first Rops_order Vn (no_nan_R values)) as (i & Ei & v & Ev & B1 & B2). rewrite Ei in Hx, Ha. unfold nth_of in Hx, Ha.
      destruct (nth_error xs i) as [x|] eqn:Ex; [|discriminate]. rewrite Ev in Ha. injection Hx as <-. injection Ha as <-. exists i, x, v.
      split; [rewrite Hnx; f_equal; f_equal; cbn; lra|]. split; [easy|]. split; [easy|]. intros u Hu. apply In_nth_error in Hu. destruct Hu as [j Hj]. specialize (B1 j u Hj). 
      apply Rltb_false in B1. exact B1.
  Qed.

  Lemma draw_total (x : list (pyval R)) (y : list R) : length x = length y -> draw x y = Ok (mkPath x y).
  Proof. intro H. unfold draw. now rewrite H, Nat.eqb_refl. Qed.
  Lemma band_total (x : list (pyval R)) (y lo hi : list R) : length x = length y -> length x = length lo -> length x = length hi -> exists b, draw_band x y lo hi = Ok b.
  Proof. intros A B C. unfold draw_band. rewrite (draw_total _ _ A). cbn [bind]. rewrite draw_total by (rewrite !app_length, !rev_length; lia). cbn [bind]. eauto. Qed.
  Lemma mapM_ex {A B} (f : A -> res B) l : (forall x, exists y, f x = Ok y) -> exists ys, mapM f l = Ok ys /\ length ys = length l.
  Proof.
    intro H. induction l as [|x l (ys & E & L)]; [now exists []|]. destruct (H x) as (y & Ey). exists (y :: ys). cbn [mapM]. rewrite Ey. cbn [bind]. rewrite E. cbn. auto.
  Qed.
  Lemma nth_of_argmin {A} (l : list A) (ys : list R) : l <> [] -> length l = length ys -> exists x, nth_of l (np_argmin Rops ys) = Ok x.
  Proof.
    intros Hl L. destruct ys as [|y ys]; [destruct l; [easy|discriminate]|]. destruct (np_argmin Rops (y :: ys)) as [i|] eqn:E; [|discriminate].
    apply OptBatch.np_argmin_lt in E. cbn. destruct (nth_error l i) eqn:Q; [eauto|]. apply nth_error_None in Q. lia.
  Qed.
  Lemma c75_total (r : result R RNG M) d s a m cx cy : res_space r = [d] -> ideal_dim d -> tsize d = 1 -> 0 < gp_points a ->
    (forall m rows, exists mean std, v_predict m rows = Ok (mean, std) /\ length mean = length rows /\ length std = length rows) ->
    (forall k kw m y rows, exists values, v_acq k kw m y rows = Ok values /\ length values = length rows) ->
    (forall f, gp_objective a = Some f -> forall x, exists y, f x = Ok y) ->
    (0 <= before r s)%Z -> subject r s (gp_calls a) m cx cy -> (gp_acq a = true -> cy <> [] /\ acq_of (sp_acq s) <> None) ->
    (gp_title a = true -> exists v p x, res_x r = X1 (v :: p) /\ to_num Rops v = Some x) ->
    exists pic, plot_gaussian_process Rops v_predict v_acq r (Some s) a = Ok pic.
  Proof.
    intros Hd Hi Ht Hn Hp Ha Ho Hb Hs Hc Htt. unfold plot_gaussian_process. rewrite Hd.
    destruct (@evenly_total d (gp_points a) Hi Hn) as (xs & ar & Ee & _). rewrite Ee. cbn [bind fst snd].
    destruct (@grid_rows d _ _ _ Hi Ht Hn Ee) as (vals & Pv & Tv & Lv & Nv). set (rows := x_model Rops ar) in *.
    assert (Lr : length rows = length xs).
    { assert (Q : length rows = length (map (fun v : pyval R => [v]) vals)).
      { destruct (ideal_warps _ Hi) as (g & Hg). assert (F1 : Forall2 warps [d] [g]) by (constructor; [exact Hg|constructor]).
        assert (D : Forall (may_draw d) vals) by (eapply plotted_draws; [exact Hi|exact Pv]).
        rewrite (@transform_parts [d] [g]) in Tv; [injection Tv as <-; apply map_length|easy|exact F1|now destruct vals|].
        apply Forall_map. eapply Forall_impl; [|exact D]. intros v Hv. constructor; [exact Hv|constructor]. }
      rewrite Q, map_length. congruence. }
    assert (Nx : xs <> []) by (intros ->; destruct vals; [easy|discriminate]).
    fold (before r s). pose proof (subject_current Hb Hs) as Ec. unfold n_random_of in Ec. fold (before r s) in Ec.
    assert (F : exists fx, (match gp_objective a with None => Ok None | Some f => rmap Some (mapM f xs) end) = Ok fx /\ match fx with None => True | Some l => length l = length xs end).
    { destruct (gp_objective a) as [f|]; [|now exists None]. destruct (@mapM_ex _ _ f xs) as (ys & Ey & Ly); [now apply Ho|]. rewrite Ey. now exists (Some ys). }
    destruct F as (fx & -> & Lf). cbn [bind]. rewrite Ec. cbn [bind].
    match goal with |- exists pic, bind ?e _ = _ => assert (T : exists tr, e = Ok tr) end.
    { destruct fx as [fx|]; [|eauto]. cbv zeta.
      destruct (@band_total xs fx (map (fun y => nsub Rops y (nmul Rops (z96 Rops) (gp_noise a))) fx) (map (fun y => nadd Rops y (nmul Rops (z96 Rops) (gp_noise a))) fx)) as (b & Eb); rewrite ?map_length; auto.
      rewrite Eb. cbn. eauto. }
    destruct T as (tr & ->). cbn [bind]. destruct (Hp m rows) as (mean & std & Ep & L1 & L2). rewrite Ep. cbn [bind fst snd].
    assert (Mu : exists mu, if_shown (gp_mu a) (draw_band xs mean (zip_with (nsub Rops) mean (map (nmul Rops (z96 Rops)) std)) (zip_with (nadd Rops) mean (map (nmul Rops (z96 Rops)) std))) = Ok mu).
    { destruct (gp_mu a); [|cbn; eauto]. destruct (@band_total xs mean (zip_with (nsub Rops) mean (map (nmul Rops (z96 Rops)) std)) (zip_with (nadd Rops) mean (map (nmul Rops (z96 Rops)) std))) as (b & Eb);
        rewrite ?zip_len, ?map_length; try lia. rewrite Eb. cbn. eauto. }
    destruct Mu as (mu & ->). cbn [bind].
    match goal with |- exists pic, bind (if_shown (gp_acq a) ?e) _ = _ => assert (A : exists ac, if_shown (gp_acq a) e = Ok ac) end.
    { destruct (gp_acq a); [|cbn; eauto]. destruct (Hc eq_refl) as [Hcy Hk]. destruct (OptBatch.np_min_total Rops Hcy) as (yo & ->). cbn [bind]. unfold name_acq.
      destruct (acq_of (sp_acq s)) as [k|]; [|easy]. assert (Q : exists k1, (match k with AHedge => Ok EI | AOne a0 => Ok a0 end) = Ok k1) by (destruct k; eauto).
      destruct Q as (k1 & Ek). destruct (Ha k1 (sp_kwargs s) m yo rows) as (values & Ev & L).
      destruct (@nth_of_argmin _ xs values Nx) as (nx & Enx); [congruence|]. destruct (@nth_of_argmin _ values values) as (na & Ena); [intros ->; destruct xs; [easy|cbn in L, Lr; lia]|easy|].
      destruct k; injection Ek as <-; cbn [bind]; rewrite Ev; cbn [bind]; rewrite Enx; cbn [bind]; rewrite Ena; cbn [bind]; cbv zeta; rewrite draw_total by (rewrite map_length; congruence); cbn; eauto. }
    destruct A as (ac & ->). cbn [bind]. cbv zeta. destruct (gp_title a); [|cbn [bind]; eauto]. destruct (Htt eq_refl) as (v & p & x & -> & ->). cbn [bind]. eauto.
  Qed.
End Reals.
