(** What the suggestion of an optimizer with a Gaussian process means, with any acquisition optimizer and with gp_hedge (C100). *)
From Coq Require Import String List ZArith Bool Reals Lra Lia.
From Verif Require Import Base BaseLemmas Num NumLaws ArgLemmas Values Dimension Space Optimizer SpaceSpec BoundLemmas Acquisition AcqSpec AcqProps OptSpec OptLemmas OptLemmas2 OptLemmas3
  OptLemmas4 OptLemmas5 OptLemmas6 OptProps Kernels Gpr GprAcq GpWorld WorthSpec GpWorldProps CampaignSpec RealSpace Campaign EachLemmas WorthSearchSpec.
Import ListNotations.
Open Scope R_scope.
Open Scope list_scope.
Set Implicit Arguments.

Lemma Forall2_nth_l {A B} (P : A -> B -> Prop) l m : Forall2 P l m -> forall i x, nth_error l i = Some x -> exists y, nth_error m i = Some y /\ P x y.
Proof. induction 1 as [|a b l m Hab _ IH]; intros [|i] x H; try discriminate; cbn [nth_error] in *; [injection H as <-; eauto|auto]. Qed.
Lemma F2_len {A B} (P : A -> B -> Prop) l m : Forall2 P l m -> length l = length m.
Proof. induction 1; cbn [length]; congruence. Qed.
Lemma Forall2_nth_r {A B} (P : A -> B -> Prop) l m : Forall2 P l m -> forall i y, nth_error m i = Some y -> exists x, nth_error l i = Some x /\ P x y.
Proof. induction 1 as [|a b l m Hab _ IH]; intros [|i] x H; try discriminate; cbn [nth_error] in *; [injection H as <-; eauto|auto]. Qed.
Section Search.
  Context {M : Type} (W : world R M) (b : list (R * R)).
  Lemma search_best c a m yopt X x0 : space_tbounds Rops (c_dims c) = b -> (c_lbfgs c = true -> descends W b) -> argsort_ok Rops W ->
    (forall vals, w_acq W a m yopt X = Ok vals -> length vals = length X /\ forall i s v, nth_error X i = Some s -> nth_error vals i = Some v -> w_acq W a m yopt [s] = Ok [v]) ->
    Forall (within (O := Rops) b) X -> pick Rops W c a m yopt X = Ok x0 ->
    exists vals f, w_acq W a m yopt X = Ok vals /\ w_acq W a m yopt [x0] = Ok [f] /\ within (O := Rops) b x0 /\ (forall v, In v vals -> f <= v) /\ (c_lbfgs c = false -> In x0 X).
  Proof.
    intros Eb Hd Ha Hrow HX H. unfold pick in H. apply bind_ok in H. destruct H as (vals & Hv & H). destruct (Hrow _ Hv) as [Lv Hone].
    exists vals. destruct (c_lbfgs c).
    - specialize (Hd eq_refl). apply bind_ok in H. destruct H as (starts & Hs & H). apply bind_ok in H. destruct H as (ends & He & H). rewrite Eb in He.
      destruct (np_argmin Rops (map snd ends)) as [i|] eqn:Ei; cbn [nth_of] in H; [|discriminate].
      destruct (nth_error (map fst ends) i) as [x1|] eqn:En; [|discriminate]. injection H as ->.
      apply mapM_Forall2_ok in Hs. apply mapM_Forall2_ok in He. 
      destruct (argsort_firstn Rops_order (c_restarts c) Ha (nan_R vals)) as (_ & _ & Hord). cbv zeta in Hord. set (is := firstn (c_restarts c) (w_argsort W vals)) in *.
      (* every end comes from one of the starts *)
      assert (K : forall j s e, nth_error is j = Some s -> nth_error ends j = Some e -> exists r v0, nth_error X s = Some r /\ nth_error vals s = Some v0 /\
        within (O := Rops) b (fst e) /\ w_acq W a m yopt [fst e] = Ok [snd e] /\ snd e <= v0).
      { intros j s e Hj Hje. destruct (Forall2_nth_l Hs j Hj) as (r & Hr & Hr'). destruct (Forall2_nth_l He j Hr) as (e' & He' & Hl). rewrite Hje in He'. injection He' as <-.
        unfold nth_row in Hr'. destruct (nth_error X s) as [r'|] eqn:Es; [|discriminate]. injection Hr' as ->.
        destruct (nth_error vals s) as [v0|] eqn:Ev; [|apply nth_error_None in Ev; assert (s < length X)%nat by (apply nth_error_Some; congruence); lia].
        exists r, v0. split; [reflexivity|]. split; [reflexivity|]. destruct e as [s' v]. cbn [fst snd].
        apply (Hd a m yopt r s' v v0); [|now apply (Hone s)|exact Hl]. rewrite Forall_forall in HX. apply HX. now apply nth_error_In in Es. }
      assert (Hlen : length is = length ends) by (rewrite (F2_len Hs); exact (F2_len He)).
      rewrite nth_error_map in En. destruct (nth_error ends i) as [[x1 f]|] eqn:Ee; [|discriminate]. injection En as ->.
      assert (Hmin : forall e, In e ends -> f <= snd e).
      { intros e Hin. assert (Hne : map snd ends <> []) by (intros Q; rewrite Q in Ei; discriminate).
        destruct (np_min_spec Rops_order Hne (nan_R _)) as (v & Hv1 & _ & Hv3 & _). unfold np_min in Hv1. rewrite Ei in Hv1. cbn [nth_of] in Hv1.
        rewrite nth_error_map, Ee in Hv1. injection Hv1 as ->. apply leb_R, Hv3. now apply in_map. }
      assert (Hi : exists s, nth_error is i = Some s). { destruct (nth_error is i) eqn:Q; [eauto|]. apply nth_error_None in Q. assert (i < length ends)%nat by (apply nth_error_Some; congruence). lia. }
      destruct Hi as [s Hi]. destruct (K i s (x0, f) Hi Ee) as (r & v0 & _ & Ev0 & Hw & Hf & Hle). cbn [fst snd] in *.
      exists f. split; [exact Hv|]. split; [exact Hf|]. split; [exact Hw|]. split; [|discriminate].
      intros v Hin. apply In_nth_error in Hin. destruct Hin as [j Hj]. destruct (in_dec Nat.eq_dec j is) as [Hin|Hnin].
      + apply In_nth_error in Hin. destruct Hin as [k Hk]. destruct (nth_error ends k) as [e|] eqn:Eke; [|apply nth_error_None in Eke; assert (k < length is)%nat by (apply nth_error_Some; congruence); lia].
        destruct (K k j e Hk Eke) as (r' & v0' & _ & Ev0' & _ & _ & Hle'). rewrite Hj in Ev0'. injection Ev0' as <-. apply nth_error_In in Eke. apply Hmin in Eke. lra.
      + assert (Q : v0 <= v) by (apply leb_R, (Hord s j); [now apply nth_error_In in Hi|exact Hnin|exact Ev0|exact Hj]). lra.
    - destruct (np_argmin Rops vals) as [i|] eqn:Ei; cbn [nth_of] in H; [|discriminate]. destruct (nth_error X i) as [x1|] eqn:En; [|discriminate]. injection H as ->.
      assert (Hne : vals <> []) by (intros Q; rewrite Q in Ei; discriminate).
      destruct (np_min_spec Rops_order Hne (nan_R _)) as (f & Hv1 & _ & Hv3 & _). unfold np_min in Hv1. rewrite Ei in Hv1. cbn [nth_of] in Hv1.
      destruct (nth_error vals i) as [f'|] eqn:Ef; [|discriminate]. injection Hv1 as ->. exists f. split; [exact Hv|]. split; [now apply (Hone i)|].
      split; [rewrite Forall_forall in HX; apply HX; now apply nth_error_In in En|]. split; [intros v Hin; now apply leb_R, Hv3|]. intros _. now apply nth_error_In in En.
  Qed.
End Search.

Section GpSearch.
  Context (tune : kernel -> mat -> vec -> kernel) (linv : mat -> option mat) (solve : mat -> vec -> vec) (cdf pdf : R -> R).
  Context (e0 : gpr) (xi : option R) (kappa : option (@kappa_arg R)).
  Context (argsort : list R -> list nat)
          (lbfgs : acq1 -> surrogate -> R -> list (R * R) -> list (pyval R) -> res (list (pyval R) * R))
          (generate : list (dim R) -> Z -> Z -> res (list (point R))) (logmax : R).
  Notation W := (gp_world tune linv solve cdf pdf e0 xi kappa argsort lbfgs generate logmax).

  (** Row by row *)
  Lemma mapM_nth {A B} (f : A -> res B) l m : mapM f l = Ok m -> forall i x, nth_error l i = Some x -> exists y, nth_error m i = Some y /\ f x = Ok y.
  Proof. intros H. apply mapM_Forall2_ok in H. exact (Forall2_nth_l H). Qed.
  Lemma predict_row e X m s : Gpr.predict e X true false false false = Ok (mkAnswer m (Some s) None None) ->
    forall i x mu sd, nth_error X i = Some x -> nth_error m i = Some mu -> nth_error s i = Some sd ->
    Gpr.predict e [x] true false false false = Ok (mkAnswer [mu] (Some [sd]) None None).
  Proof.
    unfold Gpr.predict. cbn [andb negb orb]. destruct X as [|x0 X0] eqn:EX; [discriminate|]. rewrite <- EX. cbn [andb]. rewrite !Bool.andb_false_r.
    destruct (e_fitted e) as [g|].
    - destruct (mapM (post_mean g) X) as [m'|] eqn:Em; [|discriminate]. destruct (mapM (post_std g) X) as [s'|] eqn:Es; [|discriminate].
      cbn [bind]. intros H. injection H as -> ->. intros i x mu sd Hx Hm Hs. destruct (mapM_nth _ _ Em i Hx) as (mu' & Hm' & Em'). destruct (mapM_nth _ _ Es i Hx) as (sd' & Hs' & Es').
      rewrite Hm in Hm'. rewrite Hs in Hs'. injection Hm' as <-. injection Hs' as <-. cbn [mapM]. rewrite Em', Es'. reflexivity.
    - destruct (e_kernel e) as [k|]; [|discriminate]. destruct (mapM (kdiag k) X) as [s'|] eqn:Es; [|discriminate].
      cbn [bind]. intros H. injection H as <- <-. intros i x mu sd Hx Hm Hs. destruct (mapM_nth _ _ Es i Hx) as (v & Hv & Ev).
      rewrite nth_error_map, Hx in Hm. injection Hm as <-. rewrite nth_error_map, Hv in Hs. injection Hs as <-. cbn [mapM]. rewrite Ev. reflexivity.
  Qed.
  (** The acquisition functions work row by row. *)
  Lemma acq_rowwise a y : is_ps (AOne a) = false -> exists F : R -> R -> R, forall mo X mus stds, predicts mo X mus stds -> length mus = length stds ->
    gaussian_acquisition Rops cdf pdf X mo (Some y) (acq_string a) xi kappa false = Ok (map2 F mus stds, None).
  Proof.
    set (x := match xi with Some x => x | None => default_xi Rops end).
    destruct a; try discriminate; intros _; cbn [acq_string].
    - exists (fun mu s => neg Rops (ei_one Rops cdf pdf y x mu s)). intros mo X mus stds H L. unfold gaussian_acquisition. fold x. unfold gaussian_pi, gaussian_ei.
      change (ends_with_ps "EI") with false. cbn [bind String.eqb Ascii.eqb Bool.eqb]. rewrite (imp_values _ _ _ _ _ _ y x H). cbn [bind fst snd]. unfold map2. rewrite map_map. reflexivity.
    - eexists. intros mo X mus stds (r & E & D & <- & <-) L. unfold gaussian_acquisition. change (ends_with_ps "LCB") with false. cbn [bind String.eqb Ascii.eqb Bool.eqb]. unfold gaussian_lcb. rewrite E. cbn [bind]. reflexivity.
    - exists (fun mu s => neg Rops (pi_one Rops cdf y x mu s)). intros mo X mus stds H L. unfold gaussian_acquisition. fold x. unfold gaussian_pi, gaussian_ei.
      change (ends_with_ps "PI") with false. cbn [bind String.eqb Ascii.eqb Bool.eqb]. rewrite (imp_values _ _ _ _ _ _ y x H). cbn [bind fst snd]. unfold map2. rewrite map_map. reflexivity.
  Qed.
  Lemma gp_rowwise (HN : std_normal cdf pdf) a e y X vals : is_ps (AOne a) = false -> gp_acq cdf pdf xi kappa a (One e) y X = Ok vals ->
    length vals = length X /\ forall i s v, nth_error X i = Some s -> nth_error vals i = Some v -> gp_acq cdf pdf xi kappa a (One e) y [s] = Ok [v].
  Proof.
    intros Ha H. destruct (@acq_worth cdf pdf xi kappa HN _ _ _ _ _ H Ha) as (rows & mus & stds & C1 & C2 & C3 & C4 & C5 & _). split; [exact C5|].
    destruct (acq_rowwise a y Ha) as [F HF]. intros i s v Hs Hv. unfold gp_acq in *. rewrite C1 in H. cbn [bind] in H. rewrite (HF _ _ _ _ (gp_predicts _ _ C2) ltac:(congruence)) in H. cbn [bind fst] in H. injection H as <-.
    destruct (mapM_nth _ _ C1 i Hs) as (row & Hrow & Erow). destruct (map2_nth_inv _ _ _ _ _ Hv) as (mu & sd & Hm & Hsd & ->).
    cbn [mapM]. rewrite Erow. cbn [bind]. rewrite (HF _ _ _ _ (gp_predicts _ _ (@predict_row e rows mus stds C2 i row mu sd Hrow Hm Hsd)) eq_refl). reflexivity.
  Qed.
  (** Clipping what is within the bounds changes nothing. *)
  Lemma clip_within b : forall r r' row, within (O := Rops) b r -> clipped_row Rops b r r' -> num_row r = Ok row -> num_row r' = Ok row.
  Proof.
    intros r r' row H [_ K]. revert r' K row. induction H as [|bd v bs r (x & Ex & B1 & B2) _ IH]; intros r' K row E; inversion K as [|? w ? ws Kw Kr]; subst; [exact E|].
    destruct Kw as (x' & y & Ex' & -> & C1 & _). cbn [fst snd] in *. rewrite Ex in Ex'. injection Ex' as <-. rewrite (C1 B1 B2) in *.
    unfold num_row in *. cbn [mapM] in *. rewrite Ex in E. cbn [bind] in E. apply bind_ok in E. destruct E as (row' & E & E'). injection E' as <-.
    cbn [to_num]. cbn [bind]. unfold num_row in IH. rewrite (IH _ Kr _ E). reflexivity.
  Qed.

  Lemma c100 RNG (G : rng_ops R RNG) (Gok : rng_ok Rops G) (HN : std_normal cdf pdf) x y o o' r :
    reachable Rops G W o -> tell Rops G W x y true o = (o', Ok r) ->
    (c_n0 (o_cfg o') <= Z.of_nat (length (o_yi o')))%Z -> c_est (o_cfg o') <> None -> ps_of o' = false ->
    let dims := c_dims (o_cfg o') in
    dims <> [] -> Forall workable dims -> argsort_ok Rops W -> (c_lbfgs (o_cfg o') = true -> descends W (space_tbounds Rops dims)) ->
    exists ms e D Dt Dn g P X rows yopt mus stds a x0 row mu s v nx p rest,
      o_models o' = ms ++ [One e] /\
      (o_Xi o' = map (@X1 R) D /\ space_transform Rops dims D = Ok Dt /\ mapM num_row Dt = Ok Dn /\
       Gpr.fit tune linv solve e0 Dn (map y_obj (o_yi o')) = Ok e) /\
      (fst (space_rvs Rops G dims (c_npoints (o_cfg o')) g) = Ok P /\ space_transform Rops dims P = Ok X /\ mapM num_row X = Ok rows /\
       Gpr.predict e rows true false false false = Ok (mkAnswer mus (Some stds) None None)) /\
      (In yopt (map y_obj (o_yi o')) /\ forall v, In v (map y_obj (o_yi o')) -> yopt <= v) /\
      match c_acq (o_cfg o') with AOne b => a = b | AHedge => In a [EI; LCB; PI] end /\
      (within (O := Rops) (space_tbounds Rops dims) x0 /\ (c_lbfgs (o_cfg o') = false -> In x0 X)) /\
      (num_row x0 = Ok row /\ Gpr.predict e [row] true false false false = Ok (mkAnswer [mu] (Some [s]) None None) /\ worth yopt xi kappa a mu s v) /\
      (forall j mu' s', nth_error mus j = Some mu' -> nth_error stds j = Some s' -> exists v', worth yopt xi kappa a mu' s' v' /\ v' <= v) /\
      num_row nx = Ok row /\ space_inverse Rops dims [nx] = Ok (p :: rest) /\ o_next o' = Some p.
  Proof.
    intros Hr H Hn He Hps dims Hd Hw Has Hdes. pose proof (reachable_good Hr) as Hg.
    assert (Hr' : reachable Rops G W o').
    { pose proof (r_call (CTell x y true) Hr) as Hr'. cbn [do_call] in Hr'. now rewrite H in Hr'. }
    pose proof (shaped_plain (reachable_shaped Hr') Hps) as Hpl.
    assert (He' : has_est o' = true) by (unfold has_est; now destruct (c_est (o_cfg o'))).
    destruct (@c17_surrogate _ _ _ _ G W x y o o' r Hr H Hn He) as (D & Dt & m & ms & nx0 & p0 & rest0 & A1 & A2 & A3 & A4 & _).
    destruct (tell_fitted _ _ Hg H Hn He') as (o1 & E1 & E2 & E3 & E4 & E5 & E6 & E7 & [F]).
    assert (Ec : o_cfg o1 = o_cfg o') by congruence.
    assert (Hlast : m = f_est F).
    { pose proof (f_push F) as Hp. rewrite A4 in Hp. unfold pushed in Hp. destruct (c_queue (o_cfg o1)); [destruct Hp as [[_ Hp]|[_ (m' & t & _ & Hp)]]|]; now apply app_inj_tail in Hp. }
    destruct (f_cand F) as (g & P & Hrv & Htr). pose proof (f_prop F) as Hp. pose proof (f_choice F) as Hc.
    rewrite <- Hlast in *. rewrite Ec in *. fold dims in Hrv, Htr.
    cbn [w_fit gp_world] in A3. unfold gp_fit in A3. apply bind_ok in A3. destruct A3 as (Dn & A3 & A5). rewrite (plain_col_map Hpl) in A5.
    apply bind_ok in A5. destruct A5 as (e & A5 & A6). injection A6 as A6. clear Hlast. subst m.
    destruct (Forall2_nth_r Hp _ Hc) as (a & Ha & (yopt & x0 & Hy & Hpick & Hclip)). apply nth_error_In in Ha. rewrite Ec in Hpick, Hclip. fold dims in Hclip.
    assert (Hps' : is_ps (AOne a) = false).
    { unfold ps_of in Hps. destruct (c_acq (o_cfg o')) as [|b]; cbn [cand_acqs In] in Ha; [repeat destruct Ha as [<-|Ha]; easy|]. destruct Ha as [<-|[]]. exact Hps. }
    assert (FP : Forall (in_space Rops dims) P).
    { destruct (@space_drawn _ G Gok dims (c_npoints (o_cfg o')) g Hd Hw) as (P' & g' & E & _ & FP). rewrite E in Hrv. cbn [fst] in Hrv. injection Hrv as <-. exact FP. }
    assert (FX : Forall (within (O := Rops) (space_tbounds Rops dims)) (f_X F)).
    { destruct P as [|q P]; [|destruct (@space_withinR dims (q :: P) Hd (work_bounded Hw)) as (Xt & Et & _ & FX); [discriminate|exact FP|rewrite Et in Htr; injection Htr as <-; exact FX]].
      apply space_transform_length in Htr. destruct (f_X F); [constructor|discriminate]. }
    destruct (@search_best _ W (space_tbounds Rops dims) (o_cfg o') a (One e) yopt (f_X F) x0 eq_refl Hdes Has) as (vals & f & Hv & Hf & Hwx & Hmin & Hin); [|exact FX|exact Hpick|].
    { intros vals Hv. exact (@gp_rowwise HN a e yopt (f_X F) vals Hps' Hv). }
    cbn [w_acq gp_world] in Hv, Hf. destruct (@acq_worth cdf pdf xi kappa HN _ _ _ _ _ Hv Hps') as (rows & mus & stds & C1 & C2 & C3 & C4 & C5 & C6).
    destruct (@acq_worth cdf pdf xi kappa HN _ _ _ _ _ Hf Hps') as (rows1 & mus1 & stds1 & D1 & D2 & D3 & D4 & D5 & D6).
    cbn [length] in D3, D4. destruct mus1 as [|mu [|]]; try discriminate D3. destruct stds1 as [|s [|]]; try discriminate D4.
    cbn [mapM] in D1. apply bind_ok in D1. destruct D1 as (row & D1 & D1'). cbn [bind] in D1'. injection D1' as <-.
    rewrite E3, (y_flat_plain Hpl) in Hy. assert (Hyne : map y_obj (o_yi o') <> []) by (intros Z; rewrite Z in Hy; discriminate).
    destruct (np_min_spec Rops_order Hyne (nan_R _)) as (m & Hm1 & Hm2 & Hm3 & _). assert (m = yopt) by congruence. subst m.
    exists ms, e, D, Dt, Dn, g, P, (f_X F), rows, yopt, mus, stds, a, x0, row, mu, s, (- f), (f_nx F), (f_p F), (f_rest F).
    split; [exact A4|]. split; [auto|]. split; [auto|]. split; [split; [exact Hm2|]; intros w Hw'; now apply leb_R, Hm3|].
    split; [destruct (c_acq (o_cfg o')) as [|b]; cbn [cand_acqs In] in Ha; [exact Ha|destruct Ha as [->|[]]; reflexivity]|].
    split; [auto|]. split; [split; [exact D1|]; split; [exact D2|]; exact (D6 0%nat mu s f eq_refl eq_refl eq_refl)|].
    split.
    { intros j mu' s' Hm Hs. assert (Lj : (j < length (f_X F))%nat) by (rewrite <- C3; apply nth_error_Some; congruence).
      destruct (nth_error vals j) as [v'|] eqn:Ev; [|apply nth_error_None in Ev; lia].
      exists (- v'). split; [now apply (C6 j)|]. apply nth_error_In in Ev. apply Hmin in Ev. lra. }
    split; [|split; [|exact (f_next F)]].
    - destruct (is_categorical dims) eqn:Ecat; [now rewrite Hclip|].
      apply (clip_within Hwx) with (2 := D1). exact (@clip_choice _ Rops Rops_order false _ _ _ Hclip).
    - pose proof (f_inv F) as Q. rewrite Ec in Q. exact Q.
  Qed.
End GpSearch.
