(** What the suggestion of an optimizer with a Gaussian process means when the time counts (C82). *)
From Coq Require Import String List ZArith Bool Reals Lra Lia.
From Verif Require Import Base BaseLemmas Num NumLaws Values Dimension Space Optimizer Acquisition AcqSpec AcqLemmas AcqProps ArgLemmas OptSpec OptLemmas OptLemmas2 OptLemmas3
  OptLemmas4 OptLemmas5 OptLemmas6 OptProps Kernels Gpr GprAcq GpWorld WorthSpec GpWorldProps PaceSpec.
Import ListNotations.
Open Scope R_scope.
Open Scope list_scope.
Set Implicit Arguments.

Section Generic.
  Context {N RNG M : Type} (O : numops N) (G : rng_ops N RNG) (W : world N M).
  Lemma pick_last (L : order_laws O) x y o o' r a : reachable O G W o -> tell O G W x y true o = (o', Ok r) ->
    (c_n0 (o_cfg o') <= Z.of_nat (length (o_yi o')))%Z -> c_est (o_cfg o') <> None ->
    c_lbfgs (o_cfg o') = false -> c_acq (o_cfg o') = AOne a -> no_nan O (y_flat (o_yi o')) ->
    exists ms m g P X yopt vals i x0 nx p rest,
      o_models o' = ms ++ [m] /\
      fst (space_rvs O G (c_dims (o_cfg o')) (c_npoints (o_cfg o')) g) = Ok P /\
      space_transform O (c_dims (o_cfg o')) P = Ok X /\
      (In yopt (y_flat (o_yi o')) /\ forall v, In v (y_flat (o_yi o')) -> nleb O yopt v = true) /\
      w_acq W a m yopt X = Ok vals /\ nth_error X i = Some x0 /\
      (no_nan O vals -> exists v, nth_error vals i = Some v /\ forall v', In v' vals -> nleb O v v' = true) /\
      (if is_categorical (c_dims (o_cfg o')) then nx = x0
       else clipped_row O (space_tbounds O (c_dims (o_cfg o'))) x0 nx) /\
      space_inverse O (c_dims (o_cfg o')) [nx] = Ok (p :: rest) /\ o_next o' = Some p.
  Proof.
    intros Hr H Hn He Hb Ha Hnn. pose proof (reachable_good Hr) as Hg.
    assert (He' : has_est o' = true) by (unfold has_est; now destruct (c_est (o_cfg o'))).
    destruct (tell_fitted _ _ Hg H Hn He') as (o1 & E1 & E2 & E3 & E4 & E5 & E6 & E7 & [F]).
    assert (Ec : o_cfg o' = o_cfg o1) by congruence. rewrite Ec in *.
    assert (Hlast : exists ms, o_models o' = ms ++ [f_est F]).
    { pose proof (f_push F) as Hp. unfold pushed in Hp. destruct (c_queue (o_cfg o1)); [|eauto].
      destruct Hp as [[_ Hp]|[_ (m & t & _ & Hp)]]; eauto. }
    destruct Hlast as [ms Hms]. destruct (f_cand F) as (g & P0 & Hrv & Htr).
    pose proof (f_prop F) as Hp. rewrite Ha in Hp. cbn [cand_acqs] in Hp.
    inversion Hp as [|? c1 ? ? Hp0 Hp1]; subst. inversion Hp1; subst.
    pose proof (f_choice F) as Hc. rewrite (f_single F Ha) in Hc.
    assert (Efx : f_xs F = [c1]) by congruence. rewrite Efx in Hc. simpl in Hc. injection Hc as Hc.
    destruct Hp0 as (yopt & x0 & Hy & Hpick & Hclip). rewrite E3 in Hy.
    unfold pick in Hpick. apply bind_ok in Hpick. destruct Hpick as (vals & Hv & Hpick). rewrite Hb in Hpick.
    destruct (np_argmin O vals) as [i|] eqn:Ei; simpl in Hpick; [|discriminate].
    destruct (nth_error (f_X F) i) as [x1|] eqn:En; [|discriminate]. injection Hpick as ->.
    assert (Hyne : y_flat (o_yi o') <> []) by (intros Z; rewrite Z in Hy; discriminate).
    destruct (np_min_spec L Hyne Hnn) as (m & Hm1 & Hm2 & Hm3 & _). assert (m = yopt) by congruence. subst m.
    exists ms, (f_est F), g, P0, (f_X F), yopt, vals, i, x0, c1, (f_p F), (f_rest F).
    split; [exact Hms|]. split; [exact Hrv|]. split; [exact Htr|]. split; [auto|]. split; [exact Hv|]. split; [exact En|].
    split.
    { intros Hnv. assert (Hvne : vals <> []) by (intros ->; discriminate).
      destruct (np_min_spec L Hvne Hnv) as (v & Hv1 & Hv2 & Hv3 & _). exists v. split; [|exact Hv3].
      unfold np_min in Hv1. rewrite Ei in Hv1. simpl in Hv1. destruct (nth_error vals i); [|discriminate]. congruence. }
    split; [now apply clip_choice|]. rewrite Hc. split; [apply F|apply F].
  Qed.
End Generic.

(** Observations with times, as pairs *)
Definition timed (T : list (R * R)) : list (yval R) := map (fun q => YP (fst q) (snd q)) T.
Lemma shaped_timed {RNG M} (o : opt R RNG M) : shaped o -> ps_of o = true -> exists T, o_yi o = timed T.
Proof.
  unfold shaped. intros H E. rewrite E in H. induction H as [|[v|v t] l Hv _ (T & IH)]; [now exists []|discriminate|].
  exists ((v, t) :: T). cbn. now rewrite IH.
Qed.
Lemma timed_flat T v : In v (y_flat (timed T)) <-> In v (map fst T ++ map snd T).
Proof.
  rewrite in_app_iff. induction T as [|[a b] T IH]; cbn; [tauto|]. change (flat_map _ (timed T)) with (y_flat (timed T)). rewrite IH. tauto.
Qed.
Lemma timed_plain q T : plain_col (timed (q :: T)) = None.
Proof. reflexivity. Qed.
Lemma timed_cols_map T : timed_cols (timed T) = Some (map fst T, map snd T).
Proof. induction T as [|[a b] T IH]; [reflexivity|]. cbn. fold (timed T). now rewrite IH. Qed.

Section PsWorld.
  Context (tune : kernel -> mat -> vec -> kernel) (linv : mat -> option mat) (solve : mat -> vec -> vec) (cdf pdf : R -> R).
  Context (e0 : gpr) (xi : option R) (kappa : option (@kappa_arg R)).
  Context (argsort : list R -> list nat)
          (lbfgs : acq1 -> surrogate -> R -> list (R * R) -> list (pyval R) -> res (list (pyval R) * R))
          (generate : list (dim R) -> Z -> Z -> res (list (point R))) (logmax : R).
  Notation W := (gp_world tune linv solve cdf pdf e0 xi kappa argsort lbfgs generate logmax).

  Lemma std_nonneg e X m s : Gpr.predict e X true false false false = Ok (mkAnswer m (Some s) None None) -> Forall (Rle 0) s.
  Proof.
    unfold Gpr.predict. cbn [andb negb orb]. destruct X as [|x X]; [discriminate|]. cbn [andb]. rewrite Bool.andb_false_r.
    destruct (e_fitted e) as [g|].
    - destruct (mapM (post_mean g) (x :: X)) as [m'|] eqn:Em; [|discriminate]. destruct (mapM (post_std g) (x :: X)) as [s'|] eqn:Es; [|discriminate].
      cbn [bind]. intro H. injection H as <- <-. apply Forall_forall. intros v Hv. destruct (@mapM_in _ _ _ _ _ _ Es Hv) as (q & _ & Hq).
      unfold post_std in Hq. apply bind_ok in Hq. destruct Hq as (kt & _ & Hq). apply bind_ok in Hq. destruct Hq as (d & _ & Hq). injection Hq as <-. apply sqrt_pos.
    - destruct (e_kernel e) as [k|]; [|discriminate]. destruct (mapM (kdiag k) (x :: X)) as [s'|] eqn:Es; [|discriminate].
      cbn [bind]. intro H. injection H as _ <-. apply Forall_forall. intros v Hv. apply in_map_iff in Hv. destruct Hv as (q & <- & _). apply sqrt_pos.
  Qed.

  Lemma ps_values p t X mus stds mts sts y :
    predicts (Single p) X mus stds -> predicts (Single t) X mts sts ->
    length mus = length stds -> length mts = length sts -> length mus = length mts ->
    forall f, In f ["EI"; "PI"]%string -> exists vs ws,
       gaussian_acquisition Rops cdf pdf X (Single p) (Some y) f xi kappa false = Ok (vs, None) /\
       gaussian_acquisition Rops cdf pdf X (Multi p t) (Some y) (f ++ "ps") xi kappa false = Ok (ws, None) /\
       length vs = length mus /\ length ws = length mus /\
       forall i mt st v w, nth_error mts i = Some mt -> nth_error sts i = Some st -> nth_error vs i = Some v ->
         nth_error ws i = Some w -> w = v * exp (- mt + / 2 * (st * st)).
  Proof.
    intros P1 P2 L1 L2 L3. destruct P2 as (r & E & D & <- & <-).
    assert (Q : forall one gr, exists vs ws,
       (o <- gaussian_imp Rops one gr (Single p) X (Some y) match xi with Some x => x | None => default_xi Rops end false ;;
        Ok (map (neg Rops) (fst o), match snd o with Some g => Some (map (neg Rops) g) | None => None end)) = Ok (vs, None) /\
       (o <- (o <- gaussian_imp Rops one gr (Single p) X (Some y) match xi with Some x => x | None => default_xi Rops end false ;;
        Ok (map (neg Rops) (fst o), match snd o with Some g => Some (map (neg Rops) g) | None => None end)) ;;
        per_second Rops (Single t) X false o) = Ok (ws, None) /\ length vs = length mus /\ length ws = length mus /\
       forall i mt st v w, nth_error (p_mu r) i = Some mt -> nth_error (p_std r) i = Some st -> nth_error vs i = Some v ->
         nth_error ws i = Some w -> w = v * exp (- mt + / 2 * (st * st))).
    { intros one gr. rewrite (imp_values _ _ _ _ _ _ y _ P1). cbn [bind fst snd]. unfold per_second. rewrite E. cbn [bind fst snd].
      do 2 eexists. split; [reflexivity|]. split; [reflexivity|].
      set (vs := map2 _ mus stds). assert (Lv : length vs = length mus) by (now apply map2_len).
      split; [now rewrite map_length|]. split.
      { rewrite map2_len; rewrite map_length; [exact Lv|]. rewrite map2_len; congruence. }
      intros i mt st v w Hm Hs Hv Hw.
      rewrite (map2_nth _ _ _ _ _ _ Hv (map2_nth _ _ _ _ _ _ Hm Hs)) in Hw.
      assert (Q : w = nmul Rops v (inv_time Rops mt st)) by congruence. now rewrite Q, inv_time_R. }
    intros f [<-|[<-|[]]]; unfold gaussian_acquisition; cbn [append]; unfold gaussian_ei, gaussian_pi.
    - change (ends_with_ps "EIps") with true. change (ends_with_ps "EI") with false. cbn [bind String.eqb Ascii.eqb Bool.eqb]. apply Q.
    - change (ends_with_ps "PIps") with true. change (ends_with_ps "PI") with false. cbn [bind String.eqb Ascii.eqb Bool.eqb]. apply Q.
  Qed.

  Lemma bare b a : per_second_of a b -> acq_string a = (acq_string b ++ "ps")%string /\ is_ps (AOne b) = false /\ In (acq_string b) ["EI"; "PI"]%string.
  Proof. intros []; cbn; auto. Qed.

  (** The values per second are those of the plain acquisition function times the factor. *)
  Lemma acq_worth_ps (HN : std_normal cdf pdf) e t a b y X vals : per_second_of a b -> gp_acq cdf pdf xi kappa a (Two e t) y X = Ok vals ->
    exists rows mus stds mts sts, mapM num_row X = Ok rows /\
      Gpr.predict e rows true false false false = Ok (mkAnswer mus (Some stds) None None) /\
      Gpr.predict t rows true false false false = Ok (mkAnswer mts (Some sts) None None) /\
      length mus = length X /\ length stds = length X /\ length mts = length X /\ length sts = length X /\ length vals = length X /\
      forall i mu s mt st v, nth_error mus i = Some mu -> nth_error stds i = Some s -> nth_error mts i = Some mt -> nth_error sts i = Some st ->
        nth_error vals i = Some v -> worth_ps y xi kappa a mu s mt st (- v).
  Proof.
    intros Hab H. pose proof H as H0. unfold gp_acq in H. apply bind_ok in H. destruct H as (rows & Hr & H). apply bind_ok in H. destruct H as (out & Ho & H). injection H as <-.
    assert (E : exists ans, Gpr.predict e rows true false false false = Ok ans).
    { destruct (Gpr.predict e rows true false false false) as [ans|ex] eqn:E; [eauto|]. exfalso.
      assert (Q : gp_predictor e false rows = Raise ex) by (unfold gp_predictor; now rewrite E).
      destruct Hab; unfold gaussian_acquisition in Ho; cbn -[gp_predictor] in Ho; unfold gaussian_ei, gaussian_pi, gaussian_imp, Acquisition.predict in Ho; rewrite Q in Ho; discriminate. }
    destruct E as [ans E]. destruct (predict_shape _ _ E) as (m & s & -> & Lm & Ls). pose proof (gp_predicts _ _ E) as P.
    assert (E2 : exists ans, Gpr.predict t rows true false false false = Ok ans).
    { destruct (Gpr.predict t rows true false false false) as [ans|ex] eqn:E2; [eauto|]. exfalso.
      assert (Q : gp_predictor t false rows = Raise ex) by (unfold gp_predictor; now rewrite E2).
      destruct Hab; cbn [acq_string] in Ho; unfold gaussian_acquisition in Ho; unfold gaussian_ei, gaussian_pi in Ho.
      - change (ends_with_ps "EIps") with true in Ho. cbn [bind String.eqb Ascii.eqb Bool.eqb] in Ho. rewrite (imp_values _ _ _ _ _ _ y _ P) in Ho.
        cbn [bind fst snd] in Ho. unfold per_second, Acquisition.predict in Ho. rewrite Q in Ho. discriminate.
      - change (ends_with_ps "PIps") with true in Ho. cbn [bind String.eqb Ascii.eqb Bool.eqb] in Ho. rewrite (imp_values _ _ _ _ _ _ y _ P) in Ho.
        cbn [bind fst snd] in Ho. unfold per_second, Acquisition.predict in Ho. rewrite Q in Ho. discriminate. }
    destruct E2 as [ans E2]. destruct (predict_shape _ _ E2) as (mt & st & -> & Lmt & Lst). pose proof (gp_predicts _ _ E2) as P2.
    pose proof (@mapM_length _ _ _ _ _ Hr) as Lr. pose proof (std_nonneg _ _ E2) as Hst. rewrite Forall_forall in Hst.
    destruct (bare Hab) as (Es & Hb & Hin).
    destruct (@ps_values _ _ _ _ _ _ _ y P P2 ltac:(congruence) ltac:(congruence) ltac:(congruence) _ Hin) as (vs & ws & V1 & V2 & Lv & Lw & V3).
    rewrite Es, V2 in Ho. injection Ho as <-. cbn [fst].
    assert (B : gp_acq cdf pdf xi kappa b (One e) y X = Ok vs) by (unfold gp_acq; rewrite Hr; cbn [bind]; now rewrite V1).
    destruct (@acq_worth cdf pdf xi kappa HN _ _ _ _ _ B Hb) as (rows' & m' & s' & C1 & C2 & _ & _ & _ & C3).
    rewrite C1 in Hr. injection Hr as ->. rewrite C2 in E. injection E as -> ->.
    exists rows, m, s, mt, st. split; [exact C1|]. split; [exact C2|]. split; [exact E2|].
    split; [congruence|]. split; [congruence|]. split; [congruence|]. split; [congruence|]. split; [congruence|].
    intros i mu sd t0 s0 w H1 H2 H3 H4 H5. assert (Li : (i < length vs)%nat) by (rewrite Lv; apply nth_error_Some; congruence).
    destruct (nth_error vs i) as [v|] eqn:Ev; [|apply nth_error_None in Ev; lia].
    rewrite (V3 _ _ _ _ _ H3 H4 Ev H5). exists b, (- v), (exp (- t0 + / 2 * (s0 * s0))). split; [exact Hab|]. split; [now apply (C3 i)|].
    split; [|lra]. specialize (Hst s0 (nth_error_In _ _ H4)). destruct (Rle_lt_or_eq_dec _ _ Hst) as [L|<-].
    - apply pace_noisy; [exact L|now apply AcqLemmas.exp_expectation].
    - replace (exp _) with (/ exp t0); [apply pace_sure|]. rewrite <- exp_Ropp. f_equal. lra.
  Qed.

  Lemma c82_ps RNG (G : rng_ops R RNG) (HN : std_normal cdf pdf) x y o o' r a : reachable Rops G W o -> tell Rops G W x y true o = (o', Ok r) ->
    (c_n0 (o_cfg o') <= Z.of_nat (length (o_yi o')))%Z -> c_est (o_cfg o') <> None ->
    c_lbfgs (o_cfg o') = false -> c_acq (o_cfg o') = AOne a -> ps_of o' = true ->
    let dims := c_dims (o_cfg o') in
    exists T ms e t D Dt Dn g P X rows yopt mus stds mts sts i mu s mt st x0 nx p rest,
      o_yi o' = map (fun q => YP (fst q) (snd q)) T /\
      o_models o' = ms ++ [Two e t] /\
      (o_Xi o' = map (@X1 R) D /\ space_transform Rops dims D = Ok Dt /\ mapM num_row Dt = Ok Dn /\
       Gpr.fit tune linv solve e0 Dn (map fst T) = Ok e /\ Gpr.fit tune linv solve e0 Dn (map snd T) = Ok t) /\
      (fst (space_rvs Rops G dims (c_npoints (o_cfg o')) g) = Ok P /\ space_transform Rops dims P = Ok X /\ mapM num_row X = Ok rows /\
       Gpr.predict e rows true false false false = Ok (mkAnswer mus (Some stds) None None) /\
       Gpr.predict t rows true false false false = Ok (mkAnswer mts (Some sts) None None)) /\
      (In yopt (map fst T ++ map snd T) /\ forall v, In v (map fst T ++ map snd T) -> yopt <= v) /\
      (nth_error X i = Some x0 /\ nth_error mus i = Some mu /\ nth_error stds i = Some s /\ nth_error mts i = Some mt /\ nth_error sts i = Some st) /\
      (exists v, worth_ps yopt xi kappa a mu s mt st v /\
         forall j mu' s' mt' st', nth_error mus j = Some mu' -> nth_error stds j = Some s' -> nth_error mts j = Some mt' -> nth_error sts j = Some st' ->
         exists v', worth_ps yopt xi kappa a mu' s' mt' st' v' /\ v' <= v) /\
      (if is_categorical dims then nx = x0 else clipped_row Rops (space_tbounds Rops dims) x0 nx) /\
      space_inverse Rops dims [nx] = Ok (p :: rest) /\ o_next o' = Some p.
  Proof.
    intros Hr H Hn He Hb Ha Hps dims.
    destruct (@c17_surrogate _ _ _ _ G W x y o o' r Hr H Hn He) as (D & Dt & m & ms & nx0 & p0 & rest0 & A1 & A2 & A3 & A4 & _).
    destruct (@pick_last _ _ _ Rops G W Rops_order x y o o' r a Hr H Hn He Hb Ha (nan_R _)) as
      (ms' & m' & g & P & X & yopt & vals & i & x0 & nx & p & rest & B1 & B2 & B3 & (B4 & B5) & B6 & B7 & B8 & B9 & B10 & B11).
    rewrite A4 in B1. apply app_inj_tail in B1. destruct B1 as [<- <-].
    assert (Hr' : reachable Rops G W o').
    { pose proof (r_call (CTell x y true) Hr) as Hr'. cbn [do_call] in Hr'. now rewrite H in Hr'. }
    destruct (shaped_timed (reachable_shaped Hr') Hps) as (T & HT).
    assert (Hab : exists b, per_second_of a b).
    { unfold ps_of in Hps. rewrite Ha in Hps. destruct a; try discriminate; eexists; constructor. }
    destruct Hab as (b & Hab). rewrite HT in A3, B4, B5.
    assert (NT : exists q T', T = q :: T') by (destruct T as [|q T']; [easy|eauto]).
    cbn [w_fit gp_world] in A3. unfold gp_fit in A3. apply bind_ok in A3. destruct A3 as (Dn & A3 & A5).
    assert (Hpc : plain_col (timed T) = None) by (destruct NT as (q & T' & ->); reflexivity).
    rewrite Hpc, timed_cols_map in A5.
    apply bind_ok in A5. destruct A5 as (e & A5 & A6). apply bind_ok in A6. destruct A6 as (t & A6 & A7). injection A7 as <-.
    cbn [w_acq gp_world] in B6. destruct (@acq_worth_ps HN _ _ _ _ _ _ _ Hab B6) as (rows & mus & stds & mts & sts & C1 & C2 & C2' & C3 & C4 & C3' & C4' & C5 & C6).
    destruct (B8 (nan_R _)) as (v & V1 & V2).
    assert (Li : (i < length X)%nat) by (apply nth_error_Some; congruence).
    destruct (nth_error mus i) as [mu|] eqn:Em; [|apply nth_error_None in Em; lia].
    destruct (nth_error stds i) as [s|] eqn:Es; [|apply nth_error_None in Es; lia].
    destruct (nth_error mts i) as [mt|] eqn:Emt; [|apply nth_error_None in Emt; lia].
    destruct (nth_error sts i) as [st|] eqn:Est; [|apply nth_error_None in Est; lia].
    exists T, ms, e, t, D, Dt, Dn, g, P, X, rows, yopt, mus, stds, mts, sts, i, mu, s, mt, st, x0, nx, p, rest.
    split; [exact HT|]. split; [exact A4|]. split; [auto|]. split; [auto|].
    split; [split; [now apply timed_flat|]; intros w Hw; apply leb_R, B5; now apply timed_flat|]. split; [auto|].
    split; [|auto]. exists (- v). split; [now apply (C6 i)|]. intros j mu' s' mt' st' Hm Hs Hmt Hst.
    assert (Lj : (j < length X)%nat) by (rewrite <- C3; apply nth_error_Some; congruence).
    destruct (nth_error vals j) as [v'|] eqn:Ev; [|apply nth_error_None in Ev; lia].
    exists (- v'). split; [now apply (C6 j)|]. apply nth_error_In in Ev. apply V2, leb_R in Ev. lra.
  Qed.
End PsWorld.
