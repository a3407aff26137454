(** Gaussian processes that normalise the observations do not care about the unit. *)
From Coq Require Import String List ZArith Bool Reals Lra Lia.
From Verif Require Import Base BaseLemmas Num NumLaws Values Dimension Space Optimizer OptSpec Acquisition Kernels Gpr GprSpec GprAffine GprAcq GpWorld WorthSpec GpWorldProps UnitSpec UnitSim.
Import ListNotations.
Open Scope R_scope.
Open Scope list_scope.
Set Implicit Arguments.

Section UnitGp.
  Context (tune : kernel -> mat -> vec -> kernel) (linv : mat -> option mat) (solve : mat -> vec -> vec) (cdf pdf : R -> R).
  Context (e0 : gpr) (xi : option R) (kappa : option (@kappa_arg R)).
  Context (argsort argsort' : list R -> list nat)
          (lbfgs lbfgs' : acq1 -> surrogate -> R -> list (R * R) -> list (pyval R) -> res (list (pyval R) * R))
          (generate : list (dim R) -> Z -> Z -> res (list (point R))) (logmax logmax' : R).
  Context (a b : R) (Pa : 0 < a) (Hn : e_normalize e0 = true).
  Notation W := (gp_world tune linv solve cdf pdf e0 xi kappa argsort lbfgs generate logmax).
  Notation W' := (gp_world tune linv solve cdf pdf e0 (Some (a * margin xi)) kappa argsort' lbfgs' generate logmax').
  Notation f := (fun v : R => a * v + b).

  Definition twin_gp (e e' : gpr) : Prop := exists g, e_fitted e = Some g /\ e_fitted e' = Some (scaled_gp a b g).
  Definition twin_surrogate (m m' : surrogate) : Prop := exists e e', m = One e /\ m' = One e' /\ twin_gp e e'.
  Lemma fit_twin X y : res_rel twin_gp (fit tune linv solve e0 X y) (fit tune linv solve e0 X (map f y)).
  Proof.
    unfold fit. rewrite Hn. destruct (fit_kernel e0) as [k|e]; [|exact eq_refl]. cbn [bind].
    destruct y as [|v y]; [cbn [map]; rewrite std_nil; destruct (Req_EM_T 0 0); [exact eq_refl|congruence]|].
    assert (NE : v :: y <> []) by discriminate. set (q := v :: y) in *. rewrite (mean_affine a b q NE), (std_affine a b Pa q NE).
    destruct (Req_EM_T (std q) 0) as [E|Ns], (Req_EM_T (a * std q) 0) as [E'|Ns'].
    - exact eq_refl.
    - exfalso. apply Ns'. rewrite E. ring.
    - exfalso. apply Rmult_integral in E'. lra.
    - cbv zeta. rewrite map_map, (map_ext (fun v => (a * v + b - (a * mean q + b)) / (a * std q)) (fun v => (v - mean q) / std q)) by (intro; field; split; lra).
      destruct (train_matrix _ _ _) as [K|e]; [|exact eq_refl]. cbn [bind]. destruct (linv K) as [A|]; [|exact eq_refl].
      destruct (match e_noise e0 with NoNoise => _ | _ => _ end) as [k2 nz]. cbn [res_rel]. eexists. split; reflexivity.
  Qed.
  Lemma plain_YS_col l : plain_col (map (@YS R) l) = Some l.
  Proof. induction l as [|v l IH]; [reflexivity|]. cbn. now rewrite IH. Qed.
  Lemma gp_fit_twin X ys : res_rel twin_surrogate (gp_fit tune linv solve e0 X (map (@YS R) ys)) (gp_fit tune linv solve e0 X (map (fun v => YS (a * v + b)) ys)).
  Proof.
    unfold gp_fit. destruct (mapM num_row X) as [X'|e]; [|exact eq_refl]. cbn [bind]. rewrite plain_YS_col, <- (map_map f (@YS R)), plain_YS_col.
    pose proof (fit_twin X' ys) as H. destruct (fit tune linv solve e0 X' ys) as [e|x], (fit tune linv solve e0 X' (map f ys)) as [e'|x']; cbn in *; try easy.
    exists e, e'. auto.
  Qed.
  Lemma predictor_twin e e' X : twin_gp e e' -> gp_predictor e' false X =
    rmap (fun r => mkPred true (map f (p_mu r)) (map (fun s => a * s) (p_std r)) [] []) (gp_predictor e false X) /\
    (forall r, gp_predictor e false X = Ok r -> p_1d r = true).
  Proof.
    intros (g & E & E'). unfold gp_predictor. rewrite (predict_affine a b Pa e e' g X true false E E').
    destruct (Gpr.predict e X true false false false) as [q|x] eqn:Q; [|split; [reflexivity|discriminate]].
    destruct (predict_shape _ _ Q) as (m & s & -> & _). cbn. split; [reflexivity|]. intros r Hr. now injection Hr as <-.
  Qed.
  Lemma map2_twin (h : R -> R) (u u' : R -> R -> R) l l' : (forall m s, u' (a * m + b) (a * s) = h (u m s)) ->
    map2 u' (map f l) (map (fun s => a * s) l') = map h (map2 u l l').
  Proof.
    intro H. unfold map2. rewrite map_map. revert l'. induction l as [|m l IH]; intros [|s l']; try reflexivity. cbn. now rewrite H, IH.
  Qed.
  Lemma ltb_scale s : Rltb 0 (a * s) = Rltb 0 s.
  Proof. replace 0 with (a * 0) at 1 by ring. apply (@ltb_mono (fun v => a * v)). intros. nra. Qed.
  Lemma ratio y x m s : Rltb 0 s = true -> (a * y + b - a * x - (a * m + b)) / (a * s) = (y - x - m) / s.
  Proof. unfold Rltb. destruct (Rlt_dec 0 s); [|discriminate]. intros _. field. split; lra. Qed.
  Lemma pi_twin y x m s : pi_one Rops cdf (a * y + b) (a * x) (a * m + b) (a * s) = pi_one Rops cdf y x m s.
  Proof.
    unfold pi_one, improve. cbn [Rops nltb nsub ndiv nofZ]. rewrite ltb_scale. destruct (Rltb 0 s) eqn:E; [|reflexivity]. now rewrite (ratio y x m s E).
  Qed.
  Lemma ei_twin y x m s : ei_one Rops cdf pdf (a * y + b) (a * x) (a * m + b) (a * s) = a * ei_one Rops cdf pdf y x m s.
  Proof.
    unfold ei_one, improve. cbn [Rops nltb nsub ndiv nofZ nadd nmul]. rewrite ltb_scale. destruct (Rltb 0 s) eqn:E; [|ring]. rewrite (ratio y x m s E). ring.
  Qed.
  Lemma acq_twin acq m m' y X : is_ps (AOne acq) = false -> twin_surrogate m m' ->
    exists h, (forall u v, u < v -> h u < h v) /\
      gp_acq cdf pdf (Some (a * margin xi)) kappa acq m' (a * y + b) X = rmap (map h) (gp_acq cdf pdf xi kappa acq m y X).
  Proof.
    intros Hacq (e & e' & -> & -> & T). unfold gp_acq.
    assert (K : forall h, (forall u v, u < v -> h u < h v) ->
       (forall rows r, gp_predictor e false rows = Ok r ->
          gaussian_acquisition Rops cdf pdf rows (Single (gp_predictor e' false)) (Some (a * y + b)) (acq_string acq) (Some (a * margin xi)) kappa false =
          rmap (fun q => (map h (fst q), None)) (gaussian_acquisition Rops cdf pdf rows (Single (gp_predictor e false)) (Some y) (acq_string acq) xi kappa false)) ->
       exists h, (forall u v, u < v -> h u < h v) /\
         (X' <- mapM num_row X ;; out <- gaussian_acquisition Rops cdf pdf X' (Single (gp_predictor e' false)) (Some (a * y + b)) (acq_string acq) (Some (a * margin xi)) kappa false ;; Ok (fst out)) =
         rmap (map h) (X' <- mapM num_row X ;; out <- gaussian_acquisition Rops cdf pdf X' (Single (gp_predictor e false)) (Some y) (acq_string acq) xi kappa false ;; Ok (fst out))).
    { intros h Hh H. exists h. split; [exact Hh|]. destruct (mapM num_row X) as [rows|]; [|reflexivity]. cbn [bind].
      destruct (gp_predictor e false rows) as [r|x] eqn:E.
      - rewrite (H rows r E). now destruct (gaussian_acquisition _ _ _ rows (Single (gp_predictor e false)) _ _ _ _ _).
      - destruct (predictor_twin rows T) as [Q _]. rewrite E in Q. cbn [rmap] in Q.
        destruct acq; try discriminate Hacq; unfold gaussian_acquisition; cbn -[gp_predictor]; unfold gaussian_ei, gaussian_pi, gaussian_lcb, gaussian_imp, Acquisition.predict; rewrite E, Q; reflexivity. }
    assert (D : default_xi Rops = / 100) by (unfold default_xi; cbn; lra).
    destruct acq; try discriminate Hacq.
    - apply (K (fun v => a * v)); [intros; nra|]. intros rows r E. destruct (predictor_twin rows T) as [Q Q1]. specialize (Q1 r E). rewrite E in Q. cbn [rmap] in Q.
      unfold gaussian_acquisition. cbn -[gp_predictor ei_one neg Rops]. unfold gaussian_ei, gaussian_imp, Acquisition.predict. rewrite E, Q. cbn [bind p_1d p_mu p_std negb]. rewrite Q1. cbn [negb bind fst snd rmap].
      do 2 f_equal. rewrite !map_map. replace (match xi with Some x => x | None => default_xi Rops end) with (margin xi) by (unfold margin; destruct xi; congruence).
      rewrite (map2_twin (fun v => a * v) (ei_one Rops cdf pdf y (margin xi))) by (intros; apply ei_twin). rewrite map_map. apply map_ext. intro v. unfold neg. cbn. ring.
    - assert (L : exists h, (forall u v, u < v -> h u < h v) /\
         forall m s, lcb_one Rops (match kappa with Some k => k | None => Kappa (default_kappa Rops) end) (a * m + b) (a * s) = h (lcb_one Rops (match kappa with Some k => k | None => Kappa (default_kappa Rops) end) m s)).
      { destruct (match kappa with Some k => k | None => Kappa (default_kappa Rops) end) as [k|].
        - exists f. split; [intros; nra|]. intros m s. unfold lcb_one. cbn. ring.
        - exists (fun v => a * v). split; [intros; nra|]. intros m s. unfold lcb_one, neg. cbn. ring. }
      destruct L as (h & Hh & L). apply (K h Hh). intros rows r E. destruct (predictor_twin rows T) as [Q Q1]. rewrite E in Q. cbn [rmap] in Q.
      unfold gaussian_acquisition. cbn -[gp_predictor lcb_one Rops]. unfold gaussian_lcb, Acquisition.predict. rewrite E, Q. cbn [bind p_mu p_std fst rmap].
      now rewrite (map2_twin h _ _ _ _ L).
    - apply (K (fun v => v)); [auto|]. intros rows r E. destruct (predictor_twin rows T) as [Q Q1]. specialize (Q1 r E). rewrite E in Q. cbn [rmap] in Q.
      unfold gaussian_acquisition. cbn -[gp_predictor pi_one neg Rops]. unfold gaussian_pi, gaussian_imp, Acquisition.predict. rewrite E, Q. cbn [bind p_1d p_mu p_std negb]. rewrite Q1. cbn [negb bind fst snd rmap].
      do 2 f_equal. rewrite !map_map. replace (match xi with Some x => x | None => default_xi Rops end) with (margin xi) by (unfold margin; destruct xi; congruence).
      rewrite (map2_twin (fun v => v) (pi_one Rops cdf y (margin xi))) by (intros; apply pi_twin). now rewrite map_map.
  Qed.
  Lemma gp_unit_free acq : is_ps (AOne acq) = false -> unit_free W W' a b twin_surrogate acq.
  Proof.
    intro Hacq. constructor.
    - intros X ys. exact (gp_fit_twin X ys).
    - intros m m' y X H. cbn [w_acq gp_world]. now apply acq_twin.
    - reflexivity.
  Qed.
  Lemma c97 RNG (G : rng_ops R RNG) acq c o o' : is_ps (AOne acq) = false -> twins G W W' a b acq o o' -> settled b o c ->
    same_answer a b (snd (do_call Rops G W c o)) (snd (do_call Rops G W' (call_in_unit a b c) o')).
  Proof. intros Hacq. apply (@twins_step _ _ G W W' a b twin_surrogate acq Pa (gp_unit_free acq Hacq) Hacq). Qed.
End UnitGp.
