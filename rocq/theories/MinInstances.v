(** gp_minimize, forest_minimize and gbrt_minimize called as documented (C91). *)
From Coq Require Import String List ZArith Bool Lia Reals Lra.
From Verif Require Import Base BaseLemmas Num NumLaws Values Dimension Space Optimizer SpaceSpec OptSpec OptSamples SamplerSamples PickCases Acquisition AcqSpec GaussLemmas
  Kernels KernelPsdSpec Gpr GprSpec Cholesky Forest ForestSpec Gbrt GbrtLemmas GpWorld CampaignSpec Campaign GpDependable CampaignCases WarpLemmas
  TreeWorld TreeWorldProps TreeInstances TreeCases Minimize MinSpec MinTotalSpec MinTotal.
Import ListNotations.
Open Scope list_scope.
Set Implicit Arguments.

Section MinInstances.
  Context (cdf pdf : R -> R) (xi : option R) (kappa : option (@kappa_arg R)) (argsort : list R -> list nat)
          (generate : list (dim R) -> Z -> Z -> res (list (point R))) (logmax : R).
  Definition generates (d : list (dim R)) : Prop :=
    forall n seed, (0 <= n)%Z -> exists l, generate d n seed = Ok l /\ length l = Z.to_nat n /\ List.Forall (in_space Rops d) l.

  Lemma c91_gp tune e0 lbfgs : let W := gp_world tune cho_inv cho_weights cdf pdf e0 xi kappa argsort lbfgs generate logmax in
    forall RNG (G : rng_ops R RNG), rng_ok Rops G ->
    forall own f (a : margs R RNG surrogate) g x0 acq d, orderly (MGp own) f a x0 acq ->
    set_kinds_all KNormalize (a_dims (m_opt a)) = Ok d -> List.Forall workable d ->
    (forall k X y, valid k (t_n_dims d) -> valid (tune k X y) (t_n_dims d)) -> valid (user_kernel e0) (t_n_dims d) ->
    match e_noise e0 with NoiseOther => False | NoiseLevel v => (0 <= v)%R | _ => True end -> (0 < e_alpha e0)%R -> e_normalize e0 = false ->
    (a_acqopt (m_opt a) = "auto"%string -> forall m q yopt r, In q (cand_acqs acq) -> within (O := Rops) (space_tbounds Rops d) r ->
       exists r' v, lbfgs q m yopt (space_tbounds Rops d) r = Ok (r', v) /\ within (O := Rops) (space_tbounds Rops d) r') ->
    argsort_ok Rops W -> generates d ->
    exists t o r, minimize Rops G W (MGp own) f a g = (t, Some o, Ok (Some r)) /\ (never_stops (callbacks_of a) -> Z.of_nat (length (evals t)) = m_ncalls a).
  Proof.
    intros W RNG G RG own f a g x0 acq d H Hd Hw Ht Hk Hnz Ha Hnm Hl Hs Hg. apply c91 with x0 acq; [exact RG|discriminate|exact H|].
    intros d' lb U Lb. cbn [used] in U. rewrite U in Hd. injection Hd as ->. split; [exact Hw|].
    apply gp_dependable; try assumption. intros E. apply Hl. exact (proj1 (Lb E)).
  Qed.

  Section Trees.
    Context {RNG E : Type} (K : regressor E) (G : rng_ops R RNG) (RG : rng_ok Rops G).
    Notation W := (tree_world K cdf pdf xi kappa argsort generate logmax).
    Lemma c91_trees m f (a : margs R RNG (tsurrogate E)) g x0 acq : m = MForest \/ m = MGbrt -> orderly m f a x0 acq -> ~ scales (m_opt a) ->
      List.Forall workable (a_dims (m_opt a)) -> dependable W anything (a_dims (m_opt a)) acq false ->
      exists t o r, minimize Rops G W m f a g = (t, Some o, Ok (Some r)) /\ (never_stops (callbacks_of a) -> Z.of_nat (length (evals t)) = m_ncalls a).
    Proof.
      intros Hm H Hsc Hw Hd. apply c91 with x0 acq; [exact RG|destruct Hm as [-> | ->]; discriminate|exact H|].
      intros d lb U Lb.
      assert (D : d = a_dims (m_opt a)) by (destruct Hm as [-> | ->]; destruct U as [U|(U & _)]; [exact U|easy|exact U|easy]). subst d. split; [exact Hw|].
      destruct lb; [|exact Hd]. destruct (Lb eq_refl) as (Q & _). destruct Hm as [-> | ->]; discriminate.
    Qed.
  End Trees.

  Lemma c91_forest grow criterion minvar : let W := tree_world (forest_reg grow criterion minvar) cdf pdf xi kappa argsort generate logmax in
    forall RNG (G : rng_ops R RNG), rng_ok Rops G ->
    forall f (a : margs R RNG (tsurrogate forest)) g x0 acq, orderly MForest f a x0 acq -> ~ scales (m_opt a) ->
    List.Forall workable (a_dims (m_opt a)) ->
    criterion = "mse"%string -> (forall X y, X <> [] -> length X = length y -> grow X y <> []) ->
    (forall X y x, List.Forall (sound_tree x) (grow X y)) -> argsort_ok Rops W -> generates (a_dims (m_opt a)) ->
    exists t o r, minimize Rops G W MForest f a g = (t, Some o, Ok (Some r)) /\ (never_stops (callbacks_of a) -> Z.of_nat (length (evals t)) = m_ncalls a).
  Proof. intros W RNG G RG f a g x0 acq H Hsc Hw Hc Hn HS Hs Hg. eapply c91_trees; eauto. now apply forest_dependable. Qed.

  Lemma c91_boosted S gb_fit e0 (rng : S) : let W := tree_world (gbrt_reg gb_fit e0 rng) cdf pdf xi kappa argsort generate logmax in
    forall RNG (G : rng_ops R RNG), rng_ok Rops G ->
    forall f (a : margs R RNG (tsurrogate (gbrt (N := R)))) g x0 acq, orderly MGbrt f a x0 acq -> ~ scales (m_opt a) ->
    List.Forall workable (a_dims (m_opt a)) ->
    match q_base e0 with GBNone => True | GBRegressor loss => loss = "quantile"%string | GBOther => False end ->
    In (16 / 100)%R (q_quantiles e0) -> In (/ 2)%R (q_quantiles e0) -> In (84 / 100)%R (q_quantiles e0) ->
    (forall q X y rows, X <> [] -> length X = length y -> exists p, gb_fit q rng (X, y) rows = Ok p /\ length p = length rows) ->
    argsort_ok Rops W -> generates (a_dims (m_opt a)) ->
    exists t o r, minimize Rops G W MGbrt f a g = (t, Some o, Ok (Some r)) /\ (never_stops (callbacks_of a) -> Z.of_nat (length (evals t)) = m_ncalls a).
  Proof. intros W RNG G RG f a g x0 acq H Hsc Hw Hb H1 H2 H3 Hf Hs Hg. eapply c91_trees; eauto. now apply boosted_dependable. Qed.
End MinInstances.

(** Two points given, one of the callbacks may stop, observations with or without times. *)
Section Cases.
  Context {M : Type}.
  Definition fR (acq : acqf) : objective R := fun _ _ => Ok (yR acq).
  Definition stop3 : callback R nat M := fun seen => Ok (Some (Nat.ltb 3%nat (length seen))).
  Definition argsM (e : est_desc) (s : string) (gen : bool) (y0 : y0arg R) : margs R nat M :=
    mkMargs (mkArgs treeR (Some e) true 1%Z gen s "auto" (Some 2%Z) 3%nat 2%nat 1%R) 7%Z 2%Z None (X0Seq true [IPt pR1; IPt pR2]) y0 (CBOne stop3) true.
  Lemma orderly_case m e s acq (gen : bool) : m <> MDummy -> ed_regressor e = true -> acq_of s = Some acq ->
    orderly m (fR acq) (argsM e s gen Y0None) [pR1; pR2] acq /\ orderly m (fR acq) (argsM e s gen (Y0Seq [yR acq; yR acq])) [pR1; pR2] acq.
  Proof.
    intros Hm Hr E.
    assert (A : forall y0, match values_of y0 with Some ys => length ys = 2%nat /\ List.Forall (valid_y1 Rops (is_ps acq)) ys | None => y0 = Y0None end ->
      (2 + match values_of y0 with Some _ => 0 | None => 2 end <= 7)%Z -> orderly m (fR acq) (argsM e s gen y0) [pR1; pR2] acq).
    { intros y0 Hy Hc. constructor; cbn [argsM m_opt m_x0 m_y0 m_ncalls m_callback a_acq a_est a_dims a_npoints a_restarts a_queue]; auto.
      - destruct m; cbn; auto.
      - repeat split; try discriminate. 
      - split; [exact (@gv_list R [pR1; pR2] ltac:(discriminate))|]. exact (Forall_cons _ pT1_in (Forall_cons _ pT2_in (Forall_nil _))).
      - split; [cbn; lia|]. split; [discriminate|]. exact Hc.
      - intros k p _. eexists. split; [reflexivity|apply yR_ok].
      - split; [exact I|]. intros c seen [<-|[<-|[]]]; eexists; reflexivity. }
    split; apply A; cbn; try lia; auto. split; [reflexivity|]. repeat constructor; apply yR_ok.
  Qed.
End Cases.
Lemma normal_treeR : set_kinds_all KNormalize treeR = Ok mixR.
Proof. reflexivity. Qed.
(** All in one: such calls succeed. *)
Lemma c91_case s acq (gen : bool) : acq_of s = Some acq ->
  (exists t o r, minimize Rops GR (WG Phi phi) (MGp false) (fR acq) (argsM gp_est s gen Y0None) 0%nat = (t, Some o, Ok (Some r))) /\
  (exists t o r, minimize Rops GR (WF Phi phi) MForest (fR acq) (argsM tree_est s gen Y0None) 0%nat = (t, Some o, Ok (Some r))) /\
  (exists t o r, minimize Rops GR (WB Phi phi) MGbrt (fR acq) (argsM tree_est s gen (Y0Seq [yR acq; yR acq])) 0%nat = (t, Some o, Ok (Some r))).
Proof.
  intros E. split; [|split].
  - destruct (@c91 _ _ GR (WG Phi phi) GR_ok (MGp false) (fR acq) (argsM gp_est s gen Y0None) 0%nat [pR1; pR2] acq) as (t & o & r & H & _);
      [discriminate|apply (@orderly_case surrogate (MGp false) gp_est s acq gen); [discriminate|reflexivity|exact E]| |eauto].
    intros d lb U _. cbn [used argsM m_opt a_dims] in U. rewrite normal_treeR in U. injection U as <-. split; [exact mixR_workable|apply WG_dependable].
  - destruct (@c91_trees Phi phi None None (arg_sort Rops) genR 709%R _ _ (forest_reg growR "mse" 0%R) GR GR_ok MForest (fR acq) (argsM tree_est s gen Y0None) 0%nat [pR1; pR2] acq) as (t & o & r & H & _);
      [now left|apply (@orderly_case (tsurrogate forest) MForest tree_est s acq gen); [discriminate|reflexivity|exact E]|cbn; discriminate|exact treeR_workable|apply WF_dependable|eauto].
  - destruct (@c91_trees Phi phi None None (arg_sort Rops) genR 709%R _ _ (gbrt_reg boostR three tt) GR GR_ok MGbrt (fR acq) (argsM tree_est s gen (Y0Seq [yR acq; yR acq])) 0%nat [pR1; pR2] acq) as (t & o & r & H & _);
      [now right|apply (@orderly_case (tsurrogate (gbrt (N := R))) MGbrt tree_est s acq gen); [discriminate|reflexivity|exact E]|cbn; discriminate|exact treeR_workable|apply WB_dependable|eauto].
Qed.
