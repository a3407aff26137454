(** The theorems about surrogates and generators asked for by name (C84, C85, C86). *)
From Coq Require Import String List ZArith Bool Ascii Reals Lra Lia.
From Verif Require Import Base BaseLemmas Num NumLaws Values Transformers Dimension Space CheckDim Switch SwitchSpec SwitchProps
  Optimizer Kernels Gpr GprSpec KernelPsdSpec NamedLemmas Cook CookSpec CookLemmas CookProps.
Import ListNotations.
Open Scope list_scope.
Set Implicit Arguments.

Section Thms.
  Context {N : Type} (O : numops N).
  Notation obj := (dobj N).
  Implicit Types (h : heap N) (ds : list (harg N)) (os : list obj).

  Lemma word_upper n : upper (word n) = word n.
  Proof. now destruct n. Qed.
  Lemma spelled_word s n : spelled s (word n) -> upper s = word n.
  Proof. apply upper_iff, word_upper. Qed.

  (** What cook_estimator does for a name other than GP, *)
  Definition base (n : surrogate_name) : est :=
    match n with NGP => gp_est (Const 1) | NRF => Est CRF (forest_params true) | NET => Est CET (forest_params false) | NGBRT => gbrt_est end.
  Lemma base_fits n : fits n (base n).
  Proof. destruct n; [apply fits_gp|apply fits_rf|apply fits_et|apply fits_gbrt]. Qed.
  Lemma cook_plain h s n sp kw : spelled s (word n) -> n <> NGP -> cook_estimator O h (BName s) sp kw = (h, finish_cook (base n) kw).
  Proof. intros S Hn. unfold cook_estimator. rewrite (@spelled_word s n S). destruct n; [easy|reflexivity|reflexivity|reflexivity]. Qed.
  (** and for GP *)
  Lemma cook_gp h s ds kw : spelled s "GP" -> cook_estimator O h (BName s) (Some ds) kw =
    match normalize_dimensions O h ds with
    | (h1, Raise e) => (h1, Raise e)
    | (h1, Ok l) => (h1, os <- mapM (at_ h1) l ;; finish_cook (gp_est (default_kernel os)) kw)
    end.
  Proof. intros S. unfold cook_estimator. rewrite (@spelled_word s NGP S). reflexivity. Qed.

  Theorem c84_by_name h s n sp kw h' e : spelled s (word n) -> NoDup (map fst kw) ->
    cook_estimator O h (BName s) sp kw = (h', Ok e) ->
    exists x, e = Some x /\ e_class x = class_for n /\
      (forall k v, In (k, v) kw -> In k (known n) -> param x k = Some v) /\
      (forall k v, In (k, v) (promised n) -> ~ In k (map fst kw) -> param x k = Some v).
  Proof.
    intros S D E. assert (Q : exists e0, fits n e0 /\ finish_cook e0 kw = Ok e).
    { destruct n; try (rewrite (@cook_plain h s _ sp kw S) in E by easy; injection E as <- E; eexists; split; [apply base_fits|exact E]).
      destruct sp as [ds|].
      - rewrite (@cook_gp h s ds kw S) in E. destruct (normalize_dimensions O h ds) as [h1 [l|]]; [|easy]. injection E as <- E.
        destruct (mapM (at_ h1) l) as [os|]; [|easy]. eexists. split; [apply fits_gp|exact E].
      - unfold cook_estimator in E. rewrite (@spelled_word s NGP S) in E. discriminate. }
    destruct Q as (e0 & F & Fe). destruct (@finish_ok n e0 kw e F D Fe) as (x & -> & A & B & C & _). exists x. auto.
  Qed.
  Theorem c84_answered h s n ds dms kw : spelled s (word n) -> Forall2 (stands_for O h) ds dms ->
    (forall k, In k (map fst kw) -> In k (known n) \/ k = "n_jobs"%string) ->
    exists h' x, cook_estimator O h (BName s) (Some ds) kw = (h', Ok (Some x)).
  Proof.
    intros S St K. destruct n; try (rewrite (@cook_plain h s _ (Some ds) kw S) by easy; destruct (@finish_total _ _ kw (base_fits _) K) as (x & ->); eauto).
    rewrite (@cook_gp h s ds kw S). destruct (stands_all St) as (os & F & _). destruct (normalize_dims_ok F) as (h' & l & -> & Fl & _).
    rewrite (at_all (forall2_normal Fl)). cbn [bind]. destruct (@finish_total NGP _ kw (fits_gp (default_kernel (map (@normal N) os))) K) as (x & ->). eauto.
  Qed.
  Theorem c84_refused h s (ds : option (list (harg N))) (kw : list (string * pval)) :
    (forall n, spelled s (word n) -> (exists k, In k (map fst kw) /\ ~ In k (known n) /\ k <> "n_jobs"%string) \/ (n = NGP /\ ds = None)) ->
    ~ spelled s "dummy" -> (forall l, ds = Some l -> exists dms, Forall2 (stands_for O h) l dms) ->
    exists h', cook_estimator O h (BName s) ds kw = (h', Raise ValueError).
  Proof.
    intros H D St.
    assert (Hd : upper s <> "DUMMY"%string).
    { intro E. apply D. change "DUMMY"%string with (upper "dummy") in E. now apply (smap_iff up up_iff). }
    assert (G : forall n, upper s = word n -> spelled s (word n)) by (intros n E; apply upper_iff; [apply word_upper|exact E]).
    unfold cook_estimator.
    destruct (String.eqb_spec (upper s) "GP") as [E|E1].
    { destruct (H NGP (G NGP E)) as [(k & I & K & J)|(_ & ->)]; [|eauto]. destruct ds as [l|]; [|eauto]. destruct (St l eq_refl) as (dms & F).
      destruct (stands_all F) as (os & F' & _). destruct (normalize_dims_ok F') as (h' & l' & -> & Fl & _). exists h'.
      rewrite (at_all (forall2_normal Fl)). cbn [bind]. now rewrite (@finish_refused NGP _ kw k (fits_gp _) I K J). }
    destruct (String.eqb_spec (upper s) "RF") as [E|E2].
    { destruct (H NRF (G NRF E)) as [(k & I & K & J)|]; [|easy]. exists h. now rewrite (@finish_refused NRF _ kw k fits_rf I K J). }
    destruct (String.eqb_spec (upper s) "ET") as [E|E3].
    { destruct (H NET (G NET E)) as [(k & I & K & J)|]; [|easy]. exists h. now rewrite (@finish_refused NET _ kw k fits_et I K J). }
    destruct (String.eqb_spec (upper s) "GBRT") as [E|E4].
    { destruct (H NGBRT (G NGBRT E)) as [(k & I & K & J)|]; [|easy]. exists h. now rewrite (@finish_refused NGBRT _ kw k fits_gbrt I K J). }
    destruct (String.eqb_spec (upper s) "DUMMY") as [E|E5]; [easy|]. eauto.
  Qed.
  Theorem c84_dummy h s (ds : option (list (harg N))) kw : spelled s "dummy" -> cook_estimator O h (BName s) ds kw = (h, Ok None).
  Proof.
    intro S. apply (smap_iff up up_iff) in S. unfold cook_estimator. unfold upper. rewrite S. reflexivity.
  Qed.

  (** *** Building an optimizer *)
  Definition gp_with (k : kernel) (seed : Z) : est := Est CGP
    [("kernel", PKernel k); ("alpha", PNum (/ 10000000000)%R); ("optimizer", PStr "fmin_l_bfgs_b");
     ("n_restarts_optimizer", PInt 2); ("normalize_y", PBool true); ("copy_X_train", PBool true);
     ("random_state", PInt seed); ("noise", PStr "gaussian")]%string.
  Definition decide (acqopt : string) (grads : bool) : res bool :=
    let ao := if String.eqb acqopt "auto" then (if grads then "lbfgs" else "sampling")%string else acqopt in
    if negb (String.eqb ao "lbfgs" || String.eqb ao "sampling") then Raise ValueError
    else if negb grads && negb (String.eqb ao "sampling") then Raise ValueError
    else Ok (String.eqb ao "lbfgs").
  Lemma decide_ok acqopt grads b : decide acqopt grads = Ok b -> (b = true -> grads = true) /\ (b = false -> acqopt = "auto"%string -> grads = false).
  Proof.
    unfold decide. destruct (String.eqb_spec acqopt "auto") as [->|n]; destruct grads; cbn.
    - intros [= <-]. split; easy.
    - intros [= <-]. split; easy.
    - destruct (String.eqb_spec acqopt "lbfgs"), (String.eqb_spec acqopt "sampling"); cbn; intros [= <-]; split; easy.
    - destruct (String.eqb_spec acqopt "lbfgs"), (String.eqb_spec acqopt "sampling"); cbn; intros E; try discriminate E; try (subst; discriminate); injection E as <-; split; easy.
  Qed.
  Lemma decide_total acqopt grads : In acqopt ["auto"; "sampling"]%string -> exists b, decide acqopt grads = Ok b.
  Proof. intros [<-|[<-|[]]]; destruct grads; cbn; eauto. Qed.

  Lemma setup_gp h ds os s acq acqopt seed nj : spelled s "GP" -> is_ps acq = false -> Forall2 (arg_obj O h) ds os ->
    exists h1 h' l, setup O h ds (BName s) acq acqopt seed nj =
      match decide acqopt (negb (cats os)) with
      | Ok b => (h', Ok (mkSetting (Some (gp_with (default_kernel (map (@normal N) os)) seed)) b l))
      | Raise e => (h1, Raise e)
      end /\
      Forall2 (fun a o => nth_error h' a = Some o) l (map (@normal N) os) /\
      (forall a o, nth_error h a = Some o -> given ds a -> nth_error h' a = Some (normal o)).
  Proof.
    intros S P F. destruct (normalize_dims_ok F) as (h1 & l1 & E1 & F1 & G1 & _).
    destruct (arg_again (ds := ds) G1 F) as (os' & F' & M). destruct (normalize_dims_ok F') as (h2 & l2 & E2 & F2 & G2 & _).
    exists h1, h2, l2. unfold setup. rewrite (@cook_gp h s ds _ S), E1, (at_all (forall2_normal F1)). cbn [bind].
    change (finish_cook (gp_est (default_kernel (map (@normal N) os))) [("random_state"%string, PInt seed); ("n_jobs"%string, PInt nj)])
      with (Ok (Some (gp_with (default_kernel (map (@normal N) os)) seed))).
    cbn [is_regressor e_class gp_with negb]. rewrite P. cbn [andb].
    assert (Hg : has_gradients (Some (gp_with (default_kernel (map (@normal N) os)) seed)) = negb (cats os)).
    { unfold has_gradients, gp_with, param. cbn [e_class is_tree e_params dict_get String.eqb Ascii.eqb Bool.eqb existsb snd mentions_hamming]. rewrite (default_hamming O). now rewrite orb_false_r. }
    split; [|split].
    - fold (gp_with (default_kernel (map (@normal N) os)) seed). rewrite Hg. unfold decide.
      set (ao := if String.eqb acqopt "auto" then _ else _). destruct (negb (String.eqb ao "lbfgs" || String.eqb ao "sampling")); [reflexivity|].
      destruct (negb (negb (cats os)) && negb (String.eqb ao "sampling")); [reflexivity|]. unfold gp_with, is_gp. now rewrite E2.
    - rewrite <- M. now apply forall2_normal.
    - intros a o A G. rewrite <- (normal_twice o). now apply G2; [apply G1|].
  Qed.
  Lemma setup_plain h ds os s n acq acqopt seed nj : spelled s (word n) -> n <> NGP -> is_ps acq = false -> Forall2 (arg_obj O h) ds os ->
    exists e h' l, e_class e = class_for n /\ setup O h ds (BName s) acq acqopt seed nj =
      match decide acqopt false with
      | Ok b => (h', Ok (mkSetting (Some e) b l))
      | Raise x => (h, Raise x)
      end /\ Forall2 (fun a o => nth_error h' a = Some o) l os.
  Proof.
    intros S Hn P F. destruct (make_space_ok F) as (h' & l & E & Fl).
    assert (K : forall k, In k (map fst [("random_state", PInt seed); ("n_jobs", PInt nj)]%string) -> In k (known n) \/ k = "n_jobs"%string).
    { intros k [<-|[<-|[]]]; [left|now right]. destruct n; cbn; auto 20. }
    destruct (@finish_total n _ _ (base_fits n) K) as (e & Ee).
    assert (D : NoDup (map fst [("random_state", PInt seed); ("n_jobs", PInt nj)]%string)) by (repeat constructor; cbn; intuition discriminate).
    destruct (@finish_ok n _ _ _ (base_fits n) D Ee) as (x & [= <-] & C & _). exists e, h', l. split; [exact C|]. split; [|exact Fl].
    unfold setup. rewrite (@cook_plain h s n (Some ds) _ S Hn), Ee.
    assert (R : is_regressor e = true) by (unfold is_regressor; rewrite C; now destruct n). rewrite R, P. cbn [negb andb].
    assert (Hg : has_gradients (Some e) = false) by (unfold has_gradients; rewrite C; now destruct n). rewrite Hg. unfold decide.
    set (ao := if String.eqb acqopt "auto" then _ else _). destruct (negb (String.eqb ao "lbfgs" || String.eqb ao "sampling")); [reflexivity|].
    destruct (negb false && negb (String.eqb ao "sampling")); [reflexivity|].
    assert (Hq : is_gp (Some e) = false) by (destruct e as [c ps]; cbn in C |- *; subst c; now destruct n). now rewrite Hq, E.
  Qed.
  Lemma gp_with_gpr k seed : to_gpr (gp_with k seed) = Some (mkGpr (Some k) NoiseGaussian (/ 10000000000)%R true None).
  Proof. reflexivity. Qed.
  Lemma cats_iff os : cats os = true <-> Forall (@categorical N) (map (@ob_dim N) os).
  Proof.
    unfold cats. rewrite forallb_forall, Forall_map, Forall_forall. unfold categorical. split; intros H o I; specialize (H o I); destruct (ob_dim o); try easy; try (now destruct H); eauto.
  Qed.
  Lemma alike_normal os : Forall2 (@alike N) (map (@ob_dim N) os) (map (@ob_dim N) (map (@normal N) os)).
  Proof. induction os as [|o os IH]; constructor; [|exact IH]. now destruct (normal_facts o) as (_ & _ & A). Qed.
  Lemma map_normal os : map (@ob_dim N) (map (@normal N) os) = map (fun o => ob_dim (normal o)) os.
  Proof. apply map_map. Qed.

  Theorem c84_kernel h ds dms s acq acqopt seed nj : Forall2 (stands_for O h) ds dms -> spelled s "GP" -> is_ps acq = false ->
    In acqopt ["auto"; "sampling"]%string ->
    exists h' st e g k dims, setup O h ds (BName s) acq acqopt seed nj = (h', Ok st) /\
      s_est st = Some e /\ to_gpr e = Some g /\ e_kernel g = Some k /\ dims_at h' (s_space st) = Ok dims /\
      Forall2 (@alike N) dms dims /\ Forall (fun d => dim_kind d = KNormalize) dims /\
      valid k (t_n_dims dims) /\ (has_hamming k = true <-> Forall (@categorical N) dms) /\
      forall x t, length x = t_n_dims dims -> length t = t_n_dims dims -> exists v, kcall k 2 x t = Ok v /\ (0 < v <= 1)%R /\ (x = t -> v = 1%R).
  Proof.
    intros St S P A. destruct (stands_all St) as (os & F & <-). destruct (@setup_gp h ds os s acq acqopt seed nj S P F) as (h1 & h' & l & E & Fl & _).
    destruct (decide_total (negb (cats os)) A) as (b & Eb). rewrite Eb in E. exists h'. do 2 eexists. do 3 eexists. split; [exact E|]. cbn [s_est s_space].
    split; [reflexivity|]. rewrite gp_with_gpr. split; [reflexivity|]. cbn [e_kernel]. split; [reflexivity|].
    rewrite (dims_all Fl). split; [reflexivity|]. split; [apply alike_normal|]. split; [|].
    { apply Forall_map, Forall_map, Forall_forall. intros o _. apply normal_kind. }
    rewrite map_normal, (t_n_normal O os). split; [apply (default_valid O)|]. split; [rewrite (default_hamming O); apply cats_iff|]. apply (default_similar O).
  Qed.

  Theorem c85_auto h ds dms s n acq acqopt seed nj h' st : Forall2 (stands_for O h) ds dms -> spelled s (word n) -> is_ps acq = false ->
    setup O h ds (BName s) acq acqopt seed nj = (h', Ok st) ->
    exists e dims, s_est st = Some e /\ dims_at h' (s_space st) = Ok dims /\
      (s_lbfgs st = true -> differentiable e (t_n_dims dims)) /\ (s_lbfgs st = false -> acqopt = "auto"%string -> no_gradients e).
  Proof.
    intros St S P E. destruct (stands_all St) as (os & F & <-).
    assert (D : n = NGP \/ n <> NGP) by (destruct n; auto; right; easy). destruct D as [->|Hn].
    - destruct (@setup_gp h ds os s acq acqopt seed nj S P F) as (h1 & h2 & l & E' & Fl & _). rewrite E' in E.
      destruct (decide acqopt (negb (cats os))) as [b|] eqn:D; [|easy]. injection E as <- <-. cbn [s_est s_space s_lbfgs]. do 2 eexists. split; [reflexivity|].
      rewrite (dims_all Fl). split; [reflexivity|]. rewrite map_normal, (t_n_normal O os). destruct (decide_ok _ _ D) as (D1 & D2). split.
      + intros B. specialize (D1 B). apply negb_true_iff in D1. split; [intros a I; cbn in I |- *; tauto|]. eexists. split; [apply gp_with_gpr|].
        intros k [= <-]. now apply (default_gradients O).
      + intros B A. specialize (D2 B A). apply negb_false_iff in D2. right. eexists. eexists. split; [apply gp_with_gpr|]. split; [reflexivity|].
        intros x t _. now apply (default_no_gradients O).
    - destruct (@setup_plain h ds os s n acq acqopt seed nj S Hn P F) as (e & h2 & l & C & E' & Fl). rewrite E' in E.
      destruct (decide acqopt false) as [b|] eqn:D; [|easy]. injection E as <- <-. cbn [s_est s_space s_lbfgs]. do 2 eexists. split; [reflexivity|].
      rewrite (dims_all Fl). split; [reflexivity|]. destruct (decide_ok _ _ D) as (D1 & D2). split; [intro B; now specialize (D1 B)|].
      intros _ _. left. rewrite C. destruct n; cbn; intuition discriminate.
  Qed.
  Theorem c85_refused h ds dms s n acq seed nj : Forall2 (stands_for O h) ds dms -> spelled s (word n) -> is_ps acq = false ->
    n <> NGP \/ Forall (@categorical N) dms -> exists h', setup O h ds (BName s) acq "lbfgs" seed nj = (h', Raise ValueError).
  Proof.
    intros St S P H. destruct (stands_all St) as (os & F & <-). assert (D : n = NGP \/ n <> NGP) by (destruct n; auto; right; easy). destruct D as [->|Hn].
    - destruct H as [H|H]; [easy|]. apply cats_iff in H. destruct (@setup_gp h ds os s acq "lbfgs" seed nj S P F) as (h1 & h2 & l & E' & _). rewrite H in E'. exists h1. exact E'.
    - destruct (@setup_plain h ds os s n acq "lbfgs" seed nj S Hn P F) as (e & h2 & l & C & E' & Fl). exists h. exact E'.
  Qed.

  (** *** The objects of the caller *)
  Lemma untouched_refl h : untouched h h.
  Proof. now intros a o H. Qed.
  Lemma untouched_trans h h1 h2 : untouched h h1 -> untouched h1 h2 -> untouched h h2.
  Proof. intros A B a o H. apply B, A, H. Qed.
  Lemma make_untouched h ds h' r : make_space O h ds = (h', r) -> untouched h h'.
  Proof. intro E. destruct (@make_space_grows N O _ _ _ _ E) as (ext & ->). apply grows_untouched. Qed.
  Theorem c86_untouched h ds b acq acqopt seed nj h' r :
    match b with BName s => ~ spelled s "GP" | BEst e => e_class e <> CGP \/ is_ps acq = true | BNone => True end ->
    setup O h ds b acq acqopt seed nj = (h', r) -> untouched h h'.
  Proof.
    intros Hb. unfold setup.
    assert (C : forall h1 be, (match b with
                     | BName s => cook_estimator O h b (Some ds) [("random_state", PInt seed); ("n_jobs", PInt nj)]%string
                     | BEst e => (h, Ok (Some e))
                     | BNone => (h, Ok None)
                     end) = (h1, be) -> h1 = h /\ forall e, be = Ok e -> is_gp (if is_ps acq && negb (is_multi e) then Some (multi e) else e) = false).
    { intros h1 be. destruct b as [s|e|].
      - unfold cook_estimator. destruct (String.eqb_spec (upper s) "GP") as [E|_].
        { exfalso. apply Hb. apply upper_iff; [reflexivity|exact E]. }
        assert (Q : forall n x kw y, finish_cook (base n) kw = y -> n <> NGP -> y = Ok x -> is_gp (if is_ps acq && negb (is_multi x) then Some (multi x) else x) = false).
        { intros n x kw y Ey Hn ->. unfold finish_cook in Ey. destruct (set_params (base n) _) as [x'|] eqn:E; [|easy]. injection Ey as <-. apply set_params_class in E.
          destruct (is_ps acq && negb (is_multi (Some x'))); [reflexivity|]. destruct x' as [c ps]. cbn in E |- *. subst c. now destruct n. }
        destruct (String.eqb_spec (upper s) "RF") as [_|_]; [intros [= <- E]; split; [reflexivity|intros x ->; now apply (Q NRF x _ _ E)]|].
        destruct (String.eqb_spec (upper s) "ET") as [_|_]; [intros [= <- E]; split; [reflexivity|intros x ->; now apply (Q NET x _ _ E)]|].
        destruct (String.eqb_spec (upper s) "GBRT") as [_|_]; [intros [= <- E]; split; [reflexivity|intros x ->; now apply (Q NGBRT x _ _ E)]|].
        destruct (String.eqb_spec (upper s) "DUMMY") as [_|_]; intros [= <- <-]; split; try reflexivity; intros e [= <-]. now destruct (is_ps acq).
      - intros [= <- <-]. split; [reflexivity|]. intros x [= <-]. destruct e as [c ps]. cbn in Hb. destruct Hb as [Hb| ->].
        + destruct (is_ps acq); [|now destruct c]. now destruct c.
        + now destruct c.
      - intros [= <- <-]. split; [reflexivity|]. intros x [= <-]. now destruct (is_ps acq). }
    destruct (match b with BName s => cook_estimator O h b (Some ds) [("random_state"%string, PInt seed); ("n_jobs"%string, PInt nj)] | BEst e => (h, Ok (Some e)) | BNone => (h, Ok None) end) as [h1 be] eqn:Eb.
    destruct (C _ _ eq_refl) as (-> & G). destruct be as [be|e]; [|intros [= <- <-]; apply untouched_refl].
    destruct (match be with Some e => negb (is_regressor e) | None => false end); [intros [= <- <-]; apply untouched_refl|].
    specialize (G be eq_refl). set (be' := if is_ps acq && negb (is_multi be) then Some (multi be) else be) in *.
    set (ao := if String.eqb acqopt "auto" then _ else _). destruct (negb (String.eqb ao "lbfgs" || String.eqb ao "sampling")); [intros [= <- <-]; apply untouched_refl|].
    destruct (negb (has_gradients be') && negb (String.eqb ao "sampling")); [intros [= <- <-]; apply untouched_refl|]. rewrite G.
    destruct (make_space O h ds) as [h2 [l|x]] eqn:E; intros [= <- <-]; exact (make_untouched _ _ E).
  Qed.
  Theorem c86_frame h ds b acq acqopt seed nj h' r : setup O h ds b acq acqopt seed nj = (h', r) ->
    forall a o, nth_error h a = Some o -> ~ given ds a -> nth_error h' a = Some o.
  Proof.
    intros E a o A G. revert E. unfold setup.
    destruct (match b with BName s => cook_estimator O h b (Some ds) [("random_state"%string, PInt seed); ("n_jobs"%string, PInt nj)] | BEst e => (h, Ok (Some e)) | BNone => (h, Ok None) end) as [h1 be] eqn:Eb.
    assert (A1 : nth_error h1 a = Some o).
    { destruct b as [s|e|]; try (injection Eb as <- <-; exact A). unfold cook_estimator in Eb. destruct (String.eqb (upper s) "GP").
      - destruct (normalize_dimensions O h ds) as [h2 r2] eqn:E2. pose proof (@normalize_dims_frame N O ds h h2 r2 E2 a o A G) as Q. destruct r2; injection Eb as <- <-; exact Q.
      - repeat match type of Eb with (if ?c then _ else _) = _ => destruct c end; injection Eb as <- <-; exact A. }
    destruct be as [be|e]; [|intros [= <- <-]; exact A1].
    destruct (match be with Some e => negb (is_regressor e) | None => false end); [intros [= <- <-]; exact A1|].
    set (be' := if is_ps acq && negb (is_multi be) then Some (multi be) else be) in *.
    set (ao := if String.eqb acqopt "auto" then _ else _). destruct (negb (String.eqb ao "lbfgs" || String.eqb ao "sampling")); [intros [= <- <-]; exact A1|].
    destruct (negb (has_gradients be') && negb (String.eqb ao "sampling")); [intros [= <- <-]; exact A1|].
    destruct (is_gp be').
    - destruct (normalize_dimensions O h1 ds) as [h2 r2] eqn:E2. pose proof (@normalize_dims_frame N O ds h1 h2 r2 E2 a o A1 G) as Q. destruct r2; intros [= <- <-]; exact Q.
    - destruct (make_space O h1 ds) as [h2 r2] eqn:E2. pose proof (make_untouched _ _ E2 _ A1) as Q. destruct r2; intros [= <- <-]; exact Q.
  Qed.
  (** What happens to the objects given to a Gaussian process *)
  Theorem c86_gp h ds dms s acq acqopt seed nj h' st : Forall2 (stands_for O h) ds dms -> spelled s "GP" -> is_ps acq = false ->
    setup O h ds (BName s) acq acqopt seed nj = (h', Ok st) -> forall a o, nth_error h a = Some o -> given ds a ->
    exists o', nth_error h' a = Some o' /\ alike (ob_dim o) (ob_dim o') /\ honest o' /\ ob_label o' = "normalize"%string.
  Proof.
    intros St S P E a o A G. destruct (stands_all St) as (os & F & <-). destruct (@setup_gp h ds os s acq acqopt seed nj S P F) as (h1 & h2 & l & E' & _ & T). rewrite E' in E.
    destruct (decide acqopt (negb (cats os))) as [b|]; [|easy]. injection E as <- <-. exists (normal o). split; [now apply T|]. destruct (normal_facts o) as (X & Y & Z). auto.
  Qed.
End Thms.

(** *** Initial point generators *)
Lemma gen_set_class : forall kw g, gen_class (gen_set g kw) = gen_class g.
Proof. induction kw as [|[k v] kw IH]; intros g; [reflexivity|]. change (gen_class (gen_set (mkGen (gen_class g) (dict_set String.eqb (gen_attrs g) k v)) kw) = gen_class g). now rewrite IH. Qed.
Lemma gen_set_get : forall kw g s, NoDup (map fst kw) ->
  attribute (gen_set g kw) s = match dict_get String.eqb kw s with Some v => Some v | None => attribute g s end.
Proof.
  induction kw as [|[k v] kw IH]; intros g s D; [reflexivity|]. inversion D as [|? ? I D']; subst. 
  change (gen_set g ((k, v) :: kw)) with (gen_set (mkGen (gen_class g) (dict_set String.eqb (gen_attrs g) k v)) kw). rewrite (IH _ s D'). cbn [dict_get]. unfold attribute at 1. cbn [gen_attrs].
  destruct (String.eqb_spec k s) as [->|n].
  - rewrite (@dict_get_none _ kw s I). apply get_set_same.
  - destruct (dict_get String.eqb kw s); [reflexivity|]. apply get_set_other. congruence.
Qed.
Theorem c84_generator s w c kw : In (w, c) generator_words -> spelled s w -> NoDup (map fst kw) ->
  exists g, cook_generator (GArgName s) kw = Ok (Some g) /\ gen_class g = c /\
    (forall k v, In (k, v) kw -> attribute g k = Some v) /\
    (forall k v, In (k, v) (documented c) -> ~ In k (map fst kw) -> attribute g k = Some v).
Proof.
  intros I S D. assert (W : lower w = w) by (cbn in I; decompose [or] I; try easy; match goal with H : _ = (_, _) |- _ => injection H as <- <-; reflexivity end).
  apply (@lower_iff s w W) in S. exists (gen_set (new_generator c) kw). split; [|split; [|split]].
  - unfold cook_generator. rewrite S. cbn in I; decompose [or] I; try easy; match goal with H : _ = (_, _) |- _ => injection H as <- <-; reflexivity end.
  - now rewrite gen_set_class.
  - intros k v K. rewrite (@gen_set_get kw _ k D). now rewrite (@dict_get_nodup _ kw k v D K).
  - intros k v K J. rewrite (@gen_set_get kw _ k D). rewrite (@dict_get_none _ kw k J).
    destruct c; cbn in K; decompose [or] K; try easy; match goal with H : _ = (_, _) |- _ => injection H as <- <-; reflexivity end.
Qed.
Theorem c84_generator_random s kw : spelled s "random" -> cook_generator (GArgName s) kw = Ok None.
Proof. intro S. apply (@lower_iff s "random" eq_refl) in S. unfold cook_generator. now rewrite S. Qed.
Theorem c84_generator_refused s kw : (forall w, In w ("random"%string :: map fst generator_words) -> ~ spelled s w) -> cook_generator (GArgName s) kw = Raise ValueError.
Proof.
  intro H. unfold cook_generator. assert (Q : forall w, In w ("random"%string :: map fst generator_words) -> String.eqb (lower s) w = false).
  { intros w I. apply String.eqb_neq. intro E. apply (H w I). apply lower_iff; [|exact E]. clear E. cbn in I. decompose [or] I; try easy; subst w; reflexivity. }
  rewrite !Q by (cbn; auto 10). reflexivity.
Qed.

(** *** Where the claims fail *)
Definition two_shorthands : list (harg R) := [HSeq [VInt 0; VInt 5]; HSeq [VStr "a"; VStr "b"; VStr "c"]]%string.
Theorem c84_ps : exists h' st e g k dims, setup Rops [] two_shorthands (BName "gp") (AOne EIps) "auto" 0 1 = (h', Ok st) /\
  s_est st = Some (multi (Some e)) /\ to_gpr e = Some g /\ e_kernel g = Some k /\ dims_at h' (s_space st) = Ok dims /\ t_n_dims dims = 4%nat /\
  forall x t, length x = 4%nat -> length t = 4%nat -> kcall k 2 x t = Raise ValueError.
Proof.
  do 6 eexists. split; [reflexivity|]. split; [reflexivity|]. split; [reflexivity|]. split; [reflexivity|]. split; [reflexivity|]. split; [reflexivity|].
  intros x t Hx Ht. destruct x as [|x0 [|x1 [|x2 [|x3 [|]]]]]; try discriminate Hx. destruct t as [|t0 [|t1 [|t2 [|t3 [|]]]]]; try discriminate Ht. reflexivity.
Qed.
Theorem c85_ps : exists h' st e, setup Rops [] [HSeq [VInt 0; VInt 5]] (BName "RF") (AOne EIps) "auto" 0 1 = (h', Ok st) /\
  s_est st = Some (multi (Some e)) /\ s_lbfgs st = true /\ no_gradients e.
Proof.
  do 3 eexists. split; [reflexivity|]. split; [reflexivity|]. split; [reflexivity|]. left. cbn. intuition discriminate.
Qed.
Definition shared : heap R := [new_obj (DReal (mkReal 10%R 20%R PUniform 10%R KIdentity None DT64))].
Definition show (h : heap R) (l : list nat) : res (list (list (pyval R))) := d <- dims_at h l ;; space_transform Rops d [[VFloat 15%R]].
Theorem c86_shared : exists h1 st1 h2 st2,
  setup Rops shared [HObj 0] (BName "RF") AHedge "auto" 0 1 = (h1, Ok st1) /\ show h1 (s_space st1) = Ok [[VFloat 15%R]] /\
  setup Rops h1 [HObj 0] (BName "GP") AHedge "auto" 0 1 = (h2, Ok st2) /\ show h2 (s_space st1) = Ok [[VFloat (1 / 2)%R]].
Proof.
  do 4 eexists. split; [reflexivity|]. split; [reflexivity|]. split; [reflexivity|].
  unfold show. cbn. unfold normalize_transform. cbn.
  rewrite (proj2 (Rltb_false _ _)) by lra. rewrite (proj2 (Rltb_false _ _)) by lra. unfold neqb. cbn.
  rewrite (proj2 (Rleb_false _ _)) by lra. cbn. replace ((15 - 10) / (20 - 10))%R with (1 / 2)%R by lra. reflexivity.
Qed.

(** *** Cases *)
Definition mixed_args : list (harg R) := [HObj 0; HSeq [VInt 0; VInt 5]; HSeq [VStr "a"; VStr "b"; VStr "c"]]%string.
Definition cat_args : list (harg R) := [HSeq [VStr "a"; VStr "b"; VStr "c"]; HSeq [VStr "x"; VStr "y"]]%string.
Lemma mixed_case : (exists dms, Forall2 (stands_for Rops shared) mixed_args dms /\ ~ Forall (@categorical R) dms) /\
  (exists dms, Forall2 (stands_for Rops shared) cat_args dms /\ Forall (@categorical R) dms).
Proof.
  split.
  - eexists. split.
    + constructor; [now apply sf_obj with (o := new_obj (DReal (mkReal 10%R 20%R PUniform 10%R KIdentity None DT64)))|].
      constructor; [constructor; reflexivity|]. constructor; [constructor; reflexivity|constructor].
    + intro H. inversion H as [|? ? (c & E) _]. discriminate E.
  - eexists. split.
    + constructor; [constructor; reflexivity|]. constructor; [constructor; reflexivity|constructor].
    + constructor; [eexists; reflexivity|]. constructor; [eexists; reflexivity|constructor].
Qed.
Lemma letters_case : spelled "gP" "GP" /\ spelled "gbrt" "GBRT" /\ ~ spelled "gb" "GBRT" /\ ~ spelled "gp1" "gp".
Proof.
  split; [|split; [|split]].
  - now apply (@upper_iff "gP" "GP" eq_refl).
  - now apply (@upper_iff "gbrt" "GBRT" eq_refl).
  - intro H. now apply (@upper_iff "gb" "GBRT" eq_refl) in H.
  - intro H. now apply (@lower_iff "gp1" "gp" eq_refl) in H.
Qed.
