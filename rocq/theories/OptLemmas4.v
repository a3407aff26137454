(** The invariant of every optimizer that can arise, and its consequences. *)
From Coq Require Import String List ZArith Bool Lia.
From Verif Require Import Base Num Values Transformers Dimension Space Optimizer NumLaws BaseLemmas
  SpaceSpec MetricLemmas OptSpec OptLemmas OptLemmas2 OptLemmas3.
Import ListNotations.
Open Scope list_scope.
Set Implicit Arguments.

Section OptInv.
  Context {N RNG M : Type} (O : numops N) (G : rng_ops N RNG) (W : world N M).
  Notation state := (opt N RNG M).
  Notation dims o := (c_dims (o_cfg o)).
  Notation member := (member O).

  (** *** _tell as a whole *)
  Definition after (xs : list (xarg N)) (ys : list (yval N)) (o : state) : state :=
    mkOpt (o_cfg o) (o_left o - Z.of_nat (length ys)) (o_init o) (o_models o) (o_Xi o ++ xs) (o_yi o ++ ys)
      [] (o_next o) (o_next_xs o) (o_gains o) (o_rng o).
  Definition fits_now (fit : bool) (o : state) : bool := fit && (o_left o <=? 0)%Z && has_est o.
  Lemma tell_eq x y xs ys fit (o : state) : recorded x y xs ys ->
    tell_ O G W x y fit o =
    (if fits_now fit (after xs ys o)
     then match refit O G W (after xs ys o) with
          | (o', Ok _) => get_result O o'
          | (o', Raise e) => (o', Raise e)
          end
     else get_result O (after xs ys o)).
  Proof.
    intros H. unfold fits_now.
    assert (E : exists o1, record_obs x y o = (o1, Ok tt) /\ set_cache [] o1 = after xs ys o).
    { inversion H; subst; simpl; eexists; (split; [reflexivity|]); unfold after; simpl; reflexivity. }
    destruct E as (o1 & E & Hg). unfold tell_. unfold andthen at 1. rewrite E.
    unfold andthen, upd, get. rewrite Hg. destruct (_ && _ && _); [|reflexivity].
    destruct (refit O G W (after xs ys o)) as [o' [u|e]]; reflexivity.
  Qed.

  (** Everything a call to [_tell] may change. *)
  Lemma tell_any x y xs ys fit (o : state) : recorded x y xs ys ->
    let o1 := after xs ys o in
    let o' := fst (tell_ O G W x y fit o) in
    same_obs o1 o' /\ next_ok o1 o' /\
    (o_models o' = o_models o \/ (fits_now fit o1 = true /\ models_ok O W o1 o')).
  Proof.
    intros H. cbv zeta. rewrite (tell_eq fit o H). destruct (fits_now fit _) eqn:Ef.
    - pose proof (refit_obs O G W (after xs ys o)) as H1. destruct (refit_any O G W (after xs ys o)) as [H2 H3].
      destruct (refit O G W (after xs ys o)) as [o' [u|e]]; simpl in *; auto.
    - simpl. split; [apply so_refl|]. split; [now left|]. now left.
  Qed.

  (** *** The invariant *)
  Record good (o : state) : Prop := {
    g_n0 : (0 <= c_n0 (o_cfg o))%Z;
    g_left : o_left o = (c_n0 (o_cfg o) - Z.of_nat (length (o_yi o)))%Z;
    g_x : Forall (valid_x O (dims o)) (o_Xi o);
    g_gen : c_gen (o_cfg o) = match o_init o with Some _ => true | None => false end;
    g_init : gen_ok O W (dims o) (c_n0 (o_cfg o)) -> forall l, o_init o = Some l ->
             length l = Z.to_nat (c_n0 (o_cfg o)) /\ Forall (member (dims o)) l;
    g_next : forall p, o_next o = Some p -> length p = length (dims o);
    g_cachelen : forall k X, In (k, X) (o_cache o) -> length X = Z.to_nat (fst k);
    g_cache : gen_ok O W (dims o) (c_n0 (o_cfg o)) -> rvs_ok O G (dims o) -> forall k X, In (k, X) (o_cache o) -> Forall (member (dims o)) X;
    g_early : o_models o <> [] -> model_phase o;
    g_queue : forall q, c_queue (o_cfg o) = Some q -> (Z.of_nat (length (o_models o)) <= Z.max 0 q)%Z;
    g_norm : forall e, c_est (o_cfg o) = Some e -> ed_regressor e = true /\
             (ed_gp e = true -> set_kinds_all KNormalize (dims o) = Ok (dims o)) /\
             (ps_of o = true -> ed_multi e = true) /\ (c_lbfgs (o_cfg o) = true -> ed_grad e = true);
    g_none : c_est (o_cfg o) = None -> ps_of o = false /\ c_lbfgs (o_cfg o) = false }.

  Lemma good_rng g o : good o -> good (set_rng g o).
  Proof. intros H. destruct H. constructor; auto. Qed.
  Lemma good_clear o : good o -> good (set_cache [] o).
  Proof. intros H. destruct H. constructor; auto; simpl; easy. Qed.
  Lemma good_after xs ys o : good o -> Forall (valid_x O (dims o)) xs -> good (after xs ys o).
  Proof.
    intros H Hx. destruct H. constructor; simpl; auto; try easy.
    - rewrite app_length. lia.
    - now apply Forall_app.
    - intros Hm. destruct (g_early0 Hm) as [H1 H2]. split; [simpl; lia|exact H2].
  Qed.

  Lemma good_tell x y xs ys fit o : good o -> recorded x y xs ys -> Forall (valid_x O (dims o)) xs ->
    good (fst (tell_ O G W x y fit o)).
  Proof.
    intros Hg Hr Hx. pose proof (good_after ys Hg Hx) as Ha.
    destruct (tell_any fit o Hr) as (Hs & Hn & Hm). set (o' := fst (tell_ O G W x y fit o)) in *.
    destruct Hs as (S1 & S2 & S3 & S4 & S5 & S6). set (o1 := after xs ys o) in *.
    destruct Ha. constructor; rewrite ?S1, ?S2, ?S3, ?S4, ?S5, ?S6; auto.
    - intros p Hp. destruct Hn as [Hn|(p' & Hn & Hl)]; [apply g_next0; congruence|congruence].
    - intros Hne. unfold model_phase, has_est. rewrite S1, S2.
      destruct Hm as [Hm|[Hf _]]; [apply g_early0; unfold o1; simpl; congruence|].
      unfold fits_now in Hf. apply andb_true_iff in Hf. destruct Hf as [Hf H2].
      apply andb_true_iff in Hf. destruct Hf as [_ H1]. split; [now apply Z.leb_le|exact H2].
    - intros q Hq. destruct Hm as [Hm|[_ [Hm|(P & Xt & est & _ & _ & _ & Hm)]]].
      + rewrite Hm. apply (g_queue0 q Hq).
      + rewrite Hm. apply (g_queue0 q Hq).
      + exact (proj2 (keep_pushed _ _ _ Hm g_queue0) q Hq).
    - unfold ps_of. rewrite S1. exact g_norm0.
    - unfold ps_of. rewrite S1. exact g_none0.
  Qed.

  Lemma valid_entries x y' xs ys (d : list (dim N)) : valid_x O d x -> recorded (targ_of x) y' xs ys -> Forall (valid_x O d) xs.
  Proof.
    intros Hx Hr. destruct x as [p|pts]; inversion Hr; subst; simpl in *.
    - now constructor.
    - constructor; [exact Hx|constructor].
    - clear Hr. induction Hx; constructor; auto.
  Qed.

  (** *** ask *)
  Lemma distance_accepts (d : list (dim N)) : forall acc p q z, length p = length d -> length q = length d ->
    distance_from O acc d p q = Ok z -> member d p.
  Proof.
    induction d as [|x d IH]; intros acc [|v p] [|w q] z Hp Hq H; simpl in *; try lia; [constructor|].
    apply bind_ok in H. destruct H as (t & Ht & H). constructor; [|eapply (IH _ p q); eauto; lia].
    apply contains_accepts. unfold dim_distance in Ht.
    destruct (contains O x v) as [[|]|]; [reflexivity| |]; discriminate.
  Qed.
  Lemma py_index_in {A} (l : list A) i x : py_index l i = Some x -> In x l.
  Proof. unfold py_index. destruct (_ <=? _)%Z; [|destruct (_ <=? _)%Z; [|discriminate]]; apply nth_error_In. Qed.

  Lemma ask1_member o o' p : good o -> gen_ok O W (dims o) (c_n0 (o_cfg o)) -> rvs_ok O G (dims o) ->
    ask1 O G o = (o', Ok p) -> member (dims o) p.
  Proof.
    intros Hg Hgen Hrvs. unfold ask1, andthen at 1, get. destruct (_ || _).
    - destruct (o_init o) as [l|] eqn:Ei.
      + destruct (py_index _ _) as [p'|] eqn:Ep; [|discriminate]. intros H. injection H as <- <-.
        apply py_index_in in Ep. destruct (g_init Hg Hgen Ei) as [_ Hl]. rewrite Forall_forall in Hl. auto.
      + destruct (space_rvs O G (dims o) 1 (o_rng o)) as [[P|e] g] eqn:Er; [|discriminate].
        unfold andthen, upd, lift. intros H. injection H as _ H. destruct P as [|p' P]; [discriminate|].
        injection H as ->. destruct (Hrvs _ _ _ _ Er) as [_ HP]. now inversion HP.
    - destruct (o_models o); [discriminate|]. destruct (o_next o) as [q|] eqn:En; [|discriminate].
      unfold andthen, lift. destruct (mapM _ (o_Xi o)) as [ds|] eqn:Ed; [|discriminate].
      destruct ds as [|z ds]; [discriminate|]. intros H. injection H as <- <-.
      apply mapM_ok in Ed. inversion Ed as [|x z' Xi ds' Hx Hrest Exi Eds]; subst.
      apply bind_ok in Hx. destruct Hx as (x' & Hx & Hd). destruct x as [q'|]; [|discriminate]. injection Hx as ->.
      pose proof (g_x Hg) as HX. rewrite <- Exi in HX. inversion HX as [|? ? Hv _]; subst. simpl in Hv.
      eapply distance_accepts; [|symmetry; exact (Forall2_len Hv)|exact Hd]. now apply (g_next Hg).
  Qed.
  Lemma good_ask1 o : good o -> good (fst (ask1 O G o)).
  Proof. intros H. destruct (ask1_frame O G o) as [g ->]. now apply good_rng. Qed.

  (** *** lying *)
  Lemma lie_once_good s ps o o' x : good o -> gen_ok O W (dims o) (c_n0 (o_cfg o)) -> rvs_ok O G (dims o) ->
    lie_once O G W s ps o = (o', Ok x) -> member (dims o) x /\ good o' /\ o_cfg o' = o_cfg o.
  Proof.
    intros Hg Hgen Hr H. apply lie_once_ok in H. destruct H as (o1 & v & r & Ha & Hv & Ht).
    pose proof (ask1_member Hg Hgen Hr Ha) as Hm. split; [exact Hm|].
    pose proof (good_ask1 Hg) as Hg1. rewrite Ha in Hg1. simpl in Hg1.
    destruct (ask1_frame O G o) as [g Eg]. rewrite Ha in Eg. simpl in Eg.
    assert (Hrec : recorded (P1 x) (Y1 v) [X1 x] [v]) by constructor.
    assert (Hx : Forall (valid_x O (dims o1)) [X1 x]) by (subst o1; constructor; [exact Hm|constructor]).
    pose proof (good_tell true Hg1 Hrec Hx) as Hg2. rewrite Ht in Hg2. split; [exact Hg2|].
    destruct (tell_grows O G W true o1 Hrec) as [(E & _) _]. rewrite Ht in E. simpl in E. subst o1. exact E.
  Qed.
  Lemma lie_loop_good s ps n : forall o o' l, good o -> gen_ok O W (dims o) (c_n0 (o_cfg o)) -> rvs_ok O G (dims o) ->
    lie_loop O G W s ps n o = (o', Ok l) -> Forall (member (dims o)) l.
  Proof.
    induction n as [|n IH]; intros o o' l Hg Hgen Hr H.
    - injection H as _ <-. constructor.
    - apply lie_loop_cons in H. destruct H as (o1 & x & l' & H1 & H2 & ->).
      destruct (lie_once_good _ _ Hg Hgen Hr H1) as (Hm & Hg1 & E). constructor; [exact Hm|].
      rewrite <- E. eapply IH; eauto; now rewrite E.
  Qed.

  (** *** Construction *)
  Lemma set_kind_norm (d d' : dim N) : set_kind KNormalize d = Ok d' -> set_kind KNormalize d' = Ok d'.
  Proof. destruct d; simpl; intros H; injection H as <-; reflexivity. Qed.
  Lemma set_kinds_norm (d d' : list (dim N)) : set_kinds_all KNormalize d = Ok d' -> set_kinds_all KNormalize d' = Ok d'.
  Proof.
    unfold set_kinds_all. intros H. apply mapM_ok in H. apply mapM_ok. induction H; constructor; auto.
    eapply set_kind_norm; eauto.
  Qed.
  Lemma acq_of_name a : acq_of (acq_name a) = Some a.
  Proof. destruct a as [|[]]; reflexivity. Qed.

  Lemma finish_ok a acq e lb norm g g' o : finish O G W a acq e lb norm g = (g', Ok o) ->
    exists d init, (if norm then set_kinds_all KNormalize (a_dims a) else Ok (a_dims a)) = Ok d /\
      o = mkOpt (mkCfg d acq lb (a_npoints a) (a_restarts a) (a_eta a) e (a_gen a) (a_n0 a) (a_queue a))
            (a_n0 a) init [] [] [] [] None None
            (match acq with AHedge => [nofZ O 0; nofZ O 0; nofZ O 0] | AOne _ => [] end) g' /\
      match init with
      | None => a_gen a = false
      | Some l => a_gen a = true /\ exists seed, w_generate W d (a_n0 a) seed = Ok l
      end.
  Proof.
    unfold finish. destruct (if norm then _ else _) as [d|]; [|discriminate].
    destruct (a_gen a).
    - destruct (rg_randint _ _ _ _) as [seed g1]. destruct (w_generate W d (a_n0 a) seed) as [l|] eqn:El; [|discriminate].
      intros H. injection H as <- <-. exists d, (Some l). eauto.
    - intros H. injection H as <- <-. exists d, None. eauto.
  Qed.

  Lemma make_good a g g' o : make_optimizer O G W a g = (g', Ok o) -> good o.
  Proof.
    unfold make_optimizer. destruct (acq_of (a_acq a)) as [acq|]; [|discriminate].
    destruct (a_n0 a <? 0)%Z eqn:E0; [discriminate|]. apply Z.ltb_ge in E0.
    assert (Main : forall e lb norm g0, finish O G W a acq e lb norm g0 = (g', Ok o) ->
      (forall e', e = Some e' -> ed_regressor e' = true /\ (ed_gp e' = true -> norm = true) /\
         (is_ps acq = true -> ed_multi e' = true) /\ (lb = true -> ed_grad e' = true)) ->
      (e = None -> is_ps acq = false /\ lb = false) -> good o).
    { intros e lb norm g0 H He Hn. apply finish_ok in H. destruct H as (d & init & Hd & -> & Hi).
      constructor; simpl; try easy; auto.
      - lia.
      - destruct init; [now destruct Hi|easy].
      - intros Hgen l ->. destruct Hi as (_ & seed & Hs). exact (Hgen _ _ Hs).
      - intros q _. lia.
      - intros e' He'. destruct (He _ He') as (H1 & H2 & H3 & H4). repeat split; auto.
        intros Hgp. rewrite (H2 Hgp) in Hd. eapply set_kinds_norm; eauto. }
    destruct (a_est a) as [e|].
    - destruct (negb (ed_regressor e)) eqn:Er; [discriminate|]. apply negb_false_iff in Er.
      set (e' := if is_ps acq && negb (ed_multi e) then wrap_multi e else e).
      set (ao := if String.eqb (a_acqopt a) "auto" then _ else _).
      destruct (negb (_ || _)); [discriminate|].
      destruct (negb (ed_grad e') && negb (String.eqb ao "sampling")) eqn:Eg; [discriminate|].
      intros H. eapply Main; [exact H| |discriminate].
      intros e2 E2. injection E2 as <-. split; [|split; [|split]].
      + unfold e'. now destruct (is_ps acq && negb (ed_multi e)).
      + intros ->. reflexivity.
      + intros Hp. unfold e'. rewrite Hp. simpl. destruct (ed_multi e) eqn:Em; simpl; auto.
      + intros Hl. apply String.eqb_eq in Hl. rewrite Hl in Eg. simpl in Eg. rewrite andb_true_r in Eg.
        now apply negb_false_iff in Eg.
    - destruct (is_ps acq) eqn:Ep; [discriminate|]. destruct (_ || _); [|discriminate].
      intros H. eapply Main; [exact H|discriminate|auto].
  Qed.

  (** *** Copying *)
  Definition unqueued (c : cfg N) : cfg N :=
    mkCfg (c_dims c) (c_acq c) (c_lbfgs c) (c_npoints c) (c_restarts c) (c_eta c) (c_est c) (c_gen c) (c_n0 c) None.
  Lemma copy_start o g g' o1 : good o -> make_optimizer O G W (copy_args o) g = (g', Ok o1) ->
    exists init, o1 = mkOpt (unqueued (o_cfg o)) (c_n0 (o_cfg o)) init [] [] [] [] None None
            (match c_acq (o_cfg o) with AHedge => [nofZ O 0; nofZ O 0; nofZ O 0] | AOne _ => [] end) g'.
  Proof.
    intros Hg. unfold make_optimizer, copy_args. cbn [a_acq a_n0 a_est_str a_est a_acqopt]. rewrite acq_of_name.
    destruct (c_n0 (o_cfg o) <? 0)%Z; [discriminate|].
    assert (Main : forall lb norm, (norm = true -> set_kinds_all KNormalize (dims o) = Ok (dims o)) ->
      lb = c_lbfgs (o_cfg o) ->
      finish O G W (copy_args o) (c_acq (o_cfg o)) (c_est (o_cfg o)) lb norm g = (g', Ok o1) ->
      exists init, o1 = mkOpt (unqueued (o_cfg o)) (c_n0 (o_cfg o)) init [] [] [] [] None None
            (match c_acq (o_cfg o) with AHedge => [nofZ O 0; nofZ O 0; nofZ O 0] | AOne _ => [] end) g').
    { intros lb norm Hn Hl H. apply finish_ok in H. destruct H as (d & init & Hd & -> & _).
      assert (d = dims o) as ->. { cbn [a_dims copy_args] in Hd. destruct norm; [rewrite Hn in Hd by easy|]; congruence. }
      exists init. now rewrite Hl. }
    destruct (c_est (o_cfg o)) as [e|] eqn:Ee.
    - destruct (g_norm Hg Ee) as (H1 & H2 & H3 & H4). rewrite H1. cbn [negb].
      assert (Em : (if is_ps (c_acq (o_cfg o)) && negb (ed_multi e) then wrap_multi e else e) = e).
      { destruct (is_ps (c_acq (o_cfg o))) eqn:Ep; [|easy]. unfold ps_of in H3. now rewrite (H3 Ep). }
      rewrite Em. destruct (c_lbfgs (o_cfg o)) eqn:El.
      + cbn. rewrite (H4 eq_refl). cbn. intros H. eapply Main; [|reflexivity|exact H].
        rewrite orb_false_r. exact H2.
      + cbn. rewrite andb_false_r. intros H. eapply Main; [|reflexivity|exact H].
        rewrite orb_false_r. exact H2.
    - destruct (g_none Hg Ee) as [H1 H2]. unfold ps_of in H1. rewrite H1.
      destruct (_ || _); [|discriminate].
      intros H. apply (Main false false); [discriminate|now rewrite H2|exact H].
  Qed.

  Lemma copy_ok o g g' o' : good o -> copy O G W o g = (g', Ok o') ->
    exists o2, o_cfg o2 = unqueued (o_cfg o) /\ o_left o2 = c_n0 (o_cfg o) /\ o_init o2 = o_init o /\
      o_models o2 = [] /\ o_Xi o2 = [] /\ o_yi o2 = [] /\ o_cache o2 = [] /\ o_next o2 = None /\
      o_next_xs o2 = None /\ o_gains o2 = o_gains o /\
      ((o_Xi o = [] /\ o' = o2) \/
       (o_Xi o <> [] /\ exists r, tell_ O G W (PH (o_Xi o)) (Yn (o_yi o)) true o2 = (o', Ok r))).
  Proof.
    intros Hg. unfold copy. destruct (make_optimizer O G W (copy_args o) g) as [g1 [o1|]] eqn:Em; [|discriminate].
    destruct (copy_start _ Hg Em) as (init & ->). intros H.
    match type of H with context [set_gains ?a ?b] => set (o2 := set_gains a b) in * end.
    exists o2. do 10 (split; [reflexivity|]).
    destruct (o_Xi o) as [|x Xi] eqn:Ex.
    - injection H as <- <-. left. split; easy.
    - right. split; [easy|].
      destruct (tell_ O G W (PH (x :: Xi)) (Yn (o_yi o)) true o2) as [o3 [r|]]; [|discriminate].
      injection H as <- <-. now exists r.
  Qed.

  Lemma good_copy o g g' o' : good o -> copy O G W o g = (g', Ok o') -> good o' /\ o_cfg o' = unqueued (o_cfg o).
  Proof.
    intros Hg H. destruct (copy_ok _ Hg H) as (o2 & E1 & E2 & E3 & E4 & E5 & E6 & E7 & E8 & E9 & E10 & Hc).
    assert (Hg2 : good o2).
    { destruct Hg. constructor; rewrite ?E1, ?E2, ?E3, ?E4, ?E5, ?E6, ?E7, ?E8; simpl; auto; try easy; try lia.
      - unfold ps_of. rewrite E1. exact g_norm0.
      - unfold ps_of. rewrite E1. exact g_none0. }
    destruct Hc as [[_ ->]|[_ (r & Ht)]]; [auto|].
    assert (Hr : recorded (PH (o_Xi o)) (Yn (o_yi o)) (o_Xi o) (o_yi o)) by constructor.
    assert (Hx : Forall (valid_x O (dims o2)) (o_Xi o)) by (rewrite E1; apply Hg).
    pose proof (good_tell true Hg2 Hr Hx) as H1. destruct (tell_grows O G W true o2 Hr) as [(H2 & _) _].
    rewrite Ht in H1, H2. simpl in H1, H2. split; [exact H1|]. now rewrite H2.
  Qed.

  (** *** All calls *)
  Lemma good_tell_user x y fit o : good o -> good (fst (tell O G W x y fit o)).
  Proof.
    intros Hg. destruct (tell_cases O G W x y fit o) as [[e E]|(y' & xs & ys & Hx & _ & _ & Hr & E)].
    - now rewrite E.
    - rewrite E. eapply good_tell; eauto. eapply valid_entries; eauto.
  Qed.
  Lemma ask_n_member n s o o' X : good o -> gen_ok O W (dims o) (c_n0 (o_cfg o)) -> rvs_ok O G (dims o) ->
    ask_n O G W n s o = (o', Ok X) -> Forall (member (dims o)) X.
  Proof.
    intros Hg Hgen Hr H. apply ask_n_ok in H.
    destruct H as (_ & l & _ & [[Hd _]|(_ & _ & g0 & g1 & cp & cp' & Hc & Hl)]).
    - apply dict_get_in in Hd. destruct Hd as (k & Hk & _). eapply g_cache; eauto.
    - destruct (good_copy _ Hg Hc) as [Hg' E]. 
      assert (Ed : dims cp = dims o) by now rewrite E.
      rewrite <- Ed. eapply lie_loop_good; eauto; now rewrite E.
  Qed.
  Lemma good_ask_n n s o : good o -> good (fst (ask_n O G W n s o)).
  Proof.
    intros Hg. destruct (ask_n O G W n s o) as [o' [X|e]] eqn:E.
    - pose proof E as E'. assert (Hmem : gen_ok O W (dims o) (c_n0 (o_cfg o)) -> rvs_ok O G (dims o) -> Forall (member (dims o)) X).
      { intros Hgen Hr. exact (ask_n_member n s Hg Hgen Hr E). }
      assert (Hlen : length X = Z.to_nat n) by (eapply ask_n_length; [exact E|apply Hg]).
      destruct (ask_n_frame O G W n s o) as (g & c & F). rewrite E in F. simpl in F.
      simpl. apply ask_n_ok in E. destruct E as (_ & l & _ & [[_ ->]|(_ & Hc & _)]); [easy|].
      subst o'. simpl in Hc. subst c. apply (good_rng g) in Hg. destruct Hg. constructor; auto.
      + intros k Y [HY|[]]. injection HY as <- <-. exact Hlen.
      + intros Hgen Hr k Y [HY|[]]. injection HY as <- <-. auto.
    - assert (F : exists g, o' = set_rng g o).
      { assert (Hid : exists g, o = set_rng g o) by (exists (o_rng o); now destruct o).
        revert E. unfold ask_n. destruct (n <=? 0)%Z; [intros E; now injection E as <- _|].
        destruct (liar_of s); [|intros E; now injection E as <- _].
        unfold andthen at 1, get. destruct (dict_get _ _ _); [discriminate|].
        destruct (rg_randint G (o_rng o) 0 int_max) as [seed g].
        unfold andthen, upd, lift, ret. intros E. exists g.
        destruct (snd (copy O G W o (rg_seed G seed))) as [cp|]; [|now injection E as <- _].
        destruct (snd (lie_loop _ _ _ _ _ _ _)); [discriminate|now injection E as <- _]. }
      destruct F as [g ->]. now apply good_rng.
  Qed.
  Lemma good_run f n : forall k o, good o -> good (fst (run_loop O G W f k n o)).
  Proof.
    induction n as [|n IH]; intros k o Hg; [easy|]. rewrite run_loop_S.
    pose proof (good_ask1 Hg) as H1. destruct (ask1 O G o) as [o1 [p|]]; simpl in H1; [|easy].
    destruct (f k p) as [y|]; [|easy]. pose proof (good_tell_user (X1 p) y true H1) as H2.
    destruct (tell O G W (X1 p) y true o1) as [o2 [r|]]; simpl in H2; [|easy]. now apply IH.
  Qed.
  Lemma good_update o : good o -> good (fst (update_next O G W o)).
  Proof.
    intros Hg. unfold update_next, andthen at 1 2, upd, get.
    destruct (o_next (set_cache [] o)) as [p|] eqn:En; [|now apply good_clear].
    destruct (copy O G W (set_cache [] o) (o_rng (set_cache [] o))) as [g1 [cp|e]] eqn:Ec; unfold andthen, lift;
      [|now apply good_rng, good_clear].
    destruct (o_next cp) as [q|] eqn:Eq; [|now apply good_rng, good_clear].
    destruct (good_copy _ (good_clear Hg) Ec) as [Hg' E]. pose proof (g_next Hg' Eq) as Hl.
    simpl. apply good_clear in Hg. destruct Hg. constructor; auto.
    simpl. intros p' Hp. injection Hp as <-. now rewrite Hl, E.
  Qed.
  Lemma good_call c o : good o -> good (fst (do_call O G W c o)).
  Proof.
    intros Hg. destruct c as [n s|x y fit|f n| |]; cbn [do_call].
    - destruct n as [|z|]; cbn [ask].
      + pose proof (good_ask1 Hg) as H. unfold andthen, ret. destruct (ask1 O G o) as [o1 [p|]]; exact H.
      + pose proof (good_ask_n z s Hg) as H. unfold andthen, ret. destruct (ask_n O G W z s o) as [o1 [p|]]; exact H.
      + exact Hg.
    - pose proof (good_tell_user x y fit Hg) as H. destruct (tell O G W x y fit o); exact H.
    - pose proof (good_run f n 0 Hg) as H. unfold run, andthen. destruct (run_loop O G W f 0 n o) as [o1 [u|]]; exact H.
    - exact Hg.
    - pose proof (good_update Hg) as H. destruct (update_next O G W o); exact H.
  Qed.
  Lemma reachable_good o : reachable O G W o -> good o.
  Proof.
    induction 1.
    - eapply make_good; eauto.
    - now apply good_call.
    - eapply good_copy; eauto.
    - now apply good_rng.
  Qed.
End OptInv.
