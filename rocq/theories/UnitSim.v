(** Two optimizers called in the same way, one of them in another unit, stay in step. *)
From Coq Require Import String List ZArith Bool Reals Lra Lia.
From Verif Require Import Base BaseLemmas Num NumLaws Values Dimension Space Optimizer OptSpec OptLemmas OptLemmas4 OptLemmas5 OptLemmas6 UnitSpec.
Import ListNotations.
Open Scope R_scope.
Open Scope list_scope.
Set Implicit Arguments.

(** ** Increasing functions and numpy *)
Lemma ltb_mono h : (forall u v, u < v -> h u < h v) -> forall u v, Rltb (h u) (h v) = Rltb u v.
Proof.
  intros Hh u v. unfold Rltb. destruct (Rlt_dec u v) as [L|L], (Rlt_dec (h u) (h v)) as [L'|L']; try reflexivity; exfalso.
  - apply L', Hh, L.
  - apply Rnot_lt_le in L. destruct L as [L| ->]; [apply Hh in L|]; lra.
Qed.
Lemma isnan_R v : nisnan Rops v = false.
Proof. unfold nisnan. cbn. unfold Rleb'. destruct (Rle_dec v v); [easy|]. exfalso. lra. Qed.
Section Mono.
  Context (h : R -> R) (Hh : forall u v, u < v -> h u < h v).
  Lemma argmin_aux_mono : forall l v bi i, argmin_aux Rops (h v) bi i (map h l) = argmin_aux Rops v bi i l.
  Proof.
    induction l as [|w l IH]; intros v bi i; [reflexivity|]. cbn [map argmin_aux]. rewrite !isnan_R. cbn [orb]. change (nltb Rops) with Rltb. rewrite (ltb_mono _ Hh).
    destruct (Rltb w v); apply IH.
  Qed.
  Lemma argmin_mono l : np_argmin Rops (map h l) = np_argmin Rops l.
  Proof. destruct l as [|v l]; [reflexivity|]. cbn. f_equal. apply argmin_aux_mono. Qed.
  Lemma argmax_aux_mono : forall l v bi i, argmax_aux Rops (h v) bi i (map h l) = argmax_aux Rops v bi i l.
  Proof.
    induction l as [|w l IH]; intros v bi i; [reflexivity|]. cbn [map argmax_aux]. rewrite !isnan_R. cbn [orb]. change (nltb Rops) with Rltb. rewrite (ltb_mono _ Hh).
    destruct (Rltb v w); apply IH.
  Qed.
  Lemma argmax_mono l : np_argmax Rops (map h l) = np_argmax Rops l.
  Proof. destruct l as [|v l]; [reflexivity|]. cbn. f_equal. apply argmax_aux_mono. Qed.
  Lemma nth_of_map l i : nth_of (map h l) i = rmap h (nth_of l i).
  Proof. destruct i as [i|]; [|reflexivity]. cbn. rewrite nth_error_map. now destruct (nth_error l i). Qed.
  Lemma min_mono l : np_min Rops (map h l) = rmap h (np_min Rops l).
  Proof. unfold np_min. now rewrite argmin_mono, nth_of_map. Qed.
  Lemma max_mono l : np_max Rops (map h l) = rmap h (np_max Rops l).
  Proof. unfold np_max. now rewrite argmax_mono, nth_of_map. Qed.
End Mono.

Definition res_rel {A B} (Q : A -> B -> Prop) (r : res A) (r' : res B) : Prop :=
  match r, r' with Ok x, Ok x' => Q x x' | Raise e, Raise e' => e = e' | _, _ => False end.
Lemma res_rel_refl {A} (r : res A) : res_rel eq r r.
Proof. now destruct r. Qed.

Section Sim.
  Context {RNG M : Type} (G : rng_ops R RNG) (W W' : world R M) (a b : R) (alike : M -> M -> Prop) (acq : acq1).
  Context (Pa : 0 < a) (U : unit_free W W' a b alike acq) (Hacq : is_ps (AOne acq) = false).
  Notation state := (opt R RNG M).
  Notation f := (fun v : R => a * v + b).
  Definition fy (v : yval R) : yval R := match v with YS y => YS (a * y + b) | YP y t => YP y t end.
  Lemma f_mono : forall u v, u < v -> a * u + b < a * v + b.
  Proof. intros u v H. nra. Qed.

  Definition moved (ms : list M) (o : state) : state :=
    mkOpt (o_cfg o) (o_left o) (o_init o) ms (o_Xi o) (map fy (o_yi o)) (o_cache o) (o_next o) (o_next_xs o) (o_gains o) (o_rng o).
  Record rel (o o' : state) : Prop := {
    rl_models : Forall2 alike (o_models o) (o_models o');
    rl_state : o' = moved (o_models o') o;
    rl_plain : all_plain (o_yi o);
    rl_acq : c_acq (o_cfg o) = AOne acq;
    rl_lbfgs : c_lbfgs (o_cfg o) = false }.
  Ltac unrel H := let o' := fresh "o'" in let ms := fresh "ms" in
    destruct H as [?Hm Hst ?Hpl ?Hac ?Hlb]; rewrite Hst in *; clear Hst.

  Definition sim {A B} (Q : A -> B -> Prop) (m : @op R RNG M A) (m' : @op R RNG M B) : Prop :=
    forall o o', rel o o' -> rel (fst (m o)) (fst (m' o')) /\ res_rel Q (snd (m o)) (snd (m' o')).
  Lemma sim_ret {A B} (Q : A -> B -> Prop) x x' : Q x x' -> sim Q (ret x) (ret x').
  Proof. intros H o o' Ho. now split. Qed.
  Lemma sim_lift {A B} (Q : A -> B -> Prop) r r' : res_rel Q r r' -> sim Q (lift r) (lift r').
  Proof. intros H o o' Ho. now split. Qed.
  Lemma sim_same {A} (r : res A) : sim eq (lift r) (lift r).
  Proof. apply sim_lift, res_rel_refl. Qed.
  Lemma sim_get : sim rel get get.
  Proof. intros o o' Ho. now split. Qed.
  Lemma sim_upd h h' : (forall o o', rel o o' -> rel (h o) (h' o')) -> sim eq (upd h) (upd h').
  Proof. intros H o o' Ho. split; [now apply H|reflexivity]. Qed.
  Lemma sim_then {A B C D} (Q : A -> B -> Prop) (S : C -> D -> Prop) m m' k k' :
    sim Q m m' -> (forall x x', Q x x' -> sim S (k x) (k' x')) -> sim S (andthen m k) (andthen m' k').
  Proof.
    intros H K o o' Ho. unfold andthen. destruct (H o o' Ho) as [H1 H2]. destruct (m o) as [o1 [x|e]], (m' o') as [o1' [x'|e']]; cbn in *; try easy.
    now apply (K x x').
  Qed.
  Lemma sim_weak {A B} (Q S : A -> B -> Prop) m m' : (forall x x', Q x x' -> S x x') -> sim Q m m' -> sim S m m'.
  Proof. intros K H o o' Ho. destruct (H o o' Ho) as [H1 H2]. split; [exact H1|]. destruct (snd (m o)), (snd (m' o')); cbn in *; auto. Qed.

  (** ** Fields *)
  Lemma rel_set o o' g : rel o o' -> rel (set_rng g o) (set_rng g o').
  Proof. intros [H E P A L]. rewrite E. now constructor. Qed.
  Lemma rel_next o o' n : rel o o' -> rel (set_next n o) (set_next n o').
  Proof. intros [H E P A L]. rewrite E. now constructor. Qed.
  Lemma rel_next_xs o o' n : rel o o' -> rel (set_next_xs n o) (set_next_xs n o').
  Proof. intros [H E P A L]. rewrite E. now constructor. Qed.
  Lemma rel_cache o o' c : rel o o' -> rel (set_cache c o) (set_cache c o').
  Proof. intros [H E P A L]. rewrite E. now constructor. Qed.
  Lemma rel_models o o' ms ms' : Forall2 alike ms ms' -> rel o o' -> rel (set_models ms o) (set_models ms' o').
  Proof. intros Hms [H E P A L]. rewrite E. now constructor. Qed.
  Lemma rel_cfg o o' : rel o o' -> o_cfg o' = o_cfg o.
  Proof. intros [_ -> _ _ _]. reflexivity. Qed.

  (** ** Fitting *)
  Lemma plain_YS yi : all_plain yi -> yi = map (@YS R) (map y_obj yi).
  Proof. induction 1 as [|v l (y & ->) _ IH]; [reflexivity|]. cbn. now rewrite <- IH. Qed.
  Lemma fy_YS l : map fy (map (@YS R) l) = map (fun v => YS (a * v + b)) l.
  Proof. now rewrite map_map. Qed.
  Lemma fit_sim X yi : all_plain yi -> res_rel alike (w_fit W X yi) (w_fit W' X (map fy yi)).
  Proof. intro P. rewrite (plain_YS P), fy_YS. apply (uf_fit U). Qed.
  Lemma flat_fy yi : all_plain yi -> y_flat (map fy yi) = map f (y_flat yi).
  Proof. induction 1 as [|v l (y & ->) _ IH]; [reflexivity|]. cbn. fold (y_flat (map fy l)). fold (y_flat l). now rewrite IH. Qed.

  Lemma sim_push m m' : alike m m' -> sim eq (push_model m) (push_model m').
  Proof.
    intros Hm. unfold push_model. eapply sim_then; [apply sim_get|]. intros o o' Ho. rewrite (rel_cfg Ho). pose proof (rl_models Ho) as Hms.
    destruct (c_queue (o_cfg o)) as [q|].
    - rewrite <- (@Forall2_len _ _ _ _ _ Hms). destruct (Z.of_nat (length (o_models o)) <? q)%Z.
      + apply sim_upd. intros o1 o1' H1. apply rel_models; [|exact H1]. apply Forall2_app; auto.
      + inversion Hms as [|x x' l l' Hx Hl E E']; [apply sim_same|]. apply sim_upd. intros o1 o1' H1. apply rel_models; [|exact H1]. apply Forall2_app; auto.
    - apply sim_upd. intros o1 o1' H1. apply rel_models; [|exact H1]. apply Forall2_app; auto.
  Qed.
  Lemma sim_gains m m' : sim eq (update_gains Rops W m) (update_gains Rops W' m').
  Proof.
    unfold update_gains. eapply sim_then; [apply sim_get|]. intros o o' Ho. rewrite (rel_cfg Ho), (rl_acq Ho).
    destruct (o_next_xs o), (o_next_xs o'); now apply sim_ret.
  Qed.
  Lemma sim_candidates : sim eq (candidates Rops G) (candidates Rops G).
  Proof.
    unfold candidates. eapply sim_then; [apply sim_get|]. intros o o' Ho. rewrite (rel_cfg Ho). replace (o_rng o') with (o_rng o) by (now destruct Ho as [_ -> _ _ _]).
    destruct (space_rvs Rops G _ _ _) as [P g]. eapply sim_then; [apply sim_upd; intros o1 o1' H1; now apply rel_set|]. intros _ _ _.
    eapply sim_then; [apply sim_same|]. intros P1 ? <-. apply sim_same.
  Qed.
  Lemma pick_sim c m m' y X : c_lbfgs c = false -> alike m m' -> pick Rops W' c acq m' (a * y + b) X = pick Rops W c acq m y X.
  Proof.
    intros Hl Hm. unfold pick. destruct (uf_acq U m m' y X Hm) as (h & Hh & E). rewrite E, Hl. destruct (w_acq W acq m y X) as [vals|]; [|reflexivity]. cbn [rmap bind].
    now rewrite (argmin_mono _ Hh).
  Qed.
  Lemma sim_fill m m' X : alike m m' -> sim eq (fill_next_xs Rops W [acq] m X) (fill_next_xs Rops W' [acq] m' X).
  Proof.
    intro Hm. cbn [fill_next_xs]. eapply sim_then; [apply sim_get|]. intros o o' Ho. rewrite (rel_cfg Ho).
    assert (Ey : o_yi o' = map fy (o_yi o)) by (now destruct Ho as [_ -> _ _ _]). rewrite Ey, (flat_fy (rl_plain Ho)), (min_mono f f_mono).
    replace (o_next_xs o') with (o_next_xs o) by (now destruct Ho as [_ -> _ _ _]).
    eapply (@sim_then _ _ _ _ (fun y y' => y' = a * y + b)); [apply sim_lift; now destruct (np_min Rops (y_flat (o_yi o)))|]. intros y ? ->.
    rewrite (pick_sim _ y X (rl_lbfgs Ho) Hm). eapply sim_then; [apply sim_same|]. intros x ? <-. eapply sim_then; [apply sim_same|]. intros x' ? <-.
    eapply sim_then; [apply sim_upd; intros o1 o1' H1; now apply rel_next_xs|]. intros _ _ _. now apply sim_ret.
  Qed.
  Lemma sim_choose : sim eq (choose_next Rops G) (choose_next Rops G).
  Proof.
    unfold choose_next. eapply sim_then; [apply sim_get|]. intros o o' Ho. rewrite (rel_cfg Ho), (rl_acq Ho).
    replace (o_next_xs o') with (o_next_xs o) by (now destruct Ho as [_ -> _ _ _]). apply sim_same.
  Qed.
  Lemma sim_refit : sim eq (refit Rops G W) (refit Rops G W').
  Proof.
    unfold refit. eapply sim_then; [apply sim_get|]. intros o o' Ho. rewrite (rel_cfg Ho), (rl_acq Ho). cbn [cand_acqs].
    replace (o_Xi o') with (o_Xi o) by (now destruct Ho as [_ -> _ _ _]).
    assert (Ey : o_yi o' = map fy (o_yi o)) by (now destruct Ho as [_ -> _ _ _]). rewrite Ey.
    eapply sim_then; [apply sim_same|]. intros P ? <-. eapply sim_then; [apply sim_same|]. intros Xt ? <-.
    eapply sim_then; [apply sim_lift, fit_sim, Ho|]. intros m m' Hm.
    eapply sim_then; [apply sim_gains|]. intros _ _ _. eapply sim_then; [apply sim_push, Hm|]. intros _ _ _.
    eapply sim_then; [apply sim_candidates|]. intros X ? <-. eapply sim_then; [apply sim_upd; intros o1 o1' H1; now apply rel_next_xs|]. intros _ _ _.
    eapply sim_then; [apply sim_fill, Hm|]. intros _ _ _. eapply sim_then; [apply sim_choose|]. intros nx ? <-.
    eapply sim_then; [apply sim_same|]. intros P' ? <-. eapply sim_then; [apply sim_same|]. intros p ? <-. apply sim_upd. intros o1 o1' H1. now apply rel_next.
  Qed.

  (** ** Telling *)
  Definition fyt (y : ytold R) : ytold R := match y with Y1 v => Y1 (fy v) | Yn l => Yn (map fy l) end.
  Definition plain_told (y : ytold R) : Prop := match y with Y1 v => all_plain [v] | Yn l => all_plain l end.
  Lemma sim_record x y : plain_told y -> sim eq (record_obs x y) (record_obs x (fyt y)).
  Proof.
    intro Hp. assert (K : forall z xs ys ys', all_plain ys -> ys' = map fy ys -> sim eq (upd (fun o => set_left (o_left o - z) (set_yi (o_yi o ++ ys) (set_Xi (o_Xi o ++ xs) o))))
                             (upd (fun o => set_left (o_left o - z) (set_yi (o_yi o ++ ys') (set_Xi (o_Xi o ++ xs) o))))).
    { intros z xs ys ys' Hys ->. apply sim_upd. intros o o' [H E P A L]. rewrite E. constructor; cbn; [exact H| |now apply Forall_app|exact A|exact L].
      unfold moved. cbn. now rewrite map_app. }
    destruct x as [p|ps|h], y as [v|l]; cbn [record_obs fyt]; try apply sim_same; rewrite ?map_length; apply K; solve [exact Hp|reflexivity].
  Qed.
  Lemma fy_obj yi : all_plain yi -> map y_obj (map fy yi) = map f (map y_obj yi).
  Proof. induction 1 as [|v l (y & ->) _ IH]; [reflexivity|]. cbn. now rewrite IH. Qed.
  Lemma sim_result : sim (same_result a b) (get_result Rops) (get_result Rops).
  Proof.
    intros o o' Ho. split; [exact Ho|]. destruct Ho as [H E P A L]. rewrite E. unfold get_result, moved. cbn -[create_result]. unfold create_result.
    rewrite (fy_obj P), (argmin_mono _ f_mono). set (vals := map y_obj (o_yi o)). destruct (np_argmin Rops vals) as [i|]; [|exact eq_refl]. rewrite nth_error_map.
    destruct (nth_error (o_Xi o) i) as [x|]; [|exact eq_refl]. destruct (nth_error vals i) as [y|]; [|exact eq_refl].
    cbn. unfold same_result. cbn. pose proof (@Forall2_len _ _ _ _ _ H). 
    assert (Q : match o_yi o with YP _ _ :: _ => true | _ => false end = false) by (destruct P as [|v l (w & ->)]; reflexivity).
    assert (Q' : match map fy (o_yi o) with YP _ _ :: _ => true | _ => false end = false) by (destruct P as [|v l (w & ->)]; reflexivity).
    rewrite Q, Q'. auto 10.
  Qed.
  Lemma sim_tell_ x y fit : plain_told y -> sim (same_result a b) (tell_ Rops G W x y fit) (tell_ Rops G W' x (fyt y) fit).
  Proof.
    intro Hp. unfold tell_. eapply sim_then; [now apply sim_record|]. intros _ _ _. eapply sim_then; [apply sim_upd; intros o1 o1' H1; now apply rel_cache|]. intros _ _ _.
    eapply sim_then; [apply sim_get|]. intros o o' Ho. unfold has_est. rewrite (rel_cfg Ho). replace (o_left o') with (o_left o) by (now destruct Ho as [_ -> _ _ _]).
    eapply (@sim_then _ _ _ _ eq); [|intros _ _ _; apply sim_result]. destruct (_ && _); [apply sim_refit|now apply sim_ret].
  Qed.
  Lemma is_num_unit y : is_num (in_unit a b y) = is_num y.
  Proof. now destruct y. Qed.
  Lemma scalar_unit y : scalar (in_unit a b y) = rmap fy (scalar y).
  Proof. now destruct y. Qed.
  Lemma scalar_plain (y : yarg R) v : scalar y = Ok v -> exists w, v = YS w.
  Proof. destruct y; try discriminate. intro H. injection H as <-. eauto. Qed.
  Lemma check_y_unit x y : check_y false x (in_unit a b y) = check_y false x y.
  Proof.
    destruct x as [p|ps], y as [v|l|]; try reflexivity. cbn. assert (E : forallb is_num (map (in_unit a b) l) = forallb is_num l); [|now rewrite E].
    induction l as [|y l IH]; [reflexivity|]. cbn. now rewrite is_num_unit, IH.
  Qed.
  Lemma mapM_scalar_unit l : mapM scalar (map (in_unit a b) l) = rmap (map fy) (mapM (@scalar R) l).
  Proof. induction l as [|y l IH]; [reflexivity|]. cbn. rewrite scalar_unit, IH. destruct (scalar y); [|reflexivity]. cbn. now destruct (mapM (@scalar R) l). Qed.
  Lemma convert_unit x y : convert_y Rops false x (in_unit a b y) = rmap fyt (convert_y Rops false x y).
  Proof.
    destruct x as [p|ps], y as [v|l|]; try reflexivity. cbn. rewrite mapM_scalar_unit. now destruct (mapM (@scalar R) l).
  Qed.
  Lemma convert_plain x y y' : convert_y Rops false x y = Ok y' -> plain_told y'.
  Proof.
    assert (One : forall v, (w <- scalar y ;; Ok (Y1 w)) = Ok v -> plain_told v).
    { intros v H. apply bind_ok in H. destruct H as (w & Hw & H). injection H as <-. constructor; [now apply scalar_plain with y|constructor]. }
    destruct x as [p|ps], y as [v|l|]; cbn [convert_y]; try exact (One y'). intro H. apply bind_ok in H. destruct H as (vs & Hv & H). injection H as <-. cbn.
    apply Forall_forall. intros v Hin. destruct (@mapM_in _ _ _ _ _ _ Hv Hin) as (q & _ & Hq). now apply scalar_plain with q.
  Qed.
  Lemma sim_tell x y fit : sim (same_result a b) (tell Rops G W x y fit) (tell Rops G W' x (in_unit a b y) fit).
  Proof.
    unfold tell. eapply sim_then; [apply sim_get|]. intros o o' Ho. rewrite (rel_cfg Ho), (rl_acq Ho), Hacq. eapply sim_then; [apply sim_same|]. intros _ _ _.
    rewrite check_y_unit. eapply sim_then; [apply sim_same|]. intros _ _ _. rewrite convert_unit.
    eapply (@sim_then _ _ _ _ (fun y y' => y' = fyt y /\ plain_told y)); [|intros z ? (-> & Hz); now apply sim_tell_].
    apply sim_lift. destruct (convert_y Rops false x y) as [z|] eqn:E; [|exact eq_refl]. cbn. split; [reflexivity|]. now apply convert_plain with x y.
  Qed.

  (** ** Asking for one point *)
  Lemma sim_ask1 : sim eq (ask1 Rops G) (ask1 Rops G).
  Proof.
    unfold ask1. eapply sim_then; [apply sim_get|]. intros o o' Ho. unfold has_est. rewrite (rel_cfg Ho).
    replace (o_left o') with (o_left o) by (now destruct Ho as [_ -> _ _ _]). replace (o_init o') with (o_init o) by (now destruct Ho as [_ -> _ _ _]).
    replace (o_rng o') with (o_rng o) by (now destruct Ho as [_ -> _ _ _]). replace (o_next o') with (o_next o) by (now destruct Ho as [_ -> _ _ _]).
    replace (o_Xi o') with (o_Xi o) by (now destruct Ho as [_ -> _ _ _]).
    destruct (_ || _).
    - destruct (o_init o) as [l|].
      + destruct (py_index l _); [now apply sim_ret|apply sim_same].
      + destruct (space_rvs Rops G _ _ _) as [P g]. eapply sim_then; [apply sim_upd; intros o1 o1' H1; now apply rel_set|]. intros _ _ _.
        eapply sim_then; [apply sim_same|]. intros P1 ? <-. apply sim_same.
    - pose proof (rl_models Ho) as Hms. inversion Hms as [|m m' l l' Hm Hl E E']; [apply sim_same|]. destruct (o_next o) as [p|]; [|apply sim_same].
      eapply sim_then; [apply sim_same|]. intros ds ? <-. destruct ds; [apply sim_same|now apply sim_ret].
  Qed.
  Lemma sim_run_loop g : forall n k, sim eq (run_loop Rops G W g k n) (run_loop Rops G W' (fun k p => rmap (in_unit a b) (g k p)) k n).
  Proof.
    induction n as [|n IH]; intro k; [now apply sim_ret|]. cbn [run_loop]. eapply sim_then; [apply sim_ask1|]. intros x ? <-.
    eapply (@sim_then _ _ _ _ (fun y y' => y' = in_unit a b y)); [apply sim_lift; now destruct (g k x)|]. intros y ? ->.
    eapply sim_then; [apply sim_tell|]. intros _ _ _. apply IH.
  Qed.
  Lemma sim_run g n : sim (same_result a b) (run Rops G W g n) (run Rops G W' (fun k p => rmap (in_unit a b) (g k p)) n).
  Proof. unfold run. eapply sim_then; [apply sim_run_loop|]. intros _ _ _. apply sim_result. Qed.

  (** ** Copies *)
  Lemma finish_same ar aq e lb norm g : finish Rops G W' ar aq e lb norm g = finish Rops G W ar aq e lb norm g.
  Proof.
    unfold finish. destruct (if norm then _ else _) as [d|]; [|reflexivity]. destruct (a_gen ar); [|reflexivity]. destruct (rg_randint G g 0 int_max) as [s g'].
    now rewrite (uf_gen U).
  Qed.
  Lemma make_same ar g : make_optimizer Rops G W' ar g = make_optimizer Rops G W ar g.
  Proof.
    unfold make_optimizer. destruct (acq_of (a_acq ar)) as [aq|]; [|reflexivity]. destruct (a_n0 ar <? 0)%Z; [reflexivity|]. cbv zeta. destruct (a_est ar) as [e|].
    - destruct (negb (ed_regressor e)); [reflexivity|]. destruct (negb (_ || _)); [reflexivity|]. destruct (_ && _); [reflexivity|]. apply finish_same.
    - destruct (is_ps aq); [reflexivity|]. destruct (_ || _); [|reflexivity]. apply finish_same.
  Qed.
  Definition lying (o : state) : Prop := b = 0 \/ o_yi o <> [].
  Lemma copy_sim o o' g : good Rops G W o -> rel o o' -> fst (copy Rops G W' o' g) = fst (copy Rops G W o g) /\
    res_rel (fun c c' => rel c c' /\ (b = 0 \/ (o_Xi o <> [] /\ o_yi o <> []) -> lying c) /\ (o_Xi o = [] -> c = c' /\ o_left c = c_n0 (o_cfg o) /\ c_acq (o_cfg c) = AOne acq))
      (snd (copy Rops G W o g)) (snd (copy Rops G W' o' g)).
  Proof.
    intros Hg Ho. unfold copy. assert (Ec : copy_args o' = copy_args o) by (unfold copy_args; now rewrite (rel_cfg Ho)). rewrite Ec, make_same.
    destruct (make_optimizer Rops G W (copy_args o) g) as [g1 [o1|e]] eqn:Em; [|split; [reflexivity|exact eq_refl]].
    destruct (copy_start _ Hg Em) as (init & ->).
    replace (o_gains o') with (o_gains o) by (now destruct Ho as [_ -> _ _ _]). replace (o_init o') with (o_init o) by (now destruct Ho as [_ -> _ _ _]).
    replace (o_Xi o') with (o_Xi o) by (now destruct Ho as [_ -> _ _ _]).
    assert (Ey : o_yi o' = map fy (o_yi o)) by (now destruct Ho as [_ -> _ _ _]). rewrite Ey.
    match goal with |- context [set_gains ?x ?y] => set (o2 := set_gains x y) in * end.
    assert (H2 : rel o2 o2).
    { constructor; cbn; [constructor|reflexivity|constructor|exact (rl_acq Ho)|exact (rl_lbfgs Ho)]. }
    destruct (o_Xi o) as [|x Xi] eqn:Ex.
    - split; [reflexivity|]. cbn [snd res_rel]. split; [exact H2|]. split; [intros [Z|(Z & _)]; [now left|easy]|]. intros _. split; [reflexivity|]. split; [reflexivity|exact (rl_acq Ho)].
    - assert (Hp : plain_told (Yn (o_yi o))) by exact (rl_plain Ho).
      destruct (@sim_tell_ (PH (x :: Xi)) (Yn (o_yi o)) true Hp o2 o2 H2) as [H3 H4]. cbn [fyt] in H3, H4.
      destruct (tell_grows Rops G W true o2 (rec_hist (x :: Xi) (o_yi o))) as [(_ & _ & _ & _ & Hgy) _].
      destruct (tell_ Rops G W (PH (x :: Xi)) (Yn (o_yi o)) true o2) as [o3 [r|e]], (tell_ Rops G W' (PH (x :: Xi)) (Yn (map fy (o_yi o))) true o2) as [o3' [r'|e']]; cbn [fst snd res_rel] in *; try easy.
      + assert (Er : o_rng o3' = o_rng o3) by (now destruct H3 as [_ -> _ _ _]). split; [exact Er|]. split; [exact H3|]. split; [|easy].
        intros [Z|(_ & Z)]; [now left|]. right. rewrite Hgy. cbn. exact Z.
      + split; [now destruct H3 as [_ -> _ _ _]|exact H4].
  Qed.

  (** ** Lies *)
  Lemma sum_f l : forall z, fold_left Rplus (map f l) (a * z) = a * fold_left Rplus l z + b * INR (length l).
  Proof.
    assert (K : forall l z w, fold_left Rplus l (z + w) = fold_left Rplus l z + w).
    { clear. induction l as [|v l IH]; intros z w; [reflexivity|]. cbn. replace (z + w + v) with (z + v + w) by ring. apply IH. }
    induction l as [|v l IH]; intro z; [cbn; ring|]. cbn [map fold_left length]. rewrite S_INR. replace (a * z + (a * v + b)) with (a * (z + v) + b) by ring. rewrite K, IH. ring.
  Qed.
  Lemma mean_f l : np_mean Rops (map f l) = rmap f (np_mean Rops l).
  Proof.
    destruct l as [|v l]; [reflexivity|]. unfold np_mean. cbn [map]. change (a * v + b :: map f l) with (map f (v :: l)). set (q := v :: l). unfold np_sum. cbn [rmap Rops nadd ndiv nofZ].
    f_equal. pose proof (sum_f q 0) as E. rewrite Rmult_0_r in E. rewrite E, map_length, <- INR_IZR_INZ. assert (0 < INR (length q)) by (apply lt_0_INR; cbn; lia). field. lra.
  Qed.
  Lemma lie_f s l : lie_stat Rops s (map f l) = rmap f (lie_stat Rops s l).
  Proof. destruct s; [apply min_mono, f_mono|apply mean_f|apply max_mono, f_mono]. Qed.
  Lemma the_lie_f s yi : all_plain yi -> b = 0 \/ yi <> [] -> the_lie Rops W' s false (map fy yi) = rmap fy (the_lie Rops W s false yi).
  Proof.
    intros P H. unfold the_lie. destruct yi as [|v yi].
    - destruct H as [H|H]; [|easy]. cbn. do 2 f_equal. rewrite H. ring.
    - rewrite (flat_fy P), lie_f. cbn [map]. now destruct (lie_stat Rops s (y_flat (v :: yi))).
  Qed.
  Lemma lie_plain s yi v : the_lie Rops W s false yi = Ok v -> all_plain [v].
  Proof. unfold the_lie. intro H. apply bind_ok in H. destruct H as (y & _ & H). injection H as <-. constructor; [eauto|constructor]. Qed.

  Lemma lie_once_sim s o o' : rel o o' -> lying o ->
    rel (fst (lie_once Rops G W s false o)) (fst (lie_once Rops G W' s false o')) /\ lying (fst (lie_once Rops G W s false o)) /\
    res_rel eq (snd (lie_once Rops G W s false o)) (snd (lie_once Rops G W' s false o')).
  Proof.
    intros Ho Hl. unfold lie_once, andthen at 1 5 9 13 17. destruct (sim_ask1 Ho) as [H1 H2]. destruct (ask1_frame Rops G o) as [g Hg].
    assert (L1 : lying (fst (ask1 Rops G o))) by (rewrite Hg; exact Hl).
    destruct (ask1 Rops G o) as [o1 [x|e]], (ask1 Rops G o') as [o1' [x'|e']]; cbn [fst snd res_rel] in *; try easy. subst x'.
    unfold andthen, get, lift, ret. assert (Ey : o_yi o1' = map fy (o_yi o1)) by (now destruct H1 as [_ -> _ _ _]). rewrite Ey, (the_lie_f s (rl_plain H1) L1).
    destruct (the_lie Rops W s false (o_yi o1)) as [v|e] eqn:Ev; [|cbn; auto]. cbn [rmap].
    destruct (@sim_tell_ (P1 x) (Y1 v) true (lie_plain _ _ Ev) o1 o1' H1) as [H3 H4]. cbn [fyt] in H3, H4.
    destruct (tell_grows Rops G W true o1 (rec_one x v)) as [(_ & _ & _ & _ & Hgy) _].
    assert (L3 : lying (fst (tell_ Rops G W (P1 x) (Y1 v) true o1))) by (right; rewrite Hgy; now destruct (o_yi o1)).
    destruct (tell_ Rops G W (P1 x) (Y1 v) true o1) as [o3 [r|e]], (tell_ Rops G W' (P1 x) (Y1 (fy v)) true o1') as [o3' [r'|e']]; cbn [fst snd res_rel] in *; auto; easy.
  Qed.
  Lemma lie_loop_sim s : forall n o o', rel o o' -> lying o ->
    res_rel eq (snd (lie_loop Rops G W s false n o)) (snd (lie_loop Rops G W' s false n o')).
  Proof.
    induction n as [|n IH]; intros o o' Ho Hl; [reflexivity|]. cbn [lie_loop]. unfold andthen at 1 3. destruct (lie_once_sim s Ho Hl) as (H1 & L1 & H2).
    destruct (lie_once Rops G W s false o) as [o1 [x|e]], (lie_once Rops G W' s false o') as [o1' [x'|e']]; cbn [fst snd res_rel] in *; try easy. subst x'.
    specialize (IH o1 o1' H1 L1). unfold andthen, ret. destruct (lie_loop Rops G W s false n o1) as [o2 [l|e]], (lie_loop Rops G W' s false n o1') as [o2' [l'|e']]; cbn [fst snd res_rel] in *; try easy. now subst.
  Qed.
  (** Lies that are not fitted to *)
  Lemma lie_loop_same s : forall n o, (Z.of_nat n < o_left o)%Z -> lie_loop Rops G W' s false n o = lie_loop Rops G W s false n o.
  Proof.
    induction n as [|n IH]; intros o Hn; [reflexivity|]. cbn [lie_loop]. unfold andthen at 1 3.
    assert (T : forall (V : world R M) (o1 : state) x v, (0 < o_left o1 - 1)%Z -> tell_ Rops G V (P1 x) (Y1 v) true o1 =
      let o2 := set_cache [] (set_left (o_left o1 - 1) (set_yi (o_yi o1 ++ [v]) (set_Xi (o_Xi o1 ++ [X1 x]) o1))) in (o2, snd (get_result Rops o2))).
    { intros V o1 x v H. unfold tell_, andthen, upd, ret, get. cbn [record_obs upd]. unfold upd. cbn [o_left set_left set_cache set_yi set_Xi].
      assert (F : (o_left o1 - 1 <=? 0)%Z = false) by (apply Z.leb_gt; lia). rewrite F. reflexivity. }
    assert (E : lie_once Rops G W' s false o = lie_once Rops G W s false o /\
                (forall o1 x, lie_once Rops G W s false o = (o1, Ok x) -> o_left o1 = (o_left o - 1)%Z)).
    { unfold lie_once, andthen, get, lift, ret. destruct (ask1_frame Rops G o) as [g Hg]. destruct (ask1 Rops G o) as [o1 [x|e]]; cbn [fst] in Hg; [|now split].
      change (the_lie Rops W' s false (o_yi o1)) with (the_lie Rops W s false (o_yi o1)). destruct (the_lie Rops W s false (o_yi o1)) as [v|e]; [|now split].
      assert (L1 : o_left o1 = o_left o) by (now subst o1). rewrite !T by lia. cbv zeta. destruct (snd (get_result Rops _)); [|now split]. split; [reflexivity|].
      intros o2 x2 H. injection H as <- _. cbn. lia. }
    destruct E as (-> & El). destruct (lie_once Rops G W s false o) as [o1 [x|e]]; [|reflexivity]. specialize (El _ _ eq_refl).
    unfold andthen. now rewrite (IH o1) by lia.
  Qed.

  (** ** Asking for several points, and update_next *)
  Lemma ask_n_sim n st o o' : good Rops G W o -> rel o o' -> settled b o (CAsk (NPInt n) st) ->
    rel (fst (ask_n Rops G W n st o)) (fst (ask_n Rops G W' n st o')) /\ res_rel eq (snd (ask_n Rops G W n st o)) (snd (ask_n Rops G W' n st o')).
  Proof.
    intros Hg Ho Hs. unfold ask_n. destruct (n <=? 0)%Z eqn:En; [now split|]. apply Z.leb_gt in En. destruct (liar_of st) as [s|]; [|now split].
    unfold andthen, get, upd, lift, ret. replace (o_cache o') with (o_cache o) by (now destruct Ho as [_ -> _ _ _]). destruct (dict_get key_eqb (o_cache o) (n, st)) as [X|]; [now split|].
    replace (o_rng o') with (o_rng o) by (now destruct Ho as [_ -> _ _ _]). destruct (rg_randint G (o_rng o) 0 int_max) as [seed g].
    rewrite (rel_cfg Ho), (rl_acq Ho), Hacq. destruct (copy_sim (rg_seed G seed) Hg Ho) as [_ Hc].
    destruct (copy Rops G W o (rg_seed G seed)) as [g1 [c|e]], (copy Rops G W' o' (rg_seed G seed)) as [g1' [c'|e']]; cbn [fst snd res_rel] in *; try easy.
    2:{ split; [now apply rel_set|exact Hc]. }
    destruct Hc as (Hr & Hl & He).
    assert (E : res_rel eq (snd (lie_loop Rops G W s false (Z.to_nat n) c)) (snd (lie_loop Rops G W' s false (Z.to_nat n) c'))).
    { destruct Hs as [Hs|[Hs|(Hs & Hn)]]; [apply lie_loop_sim; auto..|]. destruct (He Hs) as (<- & El & _). rewrite lie_loop_same by (rewrite El; lia). apply res_rel_refl. }
    destruct (snd (lie_loop Rops G W s false (Z.to_nat n) c)) as [X|e], (snd (lie_loop Rops G W' s false (Z.to_nat n) c')) as [X'|e']; cbn [res_rel] in E; try easy; subst.
    - split; [|reflexivity]. now apply rel_cache, rel_set.
    - split; [|reflexivity]. now apply rel_set.
  Qed.
  Lemma update_sim o o' : good Rops G W o -> rel o o' ->
    rel (fst (update_next Rops G W o)) (fst (update_next Rops G W' o')) /\ res_rel eq (snd (update_next Rops G W o)) (snd (update_next Rops G W' o')).
  Proof.
    intros Hg Ho. unfold update_next, andthen, upd, get, lift, ret. pose proof (rel_cache [] Ho) as H1. pose proof (good_clear Hg) as Hg1.
    set (o1 := set_cache [] o) in *. set (o1' := set_cache [] o') in *.
    replace (o_next o1') with (o_next o1) by (now destruct H1 as [_ -> _ _ _]). destruct (o_next o1) as [p|]; [|now split].
    replace (o_rng o1') with (o_rng o1) by (now destruct H1 as [_ -> _ _ _]). destruct (copy_sim (o_rng o1) Hg1 H1) as [Hf Hc].
    destruct (copy Rops G W o1 (o_rng o1)) as [g [c|e]], (copy Rops G W' o1' (o_rng o1)) as [g' [c'|e']]; cbn [fst snd res_rel] in *; try easy; subst g'.
    - destruct Hc as (Hr & _). replace (o_next c') with (o_next c) by (now destruct Hr as [_ -> _ _ _]).
      destruct (o_next c); [|split; [now apply rel_set|reflexivity]]. split; [|reflexivity]. now apply rel_next, rel_set.
    - split; [now apply rel_set|exact Hc].
  Qed.

  (** ** Calls *)
  Lemma call_sim c o o' : good Rops G W o -> rel o o' -> settled b o c ->
    rel (fst (do_call Rops G W c o)) (fst (do_call Rops G W' (call_in_unit a b c) o')) /\
    same_answer a b (snd (do_call Rops G W c o)) (snd (do_call Rops G W' (call_in_unit a b c) o')).
  Proof.
    intros Hg Ho Hs. destruct c as [n st|x y fit|g n| |]; cbn [do_call call_in_unit].
    - destruct n as [|n|]; cbn [ask].
      + unfold andthen. destruct (sim_ask1 Ho) as [H1 H2]. destruct (ask1 Rops G o) as [o1 [x|e]], (ask1 Rops G o') as [o1' [x'|e']]; cbn in *; try easy; subst; (split; [easy|constructor]).
      + unfold andthen. destruct (ask_n_sim Hg Ho Hs) as [H1 H2]. destruct (ask_n Rops G W n st o) as [o1 [x|e]], (ask_n Rops G W' n st o') as [o1' [x'|e']]; cbn in *; try easy; subst; (split; [easy|constructor]).
      + cbn. split; [easy|constructor].
    - destruct (sim_tell x y fit Ho) as [H1 H2]. destruct (tell Rops G W x y fit o) as [o1 [r|e]], (tell Rops G W' x (in_unit a b y) fit o') as [o1' [r'|e']]; cbn in *; try easy; subst; (split; [easy|now constructor]).
    - destruct (sim_run g n Ho) as [H1 H2]. destruct (run Rops G W g n o) as [o1 [r|e]], (run Rops G W' _ n o') as [o1' [r'|e']]; cbn in *; try easy; subst; (split; [easy|now constructor]).
    - destruct (sim_result Ho) as [H1 H2]. destruct (get_result Rops o) as [o1 [r|e]], (get_result Rops o') as [o1' [r'|e']]; cbn in *; try easy; subst; (split; [easy|now constructor]).
    - destruct (update_sim Hg Ho) as [H1 H2]. destruct (update_next Rops G W o) as [o1 [r|e]], (update_next Rops G W' o') as [o1' [r'|e']]; cbn in *; try easy; subst; (split; [easy|constructor]).
  Qed.
  Lemma twins_rel o o' : twins G W W' a b acq o o' -> reachable Rops G W o /\ rel o o'.
  Proof.
    induction 1 as [ar g g1 o g1' o' E E' Ha Hl|c o o' _ (Hr & Ho) Hs|o o' g g1 o1 g1' o1' _ (Hr & Ho) E E'|g o o' _ (Hr & Ho)].
    - split; [eapply r_make; exact E|]. rewrite make_same, E in E'. injection E' as _ <-. destruct (make_empty Rops G W _ _ E) as (M1 & M2 & M3 & _).
      constructor; [rewrite M1; constructor| |rewrite M3; constructor|exact Ha|exact Hl]. unfold moved. rewrite M3. cbn. rewrite <- M3. now destruct o.
    - split; [now apply r_call|]. now apply call_sim; [apply reachable_good| |].
    - split; [eapply r_copy; eassumption|]. destruct (copy_sim g (reachable_good Hr) Ho) as [_ Hc]. rewrite E, E' in Hc. apply Hc.
    - split; [now apply r_rng|now apply rel_set].
  Qed.
  Lemma twins_step c o o' : twins G W W' a b acq o o' -> settled b o c ->
    same_answer a b (snd (do_call Rops G W c o)) (snd (do_call Rops G W' (call_in_unit a b c) o')).
  Proof. intros H Hs. destruct (twins_rel H) as (Hr & Ho). apply call_sim; auto. now apply reachable_good. Qed.
End Sim.
