(** Lemmas about the optimizer: what each method leaves alone, and what it adds. *)
From Coq Require Import String List ZArith Bool Lia.
From Verif Require Import Base Num Values Transformers Dimension Space Optimizer NumLaws BaseLemmas
  SpaceSpec MetricLemmas OptSpec.
Import ListNotations.
Open Scope list_scope.
Set Implicit Arguments.

Section OptLemmas.
  Context {N RNG M : Type} (O : numops N) (G : rng_ops N RNG) (W : world N M).
  Notation state := (opt N RNG M).
  Notation op := (op (N:=N) (RNG:=RNG) (M:=M)).

  (** *** Frames *)
  Definition pres (R : state -> state -> Prop) {A} (m : op A) : Prop := forall o, R o (fst (m o)).

  Section Pres.
    Context (R : state -> state -> Prop).
    Hypothesis refl : forall o, R o o.
    Hypothesis trans : forall a b c, R a b -> R b c -> R a c.
    Lemma pres_ret {A} (a : A) : pres R (ret a).
    Proof. intros o. apply refl. Qed.
    Lemma pres_lift {A} (r : res A) : pres R (lift r).
    Proof. intros o. apply refl. Qed.
    Lemma pres_get : pres R get.
    Proof. intros o. apply refl. Qed.
    Lemma pres_upd f : (forall o, R o (f o)) -> pres R (upd f).
    Proof. intros H o. apply H. Qed.
    Lemma pres_then {A B} (m : op A) (k : A -> op B) :
      pres R m -> (forall a, pres R (k a)) -> pres R (andthen m k).
    Proof.
      intros Hm Hk o. unfold andthen. specialize (Hm o). destruct (m o) as [o1 [a|e]]; simpl in *; [|easy].
      eapply trans; [exact Hm|]. apply Hk.
    Qed.
    (** With the state in hand. *)
    Lemma pres_get_then {B} (k : state -> op B) :
      (forall o, R o (fst (k o o))) -> pres R (andthen get k).
    Proof. intros H o. apply H. Qed.
  End Pres.

  Lemma andthen_ok {A B} (m : op A) (k : A -> op B) o o' b :
    andthen m k o = (o', Ok b) <-> exists o1 a, m o = (o1, Ok a) /\ k a o1 = (o', Ok b).
  Proof.
    unfold andthen. destruct (m o) as [o1 [a|e]]; split.
    - intros H. now exists o1, a.
    - intros (o2 & a' & H & K). now injection H as <- <-.
    - intros H. discriminate.
    - intros (o2 & a' & H & K). discriminate.
  Qed.

  (** Observations, design, settings. *)
  Definition same_obs (o o' : state) : Prop :=
    o_cfg o' = o_cfg o /\ o_left o' = o_left o /\ o_init o' = o_init o /\ o_Xi o' = o_Xi o /\
    o_yi o' = o_yi o /\ o_cache o' = o_cache o.
  Lemma so_refl o : same_obs o o. Proof. now repeat split. Qed.
  Lemma so_trans a b c : same_obs a b -> same_obs b c -> same_obs a c.
  Proof. unfold same_obs. intuition congruence. Qed.

  Ltac frame := repeat first
    [ apply pres_ret; apply so_refl | apply pres_lift; apply so_refl | apply pres_get; apply so_refl
    | apply pres_upd; intros; now repeat split
    | apply pres_then; [apply so_trans| |intros] ].

  Lemma update_gains_obs est : pres same_obs (update_gains O W est).
  Proof.
    unfold update_gains. frame. destruct (o_next_xs a) as [[|r xs]|]; destruct (c_acq (o_cfg a)); frame.
  Qed.
  Lemma push_model_obs est : pres same_obs (push_model est).
  Proof.
    unfold push_model. frame. destruct (c_queue (o_cfg a)); [|frame].
    destruct (_ <? _)%Z; frame. destruct (o_models a); frame.
  Qed.
  Lemma candidates_obs : pres same_obs (candidates O G).
  Proof. unfold candidates. frame. destruct (space_rvs _ _ _ _ _) as [P g]. frame. Qed.
  Lemma fill_obs l est X : pres same_obs (fill_next_xs O W l est X).
  Proof. induction l as [|a l IH]; simpl; frame. apply IH. Qed.
  Lemma choose_obs : pres same_obs (choose_next O G).
  Proof.
    unfold choose_next. frame. destruct (c_acq (o_cfg a)); frame.
    destruct (rg_multinomial _ _ _) as [i g]. frame.
  Qed.
  Lemma refit_obs : pres same_obs (refit O G W).
  Proof.
    unfold refit.
    repeat first
      [ apply update_gains_obs | apply push_model_obs | apply candidates_obs | apply fill_obs
      | apply choose_obs | apply pres_lift; apply so_refl | apply pres_get; apply so_refl
      | apply pres_upd; intros; now repeat split | apply pres_then; [apply so_trans| |intros] ].
  Qed.

  (** The history after [_tell]. *)
  Definition grown (o : state) (xs : list (xarg N)) (ys : list (yval N)) (o' : state) : Prop :=
    o_cfg o' = o_cfg o /\ o_left o' = (o_left o - Z.of_nat (length ys))%Z /\ o_init o' = o_init o /\
    o_Xi o' = o_Xi o ++ xs /\ o_yi o' = o_yi o ++ ys.

  Inductive recorded : targ N -> ytold N -> list (xarg N) -> list (yval N) -> Prop :=
  | rec_one p v : recorded (P1 p) (Y1 v) [X1 p] [v]
  | rec_odd ps v : recorded (P2 ps) (Y1 v) [X2 ps] [v]
  | rec_many ps l : recorded (P2 ps) (Yn l) (map (@X1 N) ps) l
  | rec_hist h l : recorded (PH h) (Yn l) h l.

  Lemma tell_grows x y xs ys fit o : recorded x y xs ys ->
    grown o xs ys (fst (tell_ O G W x y fit o)) /\ o_cache (fst (tell_ O G W x y fit o)) = [].
  Proof.
    intros H.
    assert (E : exists o1, record_obs x y o = (o1, Ok tt) /\ grown o xs ys o1).
    { inversion H; subst; simpl; eexists; (split; [reflexivity|]); unfold grown; simpl; repeat split. }
    destruct E as (o1 & E & Hg).
    unfold tell_ at 1 2. unfold andthen at 1 5. rewrite E.
    unfold andthen, upd, get. simpl.
    set (o2 := set_cache [] o1).
    assert (Hr : forall b, same_obs o2 (fst ((if b : bool then refit O G W else ret tt) o2))).
    { intros [|]; [apply refit_obs|apply so_refl]. }
    match goal with |- context [if ?b then _ else _] => specialize (Hr b);
      destruct ((if b then refit O G W else ret tt) o2) as [o3 [u|e]] end; simpl in *;
      unfold grown, same_obs in *; subst o2; simpl in *; intuition congruence.
  Qed.

  Lemma record_fails x y : (forall xs ys, ~ recorded x y xs ys) -> forall fit o,
    tell_ O G W x y fit o = (o, Raise NotModelled).
  Proof.
    intros H fit o. destruct x, y; try (exfalso; eapply H; constructor); reflexivity.
  Qed.

  (** A successful [_tell] returns the result of the new state. *)
  Lemma tell_result x y fit o o' r : tell_ O G W x y fit o = (o', Ok r) -> get_result O o' = (o', Ok r).
  Proof.
    unfold tell_. intros H. do 4 (apply andthen_ok in H; destruct H as (? & ? & _ & H)).
    unfold get_result in *. injection H as H1 H2. subst. now rewrite H2.
  Qed.

  (** *** ask *)
  Lemma ask1_frame (o : state) : exists g, fst (ask1 O G o) = set_rng g o.
  Proof.
    unfold ask1, andthen at 1, get. simpl.
    assert (Hid : exists g, o = set_rng g o) by (exists (o_rng o); now destruct o).
    destruct (_ || _).
    - destruct (o_init o) as [l|].
      + destruct (py_index _ _); apply Hid.
      + destruct (space_rvs _ _ _ _ _) as [[P|e] g]; simpl; exists g; reflexivity.
    - destruct (o_models o); [apply Hid|]. destruct (o_next o); [|apply Hid].
      unfold andthen, lift. destruct (mapM _ _) as [[|]|]; apply Hid.
  Qed.
  Definition model_phase (o : state) : Prop := (o_left o <= 0)%Z /\ has_est o = true.
  Lemma ask1_model o : model_phase o -> fst (ask1 O G o) = o.
  Proof.
    intros [Hl He]. unfold ask1, andthen at 1, get. simpl.
    replace (0 <? o_left o)%Z with false by (symmetry; apply Z.ltb_ge; lia).
    rewrite He. simpl. destruct (o_models o); [easy|]. destruct (o_next o); [|easy].
    unfold andthen, lift. now destruct (mapM _ _) as [[|]|].
  Qed.

  Lemma lie_once_ok s ps o o' x : lie_once O G W s ps o = (o', Ok x) ->
    exists o1 v r, ask1 O G o = (o1, Ok x) /\ the_lie O W s ps (o_yi o) = Ok v /\
      tell_ O G W (P1 x) (Y1 v) true o1 = (o', Ok r).
  Proof.
    unfold lie_once. intros H. apply andthen_ok in H. destruct H as (o1 & p & E1 & H).
    apply andthen_ok in H. destruct H as (o2 & s2 & E2 & H). injection E2 as <- <-.
    apply andthen_ok in H. destruct H as (o2 & v & E2 & H). injection E2 as <- E2.
    apply andthen_ok in H. destruct H as (o2' & r & E3 & H). injection H as <- <-.
    exists o1, v, r. repeat split; auto. destruct (ask1_frame o) as [g Hg]. rewrite E1 in Hg. simpl in Hg.
    now rewrite Hg in E2.
  Qed.
  Lemma lie_loop_cons s ps n o o' l : lie_loop O G W s ps (S n) o = (o', Ok l) ->
    exists o1 x l', lie_once O G W s ps o = (o1, Ok x) /\ lie_loop O G W s ps n o1 = (o', Ok l') /\ l = x :: l'.
  Proof.
    simpl. intros H. apply andthen_ok in H. destruct H as (o1 & x & E1 & H).
    apply andthen_ok in H. destruct H as (o2 & l' & E2 & H). injection H as <- <-.
    exists o1, x, l'. auto.
  Qed.
  Lemma lie_loop_length s ps n : forall o o' l, lie_loop O G W s ps n o = (o', Ok l) -> length l = n.
  Proof.
    induction n as [|n IH]; intros o o' l H.
    - injection H as _ <-. reflexivity.
    - apply lie_loop_cons in H. destruct H as (o1 & x & l' & _ & H & ->). simpl. f_equal. eauto.
  Qed.

  (** Only the generator and the cache change. *)
  Lemma ask_n_frame n s (o : state) : exists g c, fst (ask_n O G W n s o) = set_cache c (set_rng g o).
  Proof.
    unfold ask_n.
    assert (Hid : exists g c, o = set_cache c (set_rng g o)) by (exists (o_rng o), (o_cache o); now destruct o).
    destruct (n <=? 0)%Z; [exact Hid|]. destruct (liar_of s); [|exact Hid].
    unfold andthen at 1, get. simpl. destruct (dict_get _ _ _); [exact Hid|].
    destruct (rg_randint G (o_rng o) 0 int_max) as [seed g].
    unfold andthen, upd, lift, ret. simpl.
    destruct (copy O G W o (rg_seed G seed)) as [g1 [cp|e]]; simpl; [|exists g, (o_cache o); now destruct o].
    destruct (lie_loop _ _ _ _ _ _ _) as [o2 [X|e]]; simpl; [|exists g, (o_cache o); now destruct o].
    exists g. eexists. reflexivity.
  Qed.
  Lemma ask_n_ok n s o o' X : ask_n O G W n s o = (o', Ok X) ->
    (0 < n)%Z /\ exists l, liar_of s = Some l /\
      ((dict_get key_eqb (o_cache o) (n, s) = Some X /\ o' = o) \/
       (dict_get key_eqb (o_cache o) (n, s) = None /\ o_cache o' = [((n, s), X)] /\
        exists g0 g1 cp cp', copy O G W o g0 = (g1, Ok cp) /\
          lie_loop O G W l (ps_of o) (Z.to_nat n) cp = (cp', Ok X))).
  Proof.
    unfold ask_n. destruct (n <=? 0)%Z eqn:En; [discriminate|]. apply Z.leb_gt in En.
    destruct (liar_of s) as [l|] eqn:El; [|discriminate]. intros H. split; [easy|]. exists l. split; [easy|].
    unfold andthen at 1, get in H. simpl in H.
    destruct (dict_get _ _ _) eqn:Ed; [left; injection H as <- <-; auto|]. right.
    destruct (rg_randint G (o_rng o) 0 int_max) as [seed g].
    apply andthen_ok in H. destruct H as (o1 & u & E1 & H). injection E1 as <- <-.
    apply andthen_ok in H. destruct H as (o1 & cp & E1 & H). injection E1 as <- E1.
    apply andthen_ok in H. destruct H as (o1 & X' & E2 & H). injection E2 as <- E2.
    injection H as <- <-. simpl. repeat split.
    destruct (copy O G W o (rg_seed G seed)) as [g1 cp'] eqn:Ec. simpl in E1. subst cp'.
    unfold ps_of. destruct (lie_loop _ _ _ _ _ _ cp) as [cp2 X2] eqn:Ex. simpl in E2. subst X2.
    exists (rg_seed G seed), g1, cp, cp2. auto.
  Qed.

  Lemma key_eqb_refl k : key_eqb k k = true.
  Proof. unfold key_eqb. now rewrite Z.eqb_refl, String.eqb_refl. Qed.
  Lemma key_eqb_eq a b : key_eqb a b = true -> a = b.
  Proof.
    unfold key_eqb. rewrite andb_true_iff, Z.eqb_eq, String.eqb_eq. destruct a, b; simpl. intuition congruence.
  Qed.

  (** *** update_next *)
  Lemma update_next_frame (o : state) :
    exists g nx, fst (update_next O G W o) = set_next nx (set_rng g (set_cache [] o)).
  Proof.
    unfold update_next, andthen at 1 2, upd, get. simpl.
    destruct (o_next o) as [p|] eqn:En.
    - destruct (copy _ _ _ _ _) as [g [cp|e]]; simpl.
      + unfold andthen, lift, upd. simpl. destruct (o_next cp) as [q|].
        * exists g, (Some q). reflexivity.
        * exists g, (Some p). rewrite <- En. now destruct o.
      + exists g, (Some p). rewrite <- En. now destruct o.
    - exists (o_rng o), None. rewrite <- En. now destruct o.
  Qed.

  (** *** tell *)
  Lemma mapM_log_pair l vs : mapM (log_pair O) l = Ok vs -> Forall2 (observation O true) l vs.
  Proof.
    intros H. apply mapM_ok in H. eapply Forall2_weaken; [|exact H].
    intros y v E. unfold log_pair in E. destruct y as [|[|a [|b [|]]]|]; try discriminate.
    destruct b as [t| |]; try discriminate. unfold math_log in E. destruct (nleb _ _ _); [discriminate|].
    simpl in E. destruct a; try discriminate. injection E as <-. constructor.
  Qed.
  Lemma mapM_scalar l vs : mapM (@scalar N) l = Ok vs -> Forall2 (observation O false) l vs.
  Proof.
    intros H. apply mapM_ok in H. eapply Forall2_weaken; [|exact H].
    intros y v E. destruct y; try discriminate. injection E as <-. constructor.
  Qed.
  Lemma convert_one (ps : bool) y v : (if ps then log_pair O y else scalar y) = Ok v -> observation O ps y v.
  Proof.
    destruct ps; intros H.
    - assert (F : Forall2 (observation O true) [y] [v]) by (apply mapM_log_pair; simpl; now rewrite H).
      now inversion F.
    - assert (F : Forall2 (observation O false) [y] [v]) by (apply mapM_scalar; simpl; now rewrite H).
      now inversion F.
  Qed.

  (** The three ways through [tell]. *)
  Lemma tell_cases x y fit o :
    (exists e, tell O G W x y fit o = (o, Raise e)) \/
    (exists y' xs ys, valid_x O (c_dims (o_cfg o)) x /\ check_y (ps_of o) x y = Ok tt /\
       convert_y O (ps_of o) x y = Ok y' /\ recorded (targ_of x) y' xs ys /\
       tell O G W x y fit o = tell_ O G W (targ_of x) y' fit o).
  Proof.
    unfold tell, ps_of. unfold andthen at 1, get. simpl. unfold andthen, lift.
    destruct (check_x_in_space O x (c_dims (o_cfg o))) as [[]|e] eqn:Ex; [|left; eauto].
    destruct (check_y _ x y) as [[]|e] eqn:Ey; [|left; eauto].
    destruct (convert_y _ _ x y) as [y'|e] eqn:Ec; [|left; eauto].
    right. 
    assert (Hr : exists xs ys, recorded (targ_of x) y' xs ys).
    { unfold convert_y in Ec. destruct x as [p|pts]; [|destruct y as [v|l|]].
      - apply bind_ok in Ec. destruct Ec as (v & _ & E). injection E as <-. eexists _, _. constructor.
      - apply bind_ok in Ec. destruct Ec as (v' & _ & E). injection E as <-. eexists _, _. constructor.
      - apply bind_ok in Ec. destruct Ec as (v' & _ & E). injection E as <-. eexists _, _. constructor.
      - apply bind_ok in Ec. destruct Ec as (v' & _ & E). injection E as <-. eexists _, _. constructor. }
    destruct Hr as (xs & ys & Hr). exists y', xs, ys. repeat split; auto.
    destruct x as [p|pts]; simpl; [now apply check_point_ok|now apply check_batch_ok].
  Qed.
End OptLemmas.
