(** Two optimizers called in the same way but for the order of the observations stay in step. *)
From Coq Require Import String List ZArith Bool Lia Reals Lra Permutation.
From Verif Require Import Base BaseLemmas Num Values Transformers Dimension Space Optimizer NumLaws SpaceSpec SpaceLemmas RealLemmas BoundLemmas ArgLemmas
  OptSpec OptLemmas OptLemmas2 OptLemmas4 CampaignSpec UnitSim Campaign OrderSpec.
Import ListNotations.
Open Scope list_scope.
Set Implicit Arguments.

(** ** Lists *)
Lemma combine_map_both {A B C D} (f : A -> C) (g : B -> D) : forall (l : list A) (l' : list B), combine (map f l) (map g l') = map (fun q => (f (fst q), g (snd q))) (combine l l').
Proof. induction l as [|a l IH]; intros [|b l']; cbn; try reflexivity. now rewrite IH. Qed.
Lemma combine_map_l {A B C} (f : A -> C) (l : list A) (l' : list B) : combine (map f l) l' = map (fun q => (f (fst q), snd q)) (combine l l').
Proof. revert l'. induction l as [|a l IH]; intros [|b l']; cbn; try reflexivity. now rewrite IH. Qed.
Lemma combine_map_r {A B C} (f : B -> C) (l : list A) (l' : list B) : combine l (map f l') = map (fun q => (fst q, f (snd q))) (combine l l').
Proof. revert l'. induction l as [|a l IH]; intros [|b l']; cbn; try reflexivity. now rewrite IH. Qed.
Lemma fst_combine {A B} : forall (l : list A) (l' : list B), length l = length l' -> map fst (combine l l') = l.
Proof. induction l as [|a l IH]; intros [|b l'] H; cbn in *; try discriminate; [reflexivity|]. now rewrite IH by lia. Qed.
Lemma snd_combine {A B} : forall (l : list A) (l' : list B), length l = length l' -> map snd (combine l l') = l'.
Proof. induction l as [|a l IH]; intros [|b l'] H; cbn in *; try discriminate; [reflexivity|]. now rewrite IH by lia. Qed.
Lemma combine_app {A B} : forall (l1 : list A) (k1 : list B) l2 k2, length l1 = length k1 -> combine (l1 ++ l2) (k1 ++ k2) = combine l1 k1 ++ combine l2 k2.
Proof. induction l1 as [|a l IH]; intros [|b k] l2 k2 H; cbn in *; try discriminate; [reflexivity|]. now rewrite IH by lia. Qed.
Lemma mapM_map {A B} (f : A -> res B) (z : B) l l' : mapM f l = Ok l' -> l' = map (fun x => match f x with Ok v => v | Raise _ => z end) l.
Proof.
  revert l'. induction l as [|a l IH]; intros l' H; cbn in *; [now injection H as <-|]. destruct (f a) as [b|]; [|discriminate]. cbn in H.
  destruct (mapM f l) as [k|] eqn:E; [|discriminate]. cbn in H. injection H as <-. now rewrite (IH k eq_refl).
Qed.
Lemma mapM_both {A B} (f g : A -> res B) : (forall a x y, f a = Ok x -> g a = Ok y -> x = y) -> forall l x y, mapM f l = Ok x -> mapM g l = Ok y -> x = y.
Proof.
  intros H. induction l as [|a l IH]; intros x y Hx Hy; cbn in *; [congruence|]. destruct (f a) as [u|] eqn:Eu; [|discriminate]. destruct (g a) as [v|] eqn:Ev; [|discriminate].
  cbn in *. destruct (mapM f l) as [p|]; [|discriminate]. destruct (mapM g l) as [q|]; [|discriminate]. cbn in *. injection Hx as <-. injection Hy as <-. f_equal; eauto.
Qed.

(** ** Statistics *)
Lemma no_nanR l : no_nan Rops l.
Proof. apply Forall_forall. intros v _. apply isnan_R. Qed.
Lemma perm_min l l' a b : Permutation l l' -> np_min Rops l = Ok a -> np_min Rops l' = Ok b -> a = b.
Proof.
  intros P Ha Hb. destruct l as [|x l]; [discriminate|]. assert (Hn : x :: l <> []) by easy. assert (Hn' : l' <> []) by (intros ->; now apply Permutation_sym, Permutation_nil in P).
  destruct (np_min_spec Rops_order Hn (no_nanR _)) as (m & Em & Im & Lm & _). destruct (np_min_spec Rops_order Hn' (no_nanR _)) as (m' & Em' & Im' & Lm' & _).
  rewrite Ha in Em. injection Em as <-. rewrite Hb in Em'. injection Em' as <-.
  specialize (Lm b (Permutation_in _ (Permutation_sym P) Im')). specialize (Lm' a (Permutation_in _ P Im)). cbn in Lm, Lm'. unfold Rleb' in *.
  destruct (Rle_dec a b); [|discriminate]. destruct (Rle_dec b a); [|discriminate]. lra.
Qed.
Lemma perm_max l l' a b : Permutation l l' -> np_max Rops l = Ok a -> np_max Rops l' = Ok b -> a = b.
Proof.
  intros P Ha Hb. destruct l as [|x l]; [discriminate|]. assert (Hn : x :: l <> []) by easy. assert (Hn' : l' <> []) by (intros ->; now apply Permutation_sym, Permutation_nil in P).
  destruct (np_max_spec Rops_order Hn (no_nanR _)) as (m & Em & Im & Lm & _). destruct (np_max_spec Rops_order Hn' (no_nanR _)) as (m' & Em' & Im' & Lm' & _).
  rewrite Ha in Em. injection Em as <-. rewrite Hb in Em'. injection Em' as <-.
  specialize (Lm b (Permutation_in _ (Permutation_sym P) Im')). specialize (Lm' a (Permutation_in _ P Im)). cbn in Lm, Lm'. unfold Rleb' in *.
  destruct (Rle_dec a b); [|destruct (Rle_dec b a); try discriminate; lra]. destruct (Rle_dec b a); [|try discriminate; lra]. lra.
Qed.
Lemma perm_sum l l' : Permutation l l' -> forall z, fold_left Rplus l z = fold_left Rplus l' z.
Proof.
  induction 1 as [|x l l' _ IH|x y l|l1 l2 l3 _ IH1 _ IH2]; intro z; cbn; [reflexivity|apply IH| |now rewrite IH1].
  f_equal. ring.
Qed.
Lemma perm_mean l l' a b : Permutation l l' -> np_mean Rops l = Ok a -> np_mean Rops l' = Ok b -> a = b.
Proof.
  intros P. pose proof (Permutation_length P) as L. pose proof (perm_sum P) as S. unfold np_mean, np_sum. destruct l as [|x l]; [discriminate|]. destruct l' as [|x' l']; [discriminate|].
  cbn [Rops nadd nofZ ndiv] in *. intros Ha Hb. injection Ha as <-. injection Hb as <-. cbn [length] in L. injection L as L. specialize (S (IZR 0)). cbn [fold_left length] in *. rewrite S. now rewrite L.
Qed.
Lemma perm_stat s l l' a b : Permutation l l' -> lie_stat Rops s l = Ok a -> lie_stat Rops s l' = Ok b -> a = b.
Proof. destruct s; cbn [lie_stat]; [apply perm_min|apply perm_mean|apply perm_max]. Qed.

Section Sim.
  Context {RNG M : Type} (G : rng_ops R RNG) (W : world R M) (need : list (yval R) -> Prop) (D : list (dim R)) (alike : M -> M -> Prop).
  Context (Gok : rng_ok Rops G) (Nmono : forall l l', need l -> need (l ++ l')) (OF : order_free W D alike).
  Notation state := (opt R RNG M).

  Record rel (o o' : state) : Prop := {
    rl_models : Forall2 alike (o_models o) (o_models o');
    rl_cfg : o_cfg o' = o_cfg o; rl_left : o_left o' = o_left o; rl_init : o_init o' = o_init o; rl_cache : o_cache o' = o_cache o;
    rl_next : o_next o' = o_next o; rl_xs : o_next_xs o' = o_next_xs o; rl_gains : o_gains o' = o_gains o; rl_rng : o_rng o' = o_rng o;
    rl_dims : c_dims (o_cfg o) = D;
    rl_obs : exists P P', o_Xi o = map (@X1 R) P /\ o_Xi o' = map (@X1 R) P' /\ Forall (in_space Rops D) P /\ Forall (in_space Rops D) P' /\
               length P = length (o_yi o) /\ length P' = length (o_yi o') /\ Permutation (combine P (o_yi o)) (combine P' (o_yi o')) }.
  Context (Dne : D <> []) (Db : Forall boundedR D).

  Lemma rel_yi o o' : rel o o' -> Permutation (o_yi o) (o_yi o').
  Proof. intros H. destruct (rl_obs H) as (P & P' & _ & _ & _ & _ & L & L' & Q). apply (Permutation_map snd) in Q. now rewrite !snd_combine in Q. Qed.

  Definition sim {A B} (Q : A -> B -> Prop) (m : @op R RNG M A) (m' : @op R RNG M B) : Prop :=
    forall o o' o1 o1' x x', rel o o' -> m o = (o1, Ok x) -> m' o' = (o1', Ok x') -> rel o1 o1' /\ Q x x'.
  Lemma sim_ret {A B} (Q : A -> B -> Prop) x x' : Q x x' -> sim Q (ret x) (ret x').
  Proof. intros H o o' o1 o1' y y' Ho E E'. injection E as <- <-. injection E' as <- <-. now split. Qed.
  Lemma sim_lift {A B} (Q : A -> B -> Prop) r r' : (forall x x', r = Ok x -> r' = Ok x' -> Q x x') -> sim Q (lift r) (lift r').
  Proof. intros H o o' o1 o1' y y' Ho E E'. injection E as <- E. injection E' as <- E'. auto. Qed.
  Lemma sim_same {A} (r : res A) : sim eq (lift r) (lift r).
  Proof. apply sim_lift. congruence. Qed.
  Lemma sim_get : sim rel get get.
  Proof. intros o o' o1 o1' y y' Ho E E'. injection E as <- <-. injection E' as <- <-. now split. Qed.
  Lemma sim_upd h h' : (forall o o', rel o o' -> rel (h o) (h' o')) -> sim eq (upd h) (upd h').
  Proof. intros H o o' o1 o1' y y' Ho E E'. injection E as <- <-. injection E' as <- <-. auto. Qed.
  Lemma sim_then {A B C E} (Q : A -> B -> Prop) (S : C -> E -> Prop) m m' k k' :
    sim Q m m' -> (forall x x', Q x x' -> sim S (k x) (k' x')) -> sim S (andthen m k) (andthen m' k').
  Proof.
    intros H K o o' o2 o2' y y' Ho E1 E1'. unfold andthen in *. destruct (m o) as [o1 [x|e]] eqn:E2; [|discriminate]. destruct (m' o') as [o1' [x'|e']] eqn:E2'; [|discriminate].
    destruct (H _ _ _ _ _ _ Ho E2 E2') as [H1 H2]. exact (K x x' H2 _ _ _ _ _ _ H1 E1 E1').
  Qed.

  Ltac mk := constructor; cbn; auto.
  Lemma rel_set o o' g : rel o o' -> rel (set_rng g o) (set_rng g o').
  Proof. intros []. mk. Qed.
  Lemma rel_set_next o o' n : rel o o' -> rel (set_next n o) (set_next n o').
  Proof. intros []. mk. Qed.
  Lemma rel_set_xs o o' n : rel o o' -> rel (set_next_xs n o) (set_next_xs n o').
  Proof. intros []. mk. Qed.
  Lemma rel_set_gains o o' n : rel o o' -> rel (set_gains n o) (set_gains n o').
  Proof. intros []. mk. Qed.
  Lemma rel_set_cache o o' c : rel o o' -> rel (set_cache c o) (set_cache c o').
  Proof. intros []. mk. Qed.
  Lemma rel_set_models o o' ms ms' : Forall2 alike ms ms' -> rel o o' -> rel (set_models ms o) (set_models ms' o').
  Proof. intros ? []. mk. Qed.
  Lemma F2_length {A B} (Q : A -> B -> Prop) l l' : Forall2 Q l l' -> length l = length l'.
  Proof. induction 1; cbn; congruence. Qed.

  (** ** Fitting *)
  Lemma sim_push m m' : alike m m' -> sim eq (push_model m) (push_model m').
  Proof.
    intros Hm. unfold push_model. eapply sim_then; [apply sim_get|]. intros o o' Ho. rewrite (rl_cfg Ho). pose proof (rl_models Ho) as Hms.
    destruct (c_queue (o_cfg o)) as [q|].
    - rewrite <- (F2_length Hms). destruct (Z.of_nat (length (o_models o)) <? q)%Z.
      + apply sim_upd. intros o1 o1' H1. apply rel_set_models; [|exact H1]. apply Forall2_app; auto.
      + inversion Hms as [|x x' l l' Hx Hl E E']; [apply sim_same|]. apply sim_upd. intros o1 o1' H1. apply rel_set_models; [|exact H1]. apply Forall2_app; auto.
    - apply sim_upd. intros o1 o1' H1. apply rel_set_models; [|exact H1]. apply Forall2_app; auto.
  Qed.
  Lemma sim_gains m m' : alike m m' -> sim eq (update_gains Rops W m) (update_gains Rops W m').
  Proof.
    intros Hm. unfold update_gains. eapply sim_then; [apply sim_get|]. intros o o' Ho. rewrite (rl_cfg Ho), (rl_xs Ho), (rl_gains Ho).
    destruct (o_next_xs o) as [xs|]; [|now apply sim_ret]. destruct (c_acq (o_cfg o)); [|now apply sim_ret]. destruct xs as [|x xs]; [apply sim_same|].
    eapply (@sim_then _ _ _ _ eq); [apply sim_lift; intros; eapply (of_predict OF); eassumption|]. intros p ? <-.
    eapply sim_then; [apply sim_same|]. intros g ? <-. apply sim_upd. intros. now apply rel_set_gains.
  Qed.
  Lemma sim_candidates : sim eq (candidates Rops G) (candidates Rops G).
  Proof.
    unfold candidates. eapply sim_then; [apply sim_get|]. intros o o' Ho. rewrite (rl_cfg Ho), (rl_rng Ho).
    destruct (space_rvs Rops G _ _ _) as [P g]. eapply sim_then; [apply sim_upd; intros o1 o1' H1; now apply rel_set|]. intros _ _ _.
    eapply sim_then; [apply sim_same|]. intros P1 ? <-. apply sim_same.
  Qed.
  Lemma pick_both c a m m' y X v v' : alike m m' -> pick Rops W c a m y X = Ok v -> pick Rops W c a m' y X = Ok v' -> v = v'.
  Proof.
    intros Hm H H'. unfold pick in *. apply bind_ok in H. destruct H as (vs & Ev & H). apply bind_ok in H'. destruct H' as (vs' & Ev' & H').
    rewrite <- (@of_acq _ _ _ _ OF _ _ _ _ _ _ _ Hm Ev Ev') in H'. destruct (c_lbfgs c); [|congruence].
    apply bind_ok in H. destruct H as (x0 & E0 & H). apply bind_ok in H'. destruct H' as (x0' & E0' & H'). rewrite E0 in E0'. injection E0' as <-.
    apply bind_ok in H. destruct H as (rs & Er & H). apply bind_ok in H'. destruct H' as (rs' & Er' & H').
    assert (Q : rs = rs') by (eapply mapM_both; [|exact Er|exact Er']; intros r u u' Hu Hu'; exact (@of_lbfgs _ _ _ _ OF _ _ _ _ _ _ _ _ Hm Hu Hu')). subst rs'. congruence.
  Qed.
  Lemma sim_fill m m' X : alike m m' -> forall l, sim eq (fill_next_xs Rops W l m X) (fill_next_xs Rops W l m' X).
  Proof.
    intro Hm. induction l as [|a l IH]; [now apply sim_ret|]. cbn [fill_next_xs]. eapply sim_then; [apply sim_get|]. intros o o' Ho. rewrite (rl_cfg Ho), (rl_xs Ho).
    eapply (@sim_then _ _ _ _ eq).
    { apply sim_lift. intros y y' Ey Ey'. eapply perm_min; [|exact Ey|exact Ey']. apply Permutation_flat_map. now apply rel_yi. }
    intros y ? <-. eapply (@sim_then _ _ _ _ eq); [apply sim_lift; intros; eapply pick_both; eassumption|]. intros x ? <-.
    eapply sim_then; [apply sim_same|]. intros x' ? <-.
    eapply sim_then; [apply sim_upd; intros o1 o1' H1; now apply rel_set_xs|]. intros _ _ _. exact IH.
  Qed.
  Lemma sim_choose : sim eq (choose_next Rops G) (choose_next Rops G).
  Proof.
    unfold choose_next. eapply sim_then; [apply sim_get|]. intros o o' Ho. rewrite (rl_cfg Ho), (rl_xs Ho), (rl_gains Ho), (rl_rng Ho).
    destruct (c_acq (o_cfg o)); [|apply sim_same]. eapply sim_then; [apply sim_same|]. intros ps ? <-. destruct (rg_multinomial G (o_rng o) ps) as [i g].
    eapply sim_then; [apply sim_upd; intros; now apply rel_set|]. intros _ _ _. apply sim_same.
  Qed.
  (** Warping is row by row. *)
  Lemma warp_rows : exists f : point R -> list (pyval R), forall P Xt, Forall (in_space Rops D) P -> space_transform Rops D P = Ok Xt -> Xt = map f P.
  Proof.
    assert (Q : exists gs, Forall2 (tr_with (O := Rops)) D gs).
    { clear - Db. induction D as [|d l IH0]; [exists []; constructor|]. inversion Db as [|? ? Hd Dl]; subst. destruct (IH0 Dl) as (gs & IH). destruct (boundedR_ok Hd) as (g & Hg & _). exists (g :: gs). now constructor. }
    destruct Q as (gs & Q). exists (fun p => map (as_float Rops) (rowof gs p)). intros P Xt HP E.
    destruct P as [|p P].
    - exfalso. unfold space_transform in E. apply bind_ok in E. destruct E as (cols & _ & E). apply bind_ok in E. destruct E as (t & _ & E).
      apply bind_ok in E. destruct E as (b & Eb & E). destruct t; [injection Eb as <-|]; discriminate.
    - rewrite (space_transform_rows Dne Q) in E; [|discriminate|exact HP]. now injection E as <-.
  Qed.
  Lemma plain_all P : mapM (@plain R) (map (@X1 R) P) = Ok P.
  Proof. induction P as [|p P IH]; [reflexivity|]. cbn. now rewrite IH. Qed.
  Lemma sim_refit : sim eq (refit Rops G W) (refit Rops G W).
  Proof.
    unfold refit. eapply sim_then; [apply sim_get|]. intros o o' Ho. rewrite (rl_cfg Ho), (rl_dims Ho).
    destruct (rl_obs Ho) as (P & P' & E & E' & F & F' & L & L' & Q). rewrite E, E', !plain_all.
    eapply (@sim_then _ _ _ _ (fun a b => a = P /\ b = P')); [apply sim_lift; intros x x' Hx Hx'; split; congruence|]. intros ? ? (-> & ->).
    eapply (@sim_then _ _ _ _ (fun X X' => space_transform Rops D P = Ok X /\ space_transform Rops D P' = Ok X')); [apply sim_lift; auto|]. intros X X' (HX & HX').
    destruct warp_rows as (f & Hf). pose proof (Hf _ _ F HX) as EX. pose proof (Hf _ _ F' HX') as EX'.
    eapply (@sim_then _ _ _ _ alike).
    { apply sim_lift. intros m m' Hm Hm'.
      refine (@of_fit _ _ _ _ OF _ _ _ _ _ _ _ _ _ _ Hm Hm'); subst X X'; rewrite ?map_length; auto.
      - destruct P as [|p P0] eqn:Ep; [constructor|]. destruct (@space_withinR D (p :: P0) Dne Db) as (Xt & Et & _ & FX); [discriminate|exact F|].
        rewrite HX in Et. injection Et as <-. exact FX.
      - rewrite !combine_map_l. now apply Permutation_map. }
    intros m m' Hm.
    eapply sim_then; [apply sim_gains, Hm|]. intros _ _ _. eapply sim_then; [apply sim_push, Hm|]. intros _ _ _.
    eapply sim_then; [apply sim_candidates|]. intros Xc ? <-. eapply sim_then; [apply sim_upd; intros o1 o1' H1; now apply rel_set_xs|]. intros _ _ _.
    eapply sim_then; [apply sim_fill, Hm|]. intros _ _ _. eapply sim_then; [apply sim_choose|]. intros nx ? <-.
    eapply sim_then; [apply sim_same|]. intros P1 ? <-. eapply sim_then; [apply sim_same|]. intros p ? <-. apply sim_upd. intros o1 o1' H1. now apply rel_set_next.
  Qed.

  (** ** Telling *)
  Lemma rel_append z ps ps' ys ys' o o' : rel o o' -> Forall (in_space Rops D) ps -> Forall (in_space Rops D) ps' -> length ps = length ys -> length ps' = length ys' ->
    Permutation (combine ps ys) (combine ps' ys') ->
    rel (set_left (o_left o - z) (set_yi (o_yi o ++ ys) (set_Xi (o_Xi o ++ map (@X1 R) ps) o)))
        (set_left (o_left o' - z) (set_yi (o_yi o' ++ ys') (set_Xi (o_Xi o' ++ map (@X1 R) ps') o'))).
  Proof.
    intros [] F F' L L' HP. constructor; cbn; auto; [congruence|]. destruct rl_obs0 as (P & P' & E & E' & FP & FP' & LP & LP' & Q).
    exists (P ++ ps), (P' ++ ps'). rewrite E, E', !map_app, !app_length. split; [reflexivity|]. split; [reflexivity|]. split; [now apply Forall_app|]. split; [now apply Forall_app|].
    split; [exact (f_equal2 Nat.add LP L)|]. split; [exact (f_equal2 Nat.add LP' L')|]. rewrite !combine_app by assumption. now apply Permutation_app.
  Qed.
  Lemma record_eq x y xs ys : recorded x y xs ys ->
    @record_obs R RNG M x y = upd (fun o => set_left (o_left o - Z.of_nat (length ys)) (set_yi (o_yi o ++ ys) (set_Xi (o_Xi o ++ xs) o))).
  Proof. now intros []. Qed.
  Definition alike_results := @same_but_order RNG M.
  Lemma sim_result : sim alike_results (get_result Rops) (get_result Rops).
  Proof.
    intros o o' o1 o1' r r' Ho E E'. unfold get_result in *. injection E as <- E. injection E' as <- E'. split; [exact Ho|].
    destruct (rl_obs Ho) as (P & P' & EX & EX' & F & F' & L & L' & Q). unfold create_result in *.
    destruct (np_argmin Rops (map y_obj (o_yi o))) as [i|] eqn:Ei; [|discriminate]. destruct (np_argmin Rops (map y_obj (o_yi o'))) as [i'|] eqn:Ei'; [|discriminate].
    destruct (nth_error (o_Xi o) i); [|discriminate]. destruct (nth_error (o_Xi o') i'); [|discriminate].
    destruct (nth_error (map y_obj (o_yi o)) i) as [y|] eqn:Ey; [|discriminate]. destruct (nth_error (map y_obj (o_yi o')) i') as [y'|] eqn:Ey'; [|discriminate].
    injection E as <-. injection E' as <-. unfold alike_results, same_but_order. cbn.
    split; [|split; [|split; [|split]]].
    - symmetry. eapply perm_min; [apply Permutation_map, (rel_yi Ho)| |]; unfold np_min; [rewrite Ei|rewrite Ei']; cbn; [now rewrite Ey|now rewrite Ey'].
    - rewrite EX, EX', !combine_map_both. now apply Permutation_map.
    - symmetry. apply (F2_length (rl_models Ho)).
    - now rewrite (rl_cfg Ho).
    - apply (rl_rng Ho).
  Qed.
  Lemma sim_tell_ x y x' y' ps ps' ys ys' fit : recorded x y (map (@X1 R) ps) ys -> recorded x' y' (map (@X1 R) ps') ys' ->
    Forall (in_space Rops D) ps -> Forall (in_space Rops D) ps' -> length ps = length ys -> length ps' = length ys' ->
    Permutation (combine ps ys) (combine ps' ys') -> sim alike_results (tell_ Rops G W x y fit) (tell_ Rops G W x' y' fit).
  Proof.
    intros Hr Hr' F F' L L' HP. unfold tell_. rewrite (record_eq Hr), (record_eq Hr').
    assert (Ll : length ys = length ys') by (apply Permutation_length in HP; rewrite !combine_length in HP; lia). rewrite <- Ll.
    eapply sim_then; [apply sim_upd; intros o o' Ho; now apply rel_append|]. intros _ _ _.
    eapply sim_then; [apply sim_upd; intros o1 o1' H1; now apply rel_set_cache|]. intros _ _ _.
    eapply sim_then; [apply sim_get|]. intros o o' Ho. unfold has_est. rewrite (rl_cfg Ho), (rl_left Ho).
    eapply (@sim_then _ _ _ _ eq); [|intros _ _ _; apply sim_result]. destruct (_ && _); [apply sim_refit|now apply sim_ret].
  Qed.
  Lemma sim_tell1 p y fit : in_space Rops D p -> sim alike_results (tell Rops G W (X1 p) y fit) (tell Rops G W (X1 p) y fit).
  Proof.
    intros Hp. unfold tell. eapply sim_then; [apply sim_get|]. intros o o' Ho. rewrite (rl_cfg Ho). eapply sim_then; [apply sim_same|]. intros _ _ _.
    eapply sim_then; [apply sim_same|]. intros _ _ _.
    eapply (@sim_then _ _ _ _ (fun v v' => v = v' /\ exists w, v = Y1 w)).
    { apply sim_lift. intros v v' E E'. split; [congruence|]. cbn [convert_y] in E. apply bind_ok in E. destruct E as (w & _ & E). injection E as <-. eauto. }
    intros v ? (<- & w & ->). apply (@sim_tell_ _ _ _ _ [p] [p] [w] [w]); try constructor; auto.
  Qed.
  Lemma sim_tells ps ys ps' ys' fit : Forall (in_space Rops D) ps -> Forall (in_space Rops D) ps' -> length ps = length ys -> length ps' = length ys' ->
    Permutation (combine ps ys) (combine ps' ys') ->
    sim alike_results (tell Rops G W (X2 ps) (YLst ys) fit) (tell Rops G W (X2 ps') (YLst ys') fit).
  Proof.
    intros F F' L L' HP. unfold tell. eapply sim_then; [apply sim_get|]. intros o o' Ho. rewrite (rl_cfg Ho). set (b := is_ps (c_acq (o_cfg o))).
    eapply (@sim_then _ _ _ _ (fun _ _ => True)); [now apply sim_lift|]. intros _ _ _. eapply (@sim_then _ _ _ _ (fun _ _ => True)); [now apply sim_lift|]. intros _ _ _.
    cbn [convert_y targ_of].
    eapply (@sim_then _ _ _ _ (fun v v' => exists h, v = Yn (map h ys) /\ v' = Yn (map h ys'))).
    { apply sim_lift. intros v v' E E'. apply bind_ok in E. destruct E as (w & Ew & E). injection E as <-. apply bind_ok in E'. destruct E' as (w' & Ew' & E'). injection E' as <-.
      apply (mapM_map _ (YS 0%R)) in Ew. apply (mapM_map _ (YS 0%R)) in Ew'. eexists. split; f_equal; [exact Ew|exact Ew']. }
    intros v v' (h & -> & ->). apply (@sim_tell_ _ _ _ _ ps ps' (map h ys) (map h ys')); try constructor; auto; try (now rewrite map_length).
    rewrite !combine_map_r. now apply Permutation_map.
  Qed.

  (** ** Asking *)
  Lemma sim_ask1 : sim eq (ask1 Rops G) (ask1 Rops G).
  Proof.
    unfold ask1. eapply sim_then; [apply sim_get|]. intros o o' Ho. unfold has_est. rewrite (rl_cfg Ho), (rl_left Ho), (rl_init Ho), (rl_rng Ho), (rl_next Ho).
    destruct (_ || _).
    - destruct (o_init o) as [l|].
      + destruct (py_index l _); [now apply sim_ret|apply sim_same].
      + destruct (space_rvs Rops G _ _ _) as [P g]. eapply sim_then; [apply sim_upd; intros o1 o1' H1; now apply rel_set|]. intros _ _ _.
        eapply sim_then; [apply sim_same|]. intros P1 ? <-. apply sim_same.
    - pose proof (rl_models Ho) as Hms. inversion Hms as [|m m' l l' Hm Hl E E']; [apply sim_same|]. destruct (o_next o) as [p|]; [|apply sim_same].
      eapply (@sim_then _ _ _ _ (fun _ _ => True)); [now apply sim_lift|]. intros ds ds' _. destruct ds, ds'; [apply sim_same|intros ? ? ? ? ? ? ? H; discriminate|intros ? ? ? ? ? ? ? _ H; discriminate|now apply sim_ret].
  Qed.
  Lemma ask_open (o o1 : state) x : ask1 Rops G o = (o1, Ok x) -> open o.
  Proof.
    unfold ask1, andthen, get. unfold open, has_est. destruct (0 <? o_left o)%Z eqn:El; [apply Z.ltb_lt in El; auto|]. destruct (c_est (o_cfg o)); [|auto]. cbn [orb negb].
    destruct (o_models o); [discriminate|]. intros _. right. right. discriminate.
  Qed.
  Notation sound := (sound G W need).
  Lemma ask_in (o o1 : state) x : sound o -> ask1 Rops G o = (o1, Ok x) -> in_space Rops (c_dims (o_cfg o)) x /\ exists g, o1 = set_rng g o.
  Proof.
    intros Hs E. destruct (ask1_total Gok Hs (ask_open _ E)) as (o2 & r & E2 & _ & K). rewrite E in E2. injection E2 as <- <-. exact K.
  Qed.

  (** ** Lies *)
  Lemma perm_lie s ps yi yi' v v' : Permutation yi yi' -> the_lie Rops W s ps yi = Ok v -> the_lie Rops W s ps yi' = Ok v' -> v = v'.
  Proof.
    intros P H H'. unfold the_lie in *. apply bind_ok in H. destruct H as (y & Ey & H). apply bind_ok in H'. destruct H' as (y' & Ey' & H').
    assert (Nil : yi = [] <-> yi' = []) by (split; intros ->; [now apply Permutation_nil|now apply Permutation_nil, Permutation_sym]).
    assert (y = y').
    { destruct yi as [|u yi]; [rewrite (proj1 Nil eq_refl) in Ey'; congruence|]. destruct yi' as [|u' yi']; [now specialize (proj2 Nil eq_refl)|].
      eapply perm_stat; [|exact Ey|exact Ey']. now apply Permutation_flat_map. }
    subst y'. destruct ps; [|congruence]. apply bind_ok in H. destruct H as (t & Et & H). apply bind_ok in H'. destruct H' as (t' & Et' & H').
    assert (t = t'); [|congruence]. destruct yi as [|u yi]; [rewrite (proj1 Nil eq_refl) in Et'; congruence|]. destruct yi' as [|u' yi']; [now specialize (proj2 Nil eq_refl)|].
    eapply perm_stat; [|exact Et|exact Et']. now apply Permutation_map.
  Qed.
  Lemma lie_step s o o1 x : sound o -> c_dims (o_cfg o) = D -> lie_once Rops G W s (ps_of o) o = (o1, Ok x) -> in_space Rops D x /\ sound o1 /\ o_cfg o1 = o_cfg o.
  Proof.
    intros Hs Ed H. unfold lie_once in H. apply andthen_ok in H. destruct H as (o2 & x2 & E2 & H). destruct (ask_in Hs E2) as (Ix & g & ->).
    apply andthen_ok in H. destruct H as (o3 & o3' & E3 & H). injection E3 as <- <-. apply andthen_ok in H. destruct H as (o4 & v & E4 & H). injection E4 as <- Ev.
    destruct (lie_total W s (ps_of o) (o_yi o)) as (v' & Ev' & Pv). rewrite Ev in Ev'. injection Ev' as <-.
    apply andthen_ok in H. destruct H as (o5 & r & E5 & H). injection H as <- <-. 
    destruct (@tell_total RNG M G W need Gok (P1 x2) (Y1 v) [x2] [v] true (set_rng g o)) as (o6 & r6 & E6 & _ & K).
    { now apply sound_rng. } { constructor. } { reflexivity. } { constructor; [exact Ix|constructor]. } { constructor; [exact Pv|constructor]. } { destruct (o_yi (set_rng g o)); discriminate. }
    rewrite E5 in E6. injection E6 as <- <-. destruct K as (S6 & C6 & _). rewrite Ed in Ix. split; [exact Ix|]. split; [exact S6|exact C6].
  Qed.
  Lemma lie_sim s o o' o1 o1' x x' : sound o -> rel o o' -> lie_once Rops G W s (ps_of o) o = (o1, Ok x) -> lie_once Rops G W s (ps_of o) o' = (o1', Ok x') -> rel o1 o1' /\ x = x'.
  Proof.
    intros Hs Ho H H'. destruct (lie_step _ Hs (rl_dims Ho) H) as (Ix & _).
    unfold lie_once in *. apply andthen_ok in H. destruct H as (o2 & x2 & E2 & H). apply andthen_ok in H'. destruct H' as (o2' & x2' & E2' & H').
    destruct (sim_ask1 Ho E2 E2') as (H2 & <-).
    assert (Ex : x2 = x).
    { clear H'. apply andthen_ok in H. destruct H as (? & ? & _ & H). apply andthen_ok in H. destruct H as (? & ? & _ & H). apply andthen_ok in H. destruct H as (? & ? & _ & H). now injection H. }
    subst x2. revert H H'. set (ps := ps_of o).
    assert (S : sim eq (andthen (@get R RNG M) (fun o0 => andthen (lift (the_lie Rops W s ps (o_yi o0))) (fun v => andthen (tell_ Rops G W (P1 x) (Y1 v) true) (fun _ => ret x))))
                       (andthen (@get R RNG M) (fun o0 => andthen (lift (the_lie Rops W s ps (o_yi o0))) (fun v => andthen (tell_ Rops G W (P1 x) (Y1 v) true) (fun _ => ret x))))).
    { eapply sim_then; [apply sim_get|]. intros q q' Hq. eapply (@sim_then _ _ _ _ eq); [apply sim_lift; intros; eapply perm_lie; [apply (rel_yi Hq)|eassumption..]|]. intros v ? <-.
      eapply sim_then; [apply (@sim_tell_ _ _ _ _ [x] [x] [v] [v]); try constructor; auto|]. intros _ _ _. now apply sim_ret. }
    intros H H'. exact (S _ _ _ _ _ _ H2 H H').
  Qed.
  Lemma lies_sim s : forall n o o' o1 o1' x x', sound o -> sound o' -> rel o o' ->
    lie_loop Rops G W s (ps_of o) n o = (o1, Ok x) -> lie_loop Rops G W s (ps_of o) n o' = (o1', Ok x') -> x = x'.
  Proof.
    induction n as [|n IH]; intros o o' o1 o1' x x' Hs Hs' Ho H H'; [injection H as _ <-; now injection H' as _ <-|]. cbn [lie_loop] in *.
    apply andthen_ok in H. destruct H as (o2 & x2 & E2 & H). apply andthen_ok in H'. destruct H' as (o2' & x2' & E2' & H').
    destruct (lie_sim _ Hs Ho E2 E2') as (H2 & <-). destruct (lie_step _ Hs (rl_dims Ho) E2) as (_ & S2 & C2).
    assert (Ep' : ps_of o = ps_of o') by (unfold ps_of; now rewrite (rl_cfg Ho)).
    assert (Ed' : c_dims (o_cfg o') = D) by (rewrite (rl_cfg Ho); exact (rl_dims Ho)).
    assert (S2' : sound o2') by (rewrite Ep' in E2'; apply (lie_step _ Hs' Ed' E2')).
    apply andthen_ok in H. destruct H as (o3 & l & E3 & H). apply andthen_ok in H'. destruct H' as (o3' & l' & E3' & H').
    assert (Ep : ps_of o = ps_of o2) by (unfold ps_of; now rewrite C2). rewrite Ep in E3, E3'. specialize (IH _ _ _ _ _ _ S2 S2' H2 E3 E3'). subst l'. injection H as _ <-. now injection H' as _ <-.
  Qed.

  (** ** Copies *)
  Lemma copy_sim o o' g g1 g1' c c' : sound o -> rel o o' -> copy Rops G W o g = (g1, Ok c) -> copy Rops G W o' g = (g1', Ok c') -> rel c c' /\ g1 = g1'.
  Proof.
    intros Hs Ho. unfold copy. assert (Ec : copy_args o' = copy_args o) by (unfold copy_args; now rewrite (rl_cfg Ho)). rewrite Ec.
    destruct (make_optimizer Rops G W (copy_args o) g) as [g2 [o2|e]] eqn:Em; [|discriminate]. destruct (copy_start _ (s_good Hs) Em) as (init & ->).
    rewrite (rl_gains Ho), (rl_init Ho). match goal with |- context [set_gains ?x ?y] => set (o2 := set_gains x y) in * end.
    assert (H2 : rel o2 o2) by (constructor; cbn; auto; [exact (rl_dims Ho)|exists [], []; cbn; repeat split; constructor]).
    destruct (rl_obs Ho) as (P & P' & EX & EX' & F & F' & L & L' & Q). rewrite EX, EX'.
    destruct P as [|p P], P' as [|p' P'].
    - cbn. intros E E'. injection E as <- <-. injection E' as <- <-. now split.
    - exfalso. apply Permutation_nil in Q. destruct (o_yi o'); [discriminate L'|discriminate Q].
    - exfalso. apply Permutation_sym, Permutation_nil in Q. destruct (o_yi o); [discriminate L|discriminate Q].
    - cbn [map]. change (X1 p :: map (@X1 R) P) with (map (@X1 R) (p :: P)). change (X1 p' :: map (@X1 R) P') with (map (@X1 R) (p' :: P')).
      destruct (tell_ Rops G W (PH (map (@X1 R) (p :: P))) (Yn (o_yi o)) true o2) as [o3 [r|e]] eqn:E3; [|discriminate].
      destruct (tell_ Rops G W (PH (map (@X1 R) (p' :: P'))) (Yn (o_yi o')) true o2) as [o3' [r'|e']] eqn:E3'; [|discriminate].
      intros E E'. injection E as <- <-. injection E' as <- <-.
      destruct (@sim_tell_ _ _ _ _ (p :: P) (p' :: P') (o_yi o) (o_yi o') true (rec_hist _ _) (rec_hist _ _) F F' L L' Q _ _ _ _ _ _ H2 E3 E3') as (H3 & _).
      split; [exact H3|]. symmetry. apply (rl_rng H3).
  Qed.
  Lemma copy_sound o g g1 c : sound o -> copy Rops G W o g = (g1, Ok c) -> sound c /\ o_cfg c = unqueued (o_cfg o).
  Proof. intros Hs E. destruct (copy_total Gok Nmono g Hs) as (g' & r & E' & K). rewrite E in E'. injection E' as <- <-. now destruct K as (K1 & K2 & _). Qed.

  Lemma ask_n_sim n st o o' o1 o1' x x' : sound o -> sound o' -> rel o o' -> ask_n Rops G W n st o = (o1, Ok x) -> ask_n Rops G W n st o' = (o1', Ok x') -> rel o1 o1' /\ x = x'.
  Proof.
    intros Hs Hs' Ho. unfold ask_n. destruct (n <=? 0)%Z; [discriminate|]. destruct (liar_of st) as [s|]; [|discriminate]. unfold andthen, get, upd, lift, ret.
    rewrite (rl_cache Ho). destruct (dict_get key_eqb (o_cache o) (n, st)) as [X|]; [intros E E'; injection E as <- <-; injection E' as <- <-; now split|].
    rewrite (rl_rng Ho), (rl_cfg Ho). destruct (rg_randint G (o_rng o) 0 int_max) as [seed g].
    destruct (copy Rops G W o (rg_seed G seed)) as [g1 [c|e]] eqn:Ec; [|discriminate]. destruct (copy Rops G W o' (rg_seed G seed)) as [g1' [c'|e']] eqn:Ec'; [|discriminate]. cbn [snd].
    destruct (copy_sim _ Hs Ho Ec Ec') as (Hc & _). destruct (copy_sound _ Hs Ec) as (Sc & Cc). destruct (copy_sound _ Hs' Ec') as (Sc' & _).
    assert (Ep : is_ps (c_acq (o_cfg o)) = ps_of c) by (unfold ps_of; rewrite Cc; reflexivity). rewrite Ep.
    destruct (lie_loop Rops G W s (ps_of c) (Z.to_nat n) c) as [o2 [X|e]] eqn:El; [|discriminate]. destruct (lie_loop Rops G W s (ps_of c) (Z.to_nat n) c') as [o2' [X'|e']] eqn:El'; [|discriminate].
    pose proof (lies_sim s _ Sc Sc' Hc El El') as <-. cbn [snd]. intros E E'. injection E as <- <-. injection E' as <- <-. split; [|reflexivity]. now apply rel_set_cache, rel_set.
  Qed.
  Lemma update_sim o o' o1 o1' x x' : sound o -> rel o o' -> update_next Rops G W o = (o1, Ok x) -> update_next Rops G W o' = (o1', Ok x') -> rel o1 o1'.
  Proof.
    intros Hs Ho. unfold update_next, andthen, upd, get, lift, ret. pose proof (rel_set_cache [] Ho) as H1.
    assert (S1 : sound (set_cache [] o)) by (apply sound_cache; [exact Hs|apply good_clear, Hs|intros k X []]).
    set (q := set_cache [] o) in *. set (q' := set_cache [] o') in *. rewrite (rl_next H1). destruct (o_next q) as [p|]; [|intros E E'; injection E as <- <-; injection E' as <- <-; exact H1].
    rewrite (rl_rng H1). destruct (copy Rops G W q (o_rng q)) as [g [c|e]] eqn:Ec; [|discriminate]. destruct (copy Rops G W q' (o_rng q)) as [g' [c'|e']] eqn:Ec'; [|discriminate].
    destruct (copy_sim _ S1 H1 Ec Ec') as (Hc & <-). rewrite (rl_next Hc). destruct (o_next c); [|discriminate]. intros E E'. injection E as <- <-. injection E' as <- <-.
    now apply rel_set_next, rel_set.
  Qed.
  Lemma run_sim f : forall n k o o' o1 o1' u u', sound o -> sound o' -> rel o o' ->
    (forall k p, in_space Rops D p -> exists y, f k p = Ok y /\ valid_y1 Rops (ps_of o) y) ->
    run_loop Rops G W f k n o = (o1, Ok u) -> run_loop Rops G W f k n o' = (o1', Ok u') -> rel o1 o1'.
  Proof.
    induction n as [|n IH]; intros k o o' o1 o1' u u' Hs Hs' Ho Hf H H'; [injection H as <- _; injection H' as <- _; exact Ho|]. cbn [run_loop] in *.
    apply andthen_ok in H. destruct H as (o2 & x & E2 & H). apply andthen_ok in H'. destruct H' as (o2' & x' & E2' & H').
    destruct (sim_ask1 Ho E2 E2') as (H2 & <-). destruct (ask_in Hs E2) as (Ix & g & ->). destruct (ask_in Hs' E2') as (Ix' & g' & ->). rewrite (rl_dims Ho) in Ix.
    destruct (Hf k x Ix) as (y & Ey & Vy). rewrite Ey in H, H'.
    apply andthen_ok in H. destruct H as (o3 & y3 & E3 & H). injection E3 as <- <-. apply andthen_ok in H'. destruct H' as (o3' & y3' & E3' & H'). injection E3' as <- <-.
    apply andthen_ok in H. destruct H as (o4 & r & E4 & H). apply andthen_ok in H'. destruct H' as (o4' & r' & E4' & H').
    destruct (sim_tell1 y true Ix H2 E4 E4') as (H4 & _).
    destruct (@tell_full RNG M G W need Gok (X1 x) y true (set_rng g o)) as (o5 & r5 & E5 & _ & K); [now apply sound_rng|apply fine_tell; [cbn; rewrite (rl_dims Ho); exact Ix|exact Vy]|].
    rewrite E4 in E5. injection E5 as <- <-. destruct K as (S4 & C4 & _).
    assert (Ep : ps_of o' = ps_of o) by (unfold ps_of; now rewrite (rl_cfg Ho)).
    destruct (@tell_full RNG M G W need Gok (X1 x) y true (set_rng g' o')) as (o5 & r5 & E5 & _ & K); [now apply sound_rng|apply fine_tell; [exact Ix'|]|].
    { change (valid_y1 Rops (ps_of o') y). rewrite Ep. exact Vy. }
    rewrite E4' in E5. injection E5 as <- <-. destruct K as (S4' & _).
    apply (IH (S k) o4 o4' o1 o1' u u' S4 S4' H4); auto. intros k0 p Hp. destruct (Hf k0 p Hp) as (z & Ez & Vz). exists z. split; [exact Ez|]. unfold ps_of. rewrite C4. exact Vz.
  Qed.

  (** ** Calls *)
  Lemma call_sim c c' o o' o1 o1' a a' : sound o -> sound o' -> rel o o' -> fine o c -> fine o' c' -> reordered_call c c' ->
    do_call Rops G W c o = (o1, Ok a) -> do_call Rops G W c' o' = (o1', Ok a') -> rel o1 o1' /\ same_reply a a'.
  Proof.
    intros Hs Hs' Ho Hf Hf' Hc. pose proof (rl_dims Ho) as Ed. assert (Ed' : c_dims (o_cfg o') = D) by (rewrite (rl_cfg Ho); exact Ed).
    destruct Hc as [c|ps ys ps' ys' fit L L' HP].
    - inversion Hf as [s Hop|n s Hop Hn Hl|p y fit Hp Hy|ps ys fit Hne HL HPs Hy|f n Hn Hop Hff|Hy|]; subst c; cbn [do_call ask].
      + unfold andthen. destruct (ask1 Rops G o) as [q [x|e]] eqn:E; [|discriminate]. destruct (ask1 Rops G o') as [q' [x'|e']] eqn:E'; [|discriminate].
        destruct (sim_ask1 Ho E E') as (H1 & <-). cbn. intros X X'. injection X as <- <-. injection X' as <- <-. split; [exact H1|constructor].
      + unfold andthen. destruct (ask_n Rops G W n s o) as [q [x|e]] eqn:E; [|discriminate]. destruct (ask_n Rops G W n s o') as [q' [x'|e']] eqn:E'; [|discriminate].
        destruct (ask_n_sim _ _ Hs Hs' Ho E E') as (H1 & <-). cbn. intros X X'. injection X as <- <-. injection X' as <- <-. split; [exact H1|constructor].
      + rewrite Ed in Hp. destruct (tell Rops G W (X1 p) y fit o) as [q [x|e]] eqn:E; [|discriminate]. destruct (tell Rops G W (X1 p) y fit o') as [q' [x'|e']] eqn:E'; [|discriminate].
        destruct (sim_tell1 _ _ Hp Ho E E') as (H1 & Hr). cbn. intros X X'. injection X as <- <-. injection X' as <- <-. split; [exact H1|now constructor].
      + rewrite Ed in HPs. destruct (tell Rops G W (X2 ps) (YLst ys) fit o) as [q [x|e]] eqn:E; [|discriminate]. destruct (tell Rops G W (X2 ps) (YLst ys) fit o') as [q' [x'|e']] eqn:E'; [|discriminate].
        destruct (@sim_tells _ _ _ _ fit HPs HPs HL HL (Permutation_refl _) _ _ _ _ _ _ Ho E E') as (H1 & Hr). cbn. intros X X'. injection X as <- <-. injection X' as <- <-. split; [exact H1|now constructor].
      + unfold run. destruct (andthen (run_loop Rops G W f 0 n) _ o) as [q [x|e]] eqn:E; [|discriminate]. destruct (andthen (run_loop Rops G W f 0 n) _ o') as [q' [x'|e']] eqn:E'; [|discriminate].
        cbn. intros X X'. injection X as <- <-. injection X' as <- <-. apply andthen_ok in E. destruct E as (q1 & u & E & Er). apply andthen_ok in E'. destruct E' as (q1' & u' & E' & Er').
        rewrite Ed in Hff. pose proof (run_sim f _ _ Hs Hs' Ho Hff E E') as H1. destruct (sim_result H1 Er Er') as (H2 & Hr). split; [exact H2|now constructor].
      + destruct (get_result Rops o) as [q [x|e]] eqn:E; [|discriminate]. destruct (get_result Rops o') as [q' [x'|e']] eqn:E'; [|discriminate].
        destruct (sim_result Ho E E') as (H1 & Hr). cbn. intros X X'. injection X as <- <-. injection X' as <- <-. split; [exact H1|now constructor].
      + destruct (update_next Rops G W o) as [q [x|e]] eqn:E; [|discriminate]. destruct (update_next Rops G W o') as [q' [x'|e']] eqn:E'; [|discriminate].
        pose proof (update_sim Hs Ho E E') as H1. cbn. intros X X'. injection X as <- <-. injection X' as <- <-. split; [exact H1|constructor].
    - inversion Hf as [| | |? ? ? _ _ F _| | |]; subst. inversion Hf' as [| | |? ? ? _ _ F' _| | |]; subst. rewrite Ed in F. rewrite Ed' in F'. cbn [do_call].
      destruct (tell Rops G W (X2 ps) (YLst ys) fit o) as [q [x|e]] eqn:E; [|discriminate]. destruct (tell Rops G W (X2 ps') (YLst ys') fit o') as [q' [x'|e']] eqn:E'; [|discriminate].
      destruct (@sim_tells _ _ _ _ fit F F' L L' HP _ _ _ _ _ _ Ho E E') as (H1 & Hr). cbn. intros X X'. injection X as <- <-. injection X' as <- <-. split; [exact H1|now constructor].
  Qed.
End Sim.

Section Order.
  Context {RNG M : Type} (G : rng_ops R RNG) (W : world R M) (need : list (yval R) -> Prop) (alike : M -> M -> Prop).
  Context (Gok : rng_ok Rops G) (Nmono : forall l l', need l -> need (l ++ l')).
  Notation state := (opt R RNG M).

  Lemma perm_points (P P' : list (point R)) (y y' : list (yval R)) : length P = length y -> length P' = length y' ->
    Permutation (combine (map (@X1 R) P) y) (combine (map (@X1 R) P') y') -> Permutation (combine P y) (combine P' y').
  Proof.
    intros L L' H. apply (Permutation_map (fun q : xarg R * yval R => (match fst q with X1 p => p | X2 _ => [] end, snd q))) in H.
    rewrite !combine_map_l, !map_map in H. cbn in H.
    assert (E : forall (l : list (point R * yval R)), map (fun x => (fst x, snd x)) l = l) by (induction l as [|[u v] l IH]; cbn; congruence). now rewrite !E in H.
  Qed.
  Lemma shuffled_rel o o' : shuffled G W need o o' -> order_free W (c_dims (o_cfg o)) alike -> campaign G W need o /\ campaign G W need o' /\ rel (c_dims (o_cfg o)) alike o o'.
  Proof.
    induction 1 as [o o' C C' (E1 & E2 & E3 & E4 & E5 & L & L' & HP & E6 & E7 & E8 & E9 & E10)|c c' o o' o1 o1' a a' _ IH Hf Hf' Hc E E']; intros OF.
    - split; [exact C|]. split; [exact C'|]. constructor; auto; [rewrite E4, E5; constructor|].
      destruct (s_x (campaign_sound Gok Nmono C)) as (P & EP & FP & LP). destruct (s_x (campaign_sound Gok Nmono C')) as (P' & EP' & FP' & LP'). rewrite E1 in FP'.
      exists P, P'. split; [exact EP|]. split; [exact EP'|]. split; [exact FP|]. split; [exact FP'|]. split; [exact LP|]. split; [exact LP'|].
      rewrite EP, EP' in HP. now apply perm_points.
    - assert (Ed : c_dims (o_cfg o1) = c_dims (o_cfg o)) by (destruct (call_grows Rops G W c o) as (? & ? & (Ec & _)); rewrite E in Ec; cbn in Ec; now rewrite Ec). rewrite Ed in *. destruct (IH OF) as (C & C' & Ho).
      split; [exact (camp_call C Hf E)|]. split; [exact (camp_call C' Hf' E')|].
      pose proof (campaign_sound Gok Nmono C) as Sd. destruct (s_cfg Sd) as (Hne & Hw & _).
      exact (proj1 (call_sim Gok Nmono OF Hne (work_bounded Hw) Sd (campaign_sound Gok Nmono C') Ho Hf Hf' Hc E E')).
  Qed.
  Lemma c102_any c c' o o' o1 o1' a a' : shuffled G W need o o' -> order_free W (c_dims (o_cfg o)) alike -> fine o c -> fine o' c' -> reordered_call c c' ->
    do_call Rops G W c o = (o1, Ok a) -> do_call Rops G W c' o' = (o1', Ok a') -> same_reply a a'.
  Proof.
    intros H OF Hf Hf' Hc E E'. destruct (shuffled_rel H OF) as (C & C' & Ho). pose proof (campaign_sound Gok Nmono C) as Sd. destruct (s_cfg Sd) as (Hne & Hw & _).
    exact (proj2 (call_sim Gok Nmono OF Hne (work_bounded Hw) Sd (campaign_sound Gok Nmono C') Ho Hf Hf' Hc E E')).
  Qed.
End Order.
