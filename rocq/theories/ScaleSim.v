(** Two optimizers called in the same way, the parameters of one of them measured in other units. *)
From Coq Require Import String List ZArith Bool Reals Lra Lia.
From Verif Require Import Base BaseLemmas Num NumLaws Values Transformers Dimension Space SpaceSpec Optimizer OptSpec ScaleSpec ScaleDim ScaleSpace.
Import ListNotations.
Open Scope R_scope.
Open Scope list_scope.
Set Implicit Arguments.

Section Sim.
  Context {RNG M : Type} (G : rng_ops R RNG) (W : world R M) (gen : list (dim R) -> Z -> Z -> res (list (point R))) (fs : list (val -> val)).
  Notation W' := (with_gen W gen).
  Notation state := (opt R RNG M).
  Notation op := (@op R RNG M).
  Notation "x <-- m ;; k" := (andthen m (fun x => k)) (at level 61, m at next level, right associativity).
  Definition cc (ds' : list (dim R)) (c : cfg R) : cfg R :=
    mkCfg ds' (c_acq c) (c_lbfgs c) (c_npoints c) (c_restarts c) (c_eta c) (c_est c) (c_gen c) (c_n0 c) (c_queue c).
  Definition cs (ds' : list (dim R)) (o : state) : state :=
    mkOpt (cc ds' (o_cfg o)) (o_left o) (option_map (map (conv fs)) (o_init o)) (o_models o) (map (conv_x fs) (o_Xi o)) (o_yi o)
      (map (fun kv => (fst kv, map (conv fs) (snd kv))) (o_cache o)) (option_map (conv fs) (o_next o)) (o_next_xs o) (o_gains o) (o_rng o).

  Section Fixed.
  Context (ds ds' : list (dim R)) (Sp : spaces ds ds' fs) (Hn : Forall3 normal ds ds' fs).
  Definition keptx (x : xarg R) : Prop := match x with X1 p => keptp ds ds' fs p | X2 _ => True end.
  Definition Inv (o : state) : Prop :=
    c_dims (o_cfg o) = ds /\ Forall keptx (o_Xi o) /\ (forall p, o_next o = Some p -> keptp ds ds' fs p) /\ (forall l, o_init o = Some l -> Forall (keptp ds ds' fs) l).
  Definition sim {A B} (P : A -> Prop) (cv : A -> B) (m : op A) (m' : op B) : Prop :=
    forall o, Inv o -> m' (cs ds' o) = (cs ds' (fst (m o)), rmap cv (snd (m o))) /\ Inv (fst (m o)) /\ forall a, snd (m o) = Ok a -> P a.
  Lemma sim_bind {A B C D} (P : A -> Prop) (Q : C -> Prop) (cv : A -> B) (cw : C -> D) m m' k k' :
    sim P cv m m' -> (forall a, P a -> sim Q cw (k a) (k' (cv a))) -> sim Q cw (andthen m k) (andthen m' k').
  Proof.
    intros Hm Hk o I. unfold andthen. destruct (Hm o I) as (E & I1 & Pa). rewrite E. destruct (m o) as [o1 [a|e]]; cbn [fst snd rmap] in *.
    - exact (Hk a (Pa a eq_refl) o1 I1).
    - split; [reflexivity|]. split; [exact I1|discriminate].
  Qed.
  Lemma sim_get : sim Inv (cs ds') (@get R RNG M) (@get R RNG M).
  Proof. intros o I. split; [reflexivity|]. split; [exact I|]. cbn. now intros a [= <-]. Qed.
  Lemma sim_upd f f' : (forall o, Inv o -> f' (cs ds' o) = cs ds' (f o) /\ Inv (f o)) -> sim (fun _ => True) (fun u : unit => u) (upd f) (upd f').
  Proof. intros H o I. destruct (H o I) as [E I1]. unfold upd. rewrite E. cbn. auto. Qed.
  Lemma sim_lift {A B} (P : A -> Prop) (cv : A -> B) r r' : r' = rmap cv r -> (forall a, r = Ok a -> P a) -> sim P cv (lift r) (lift r').
  Proof. intros -> H o I. unfold lift. cbn. auto. Qed.
  Lemma sim_ret {A B} (P : A -> Prop) (cv : A -> B) a b : b = cv a -> P a -> sim P cv (ret a) (ret b).
  Proof. intros -> H o I. unfold ret. cbn. split; [reflexivity|]. split; [exact I|]. now intros ? [= <-]. Qed.
  Lemma sim_weaken {A B} (P Q : A -> Prop) (cv : A -> B) m m' : sim P cv m m' -> (forall a, P a -> Q a) -> sim Q cv m m'.
  Proof. intros H HP o I. destruct (H o I) as (E & I1 & Hp). auto. Qed.
  Lemma rmap_id {A} (r : res A) : rmap (fun x => x) r = r.
  Proof. now destruct r. Qed.
  Notation idt := (fun u : unit => u).
  Notation tr := (fun _ => True).
  Lemma sim_same {A} (r : res A) : sim tr (fun x => x) (lift r) (lift r).
  Proof. apply sim_lift; [now rewrite rmap_id|auto]. Qed.
  Lemma sim_raise {A B} (P : A -> Prop) (cv : A -> B) e : sim P cv (lift (Raise e)) (lift (Raise e)).
  Proof. apply sim_lift; [reflexivity|discriminate]. Qed.
  Lemma inv_rng g o : Inv o -> Inv (set_rng g o).
  Proof. intros (A & B & C & D). repeat split; assumption. Qed.
  Ltac keep := apply sim_upd; intros ? (? & ? & ? & ?); split; [reflexivity|now repeat split].

  Lemma sim_gains est : sim tr idt (update_gains Rops W est) (update_gains Rops W' est).
  Proof.
    unfold update_gains. eapply sim_bind; [apply sim_get|]. intros o I. cbn [cs o_next_xs o_cfg cc c_acq o_gains]. destruct (o_next_xs o) as [[|x xs]|]; [| |now apply sim_ret].
    - destruct (c_acq (o_cfg o)); [apply sim_raise|now apply sim_ret].
    - destruct (c_acq (o_cfg o)); [|now apply sim_ret]. eapply sim_bind; [apply sim_same|]. intros p _. eapply sim_bind; [apply sim_same|]. intros g _. keep.
  Qed.
  Lemma sim_push est : sim tr idt (@push_model R RNG M est) (@push_model R RNG M est).
  Proof.
    unfold push_model. eapply sim_bind; [apply sim_get|]. intros o I. cbn [cs o_cfg cc c_queue o_models]. destruct (c_queue (o_cfg o)) as [q|]; [|keep]. destruct (Z.of_nat _ <? q)%Z; [keep|].
    destruct (o_models o); [apply sim_raise|keep].
  Qed.
  Lemma sim_candidates : sim tr (fun x => x) (candidates Rops G) (candidates Rops G).
  Proof.
    unfold candidates. eapply sim_bind; [apply sim_get|]. intros o I. cbn [cs o_cfg cc c_dims c_npoints o_rng]. pose proof I as (Ed & _). rewrite Ed.
    destruct (scale_rvs G (c_npoints (o_cfg o)) (o_rng o) Sp Hn) as [-> K]. destruct (space_rvs Rops G ds (c_npoints (o_cfg o)) (o_rng o)) as [P g].
    eapply sim_bind; [keep|]. intros _ _. eapply sim_bind with (P := Forall (keptp ds ds' fs)); [apply sim_lift; [reflexivity|intros a ->; now apply (K a g)]|]. intros a Ka.
    apply sim_lift; [rewrite (scale_transform Sp Hn Ka); now rewrite rmap_id|auto].
  Qed.
  Lemma pick_same c a est yopt X : c_dims c = ds -> pick Rops W' (cc ds' c) a est yopt X = pick Rops W c a est yopt X.
  Proof. intro E. unfold pick. cbn [cc c_lbfgs c_restarts c_dims with_gen w_acq w_argsort w_lbfgs]. rewrite E. now rewrite (proj1 (scale_shape Sp Hn)). Qed.
  Lemma sim_fill est X : forall l, sim tr idt (fill_next_xs Rops W l est X) (fill_next_xs Rops W' l est X).
  Proof.
    induction l as [|a l IH]; [now apply sim_ret|]. cbn [fill_next_xs]. eapply sim_bind; [apply sim_get|]. intros o I. pose proof I as (Ed & _).
    cbn [cs o_yi o_cfg o_next_xs]. eapply sim_bind; [apply sim_same|]. intros yopt _. cbn beta. rewrite (pick_same (o_cfg o) a est yopt X Ed). eapply sim_bind; [apply sim_same|]. intros x _.
    cbn [cc c_dims]. rewrite Ed. destruct (scale_shape Sp Hn) as [-> ->]. eapply sim_bind; [apply sim_same|]. intros x' _. eapply sim_bind; [keep|]. intros _ _. exact IH.
  Qed.
  Lemma sim_choose : sim tr (fun x => x) (choose_next Rops G) (choose_next Rops G).
  Proof.
    unfold choose_next. eapply sim_bind; [apply sim_get|]. intros o I. cbn [cs o_next_xs o_cfg cc c_acq c_eta o_gains o_rng]. destruct (c_acq (o_cfg o)); [|apply sim_same].
    eapply sim_bind; [apply sim_same|]. intros ps _. destruct (rg_multinomial G (o_rng o) ps) as [i g]. eapply sim_bind; [keep|]. intros _ _. apply sim_same.
  Qed.
  Lemma plain_same l : Forall keptx l -> mapM (@plain R) (map (conv_x fs) l) = rmap (map (conv fs)) (mapM (@plain R) l) /\ forall P, mapM (@plain R) l = Ok P -> Forall (keptp ds ds' fs) P.
  Proof.
    induction 1 as [|x l Hx _ [IH1 IH2]]; [split; [reflexivity|intros P [= <-]; constructor]|]. cbn [map mapM]. destruct x as [p|ps]; cbn [conv_x plain]; [|split; [reflexivity|discriminate]].
    cbn [bind]. rewrite IH1. destruct (mapM (@plain R) l) as [P|]; [|split; [reflexivity|discriminate]]. cbn. split; [reflexivity|]. intros Q [= <-]. constructor; [exact Hx|now apply IH2].
  Qed.
  Lemma first_same {A B} (f : A -> B) l : first_of (map f l) = rmap f (first_of l).
  Proof. now destruct l. Qed.
  Lemma sim_refit : sim tr idt (refit Rops G W) (refit Rops G W').
  Proof.
    unfold refit. eapply sim_bind; [apply sim_get|]. intros o I. pose proof I as (Ed & Kx & _). cbn [cs o_Xi o_cfg o_yi]. destruct (plain_same Kx) as [E K].
    eapply sim_bind with (P := Forall (keptp ds ds' fs)); [apply sim_lift; [exact E|exact K]|]. intros P KP. cbn [cc c_dims c_acq]. rewrite Ed, (scale_transform Sp Hn KP).
    eapply sim_bind; [apply sim_same|]. intros Xt _. cbn [with_gen w_fit]. eapply sim_bind; [apply sim_same|]. intros est _. eapply sim_bind; [apply sim_gains|]. intros _ _.
    eapply sim_bind; [apply sim_push|]. intros _ _. eapply sim_bind; [apply sim_candidates|]. intros X _. eapply sim_bind; [keep|]. intros _ _. eapply sim_bind; [apply sim_fill|]. intros _ _.
    eapply sim_bind; [apply sim_choose|]. intros nx _. destruct (scale_inverse [nx] Sp Hn) as [-> K1].
    eapply sim_bind with (P := Forall (keptp ds ds' fs)); [apply sim_lift; [reflexivity|exact K1]|]. intros P' KP'. eapply sim_bind with (P := keptp ds ds' fs); [apply sim_lift; [apply first_same|]|].
    - intros p Ep. destruct KP'; [discriminate|]. now injection Ep as <-.
    - intros p Kp. apply sim_upd. intros o1 (A & B & _ & D). split; [reflexivity|]. repeat split; auto. cbn. now intros ? [= <-].
  Qed.

  Definition conv_t (x : targ R) : targ R := match x with P1 p => P1 (conv fs p) | P2 ps => P2 (map (conv fs) ps) | PH l => PH (map (conv_x fs) l) end.
  Lemma entries_same x : entries (conv_t x) = map (conv_x fs) (entries x).
  Proof. destruct x as [p|ps|l]; [reflexivity| |reflexivity]. cbn. rewrite !map_map. reflexivity. Qed.
  Lemma sim_record x y : Forall keptx (entries x) -> sim tr idt (@record_obs R RNG M x y) (@record_obs R RNG M (conv_t x) y).
  Proof.
    intro K. unfold record_obs.
    assert (U : forall n l y, Forall keptx l -> sim tr idt (upd (fun o : state => set_left (o_left o - n) (set_yi (o_yi o ++ y) (set_Xi (o_Xi o ++ l) o))))
      (upd (fun o : state => set_left (o_left o - n) (set_yi (o_yi o ++ y) (set_Xi (o_Xi o ++ map (conv_x fs) l) o))))).
    { intros n l y0 Kl. apply sim_upd. intros o (A & B & C & D). split; [unfold cs; cbn; now rewrite map_app|]. repeat split; auto. cbn. apply Forall_app. auto. }
    destruct x as [p|ps|l], y as [v|l']; cbn [conv_t]; try apply sim_raise.
    - exact (U 1%Z [X1 p] [v] K).
    - refine (U 1%Z [X2 ps] [v] _). constructor; [exact I|constructor].
    - pose proof (U (Z.of_nat (length l')) (map (@X1 R) ps) l' K) as H. rewrite map_map in H. cbn [entries]. rewrite map_map. exact H.
    - exact (U (Z.of_nat (length l')) l l' K).
  Qed.
  Lemma result_same : sim tr (conv_result fs ds') (@get_result R RNG M Rops) (@get_result R RNG M Rops).
  Proof.
    intros o I. unfold get_result. cbn [fst snd]. split; [|split; [exact I|auto]]. f_equal. cbn [cs o_Xi o_yi o_cfg cc c_dims o_rng o_models]. unfold create_result.
    destruct (np_argmin Rops (map y_obj (o_yi o))) as [b|]; [|reflexivity]. rewrite nth_error_map. destruct (nth_error (o_Xi o) b) as [x|]; [|reflexivity]. cbn [option_map].
    destruct (nth_error (map y_obj (o_yi o)) b); reflexivity.
  Qed.
  Lemma sim_tell_ x y fit : Forall keptx (entries x) -> sim tr (conv_result fs ds') (tell_ Rops G W x y fit) (tell_ Rops G W' (conv_t x) y fit).
  Proof.
    intro K. unfold tell_. eapply sim_bind; [apply sim_record; exact K|]. intros _ _. eapply sim_bind; [keep|]. intros _ _. eapply sim_bind; [apply sim_get|]. intros o I.
    cbn [cs o_left]. change (has_est (cs ds' o)) with (has_est o). eapply sim_bind with (cv := idt); [|intros _ _; apply result_same].
    destruct (fit && (o_left o <=? 0)%Z && has_est o); [apply sim_refit|now apply sim_ret].
  Qed.
  Lemma allM_all {A} (f : A -> res bool) l : allM f l = Ok true -> Forall (fun x => f x = Ok true) l.
  Proof.
    unfold allM. induction l as [|x l IH]; [constructor|]. cbn [mapM]. destruct (f x) as [b|] eqn:E; [|discriminate]. cbn [bind]. destruct (mapM f l) as [bs|]; [|discriminate]. cbn. intros [= H].
    apply andb_prop in H. destruct H as [-> H]. constructor; [exact E|]. apply IH. cbn. now rewrite H.
  Qed.
  Lemma checked_kept x : check_x_in_space Rops x ds = Ok tt -> Forall keptx (entries (targ_of x)).
  Proof.
    destruct x as [p|ps]; cbn [check_x_in_space targ_of entries].
    - destruct (space_contains Rops ds p) as [[|]|] eqn:E; cbn; try discriminate. intros _. constructor; [|constructor]. now apply (contained_kept Sp).
    - destruct (allM (space_contains Rops ds) ps) as [[|]|] eqn:E; cbn; try discriminate. intros _. apply Forall_map. eapply Forall_impl; [|exact (allM_all _ _ E)]. cbn. intros p Hp. now apply (contained_kept Sp).
  Qed.
  Lemma check_y_same ps x y : check_y ps (conv_x fs x) y = check_y ps x y.
  Proof. now destruct x. Qed.
  Lemma convert_y_same ps x y : convert_y Rops ps (conv_x fs x) y = convert_y Rops ps x y.
  Proof. now destruct x. Qed.
  Lemma targ_same x : targ_of (conv_x fs x) = conv_t (targ_of x).
  Proof. now destruct x. Qed.
  Lemma sim_tell x y fit : sim tr (conv_result fs ds') (tell Rops G W x y fit) (tell Rops G W' (conv_x fs x) y fit).
  Proof.
    unfold tell. eapply sim_bind; [apply sim_get|]. intros o I. pose proof I as (Ed & _). cbn [cs o_cfg cc c_dims c_acq]. rewrite Ed, (scale_check x Sp), check_y_same, convert_y_same, targ_same.
    eapply sim_bind with (P := fun _ => Forall keptx (entries (targ_of x))) (cv := idt); [apply sim_lift; [now rewrite rmap_id|intros [] H; now apply checked_kept]|]. intros _ K.
    eapply sim_bind; [apply sim_same|]. intros _ _. eapply sim_bind; [apply sim_same|]. intros y' _. now apply sim_tell_.
  Qed.
  Lemma py_index_map {A B} (f : A -> B) l i : py_index (map f l) i = option_map f (py_index l i).
  Proof.
    unfold py_index. rewrite map_length. destruct (0 <=? i)%Z; [apply nth_error_map|]. destruct (0 <=? Z.of_nat (length l) + i)%Z; [apply nth_error_map|reflexivity].
  Qed.
  Lemma py_index_in {A} (l : list A) i x : py_index l i = Some x -> In x l.
  Proof.
    unfold py_index. destruct (0 <=? i)%Z; [intro H; eapply nth_error_In; exact H|]. destruct (0 <=? Z.of_nat (length l) + i)%Z; [intro H; eapply nth_error_In; exact H|discriminate].
  Qed.
  Lemma sim_ask1 : sim (keptp ds ds' fs) (conv fs) (ask1 Rops G) (@ask1 R RNG M Rops G).
  Proof.
    unfold ask1. eapply sim_bind; [apply sim_get|]. intros o I. pose proof I as (Ed & Kx & Kn & Ki). cbn [cs o_left o_init o_cfg cc c_dims o_rng o_models o_next o_Xi]. change (has_est (cs ds' o)) with (has_est o).
    destruct ((0 <? o_left o)%Z || negb (has_est o)).
    - destruct (o_init o) as [l|]; cbn [option_map].
      + rewrite map_length, py_index_map. destruct (py_index l (Z.of_nat (length l) - o_left o)) as [p|] eqn:E; cbn [option_map]; [|apply sim_raise]. apply sim_ret; [reflexivity|].
        specialize (Ki l eq_refl). rewrite Forall_forall in Ki. apply Ki. eapply py_index_in. exact E.
      + rewrite Ed. destruct (scale_rvs G 1 (o_rng o) Sp Hn) as [-> K]. destruct (space_rvs Rops G ds 1 (o_rng o)) as [P g]. eapply sim_bind; [keep|]. intros _ _.
        eapply sim_bind with (P := Forall (keptp ds ds' fs)); [apply sim_lift; [reflexivity|intros a ->; now apply (K a g)]|]. intros a Ka. apply sim_lift; [apply first_same|].
        intros p Ep. destruct Ka; [discriminate|]. now injection Ep as <-.
    - destruct (o_models o); [apply sim_raise|]. destruct (o_next o) as [p|]; cbn [option_map]; [|apply sim_raise]. rewrite Ed.
      assert (E : rmap (map (fun _ => tt)) (mapM (fun xi => q <- plain xi;; space_distance Rops ds' (conv fs p) q) (map (conv_x fs) (o_Xi o))) =
                  rmap (map (fun _ => tt)) (mapM (fun xi => q <- plain xi;; space_distance Rops ds p q) (o_Xi o))).
      { rewrite mapM_map, <- !mapM_rmap'. apply mapM_ext. intros [q|qs] _; [|reflexivity]. cbn [conv_x plain bind]. apply (scale_distance Sp). }
      destruct (mapM _ (map (conv_x fs) (o_Xi o))) as [dl'|e'], (mapM _ (o_Xi o)) as [dl|e]; cbn in E; try discriminate.
      + intros o1 I1. unfold andthen, lift. cbn. destruct dl, dl'; cbn in E; try discriminate; cbn; (split; [reflexivity|]; split; [exact I1|]); [discriminate|]. intros q [= <-]. now apply Kn.
      + injection E as <-. intros o1 I1. unfold andthen, lift. cbn. split; [reflexivity|]. split; [exact I1|discriminate].
  Qed.
  Lemma sim_lie s ps : forall n, sim tr (map (conv fs)) (lie_loop Rops G W s ps n) (lie_loop Rops G W' s ps n).
  Proof.
    induction n as [|n IH]; [now apply sim_ret|]. cbn [lie_loop]. eapply sim_bind with (P := tr) (cv := conv fs).
    - unfold lie_once. eapply sim_bind; [apply sim_ask1|]. intros p Kp. eapply sim_bind; [apply sim_get|]. intros o I. cbn [cs o_yi].
      change (the_lie Rops W' s ps (o_yi o)) with (the_lie Rops W s ps (o_yi o)). eapply sim_bind; [apply sim_same|]. intros v _.
      eapply sim_bind with (P := tr); [apply (@sim_tell_ (P1 p)); constructor; [exact Kp|constructor]|]. intros r _. now apply sim_ret.
    - intros p _. eapply sim_bind; [apply IH|]. intros l _. now apply sim_ret.
  Qed.
  Lemma sim_run_loop f f' : (forall k p, f' k (conv fs p) = f k p) -> forall n k, sim tr idt (run_loop Rops G W f k n) (run_loop Rops G W' f' k n).
  Proof.
    intro Hf. induction n as [|n IH]; intro k; [now apply sim_ret|]. cbn [run_loop]. eapply sim_bind; [apply sim_ask1|]. intros p _. rewrite Hf. eapply sim_bind; [apply sim_same|]. intros y _.
    eapply sim_bind; [apply (sim_tell (X1 p))|]. intros r _. apply IH.
  Qed.
  End Fixed.
End Sim.
