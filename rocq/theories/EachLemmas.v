(** Transforming a column transforms its values one by one. *)
From Coq Require Import String List ZArith Bool Lia.
From Verif Require Import Base BaseLemmas Num Values Transformers Dimension Space NumLaws SpaceSpec CatLemmas.
Import ListNotations.
Open Scope list_scope.
Set Implicit Arguments.

Section Each.
  Context {N : Type} (O : numops N).
  Notation val := (pyval N).

  (** [t] maps the values one by one; on a column it may give rows. *)
  Definition each (t : transformer N) (l : list val) : Prop :=
    forall a, transform O t (A1 l) = Ok a -> Forall2 (fun v r => exists a1, transform O t (A1 [v]) = Ok a1 /\ rows_of a1 = [r]) l (rows_of a).
  (** as [each], from a column to a column *)
  Definition each1 (t : transformer N) (l : list val) : Prop :=
    forall a, transform O t (A1 l) = Ok a -> exists l', a = A1 l' /\ Forall2 (fun v v' => transform O t (A1 [v]) = Ok (A1 [v'])) l l'.

  Lemma each1_each t l : each1 t l -> each t l.
  Proof.
    intros H a E. destruct (H a E) as (l' & -> & F). cbn. clear E H. induction F as [|v v' l l' Hv F IH]; cbn; constructor; [|easy].
    now exists (A1 [v']).
  Qed.
  Lemma each1_identity l : each1 TIdentity l.
  Proof. intros a E. injection E as <-. exists l. split; [easy|]. clear. induction l; now constructor. Qed.
  Lemma mapM_each {A B} (f : A -> res B) l ys : mapM f l = Ok ys -> Forall2 (fun v y => f v = Ok y) l ys.
  Proof.
    revert ys. induction l as [|v l IH]; intros ys H; cbn in H; [injection H as <-; constructor|].
    destruct (f v) as [y|] eqn:E; [|discriminate]. cbn [bind] in H. destruct (mapM f l) as [r|]; [|discriminate]. injection H as <-. constructor; auto.
  Qed.
  Lemma nums_each l xs : nums O l = Ok xs -> Forall2 (fun v x => to_num O v = Some x) l xs.
  Proof.
    intro H. apply mapM_each in H. induction H as [|v x l xs E F IH]; constructor; [|exact IH]. destruct (to_num O v); congruence.
  Qed.
  Lemma nums_one v x : to_num O v = Some x -> nums O [v] = Ok [x].
  Proof. intro H. unfold nums. cbn. now rewrite H. Qed.
  Lemma each1_log b l : each1 (TLogN b) l.
  Proof.
    intros a E. cbn in E. destruct (nums O l) as [xs|] eqn:En; [|discriminate]. cbn [bind] in E. injection E as <-. eexists. split; [reflexivity|].
    apply nums_each in En. clear -En. induction En as [|v x l xs H F IH]; cbn [map]; constructor; [|exact IH]. cbn [transform as_A1 bind]. rewrite (nums_one _ H). reflexivity.
  Qed.
  Lemma each1_string ty l : each1 (TString ty) l.
  Proof. intros a E. cbn in E. injection E as <-. eexists. split; [reflexivity|]. clear. induction l; cbn; constructor; easy. Qed.
  Lemma existsb_each {A} (f : A -> bool) l : existsb f l = false -> Forall (fun x => f x = false) l.
  Proof. induction l as [|x l IH]; intros H; constructor; cbn in H; apply orb_false_iff in H; destruct H; auto. Qed.
  Lemma each1_normalize lo hi i l : each1 (TNormalize lo hi i) l.
  Proof.
    intros a E. cbn [transform as_A1 bind] in E. destruct (nums O l) as [xs|] eqn:En; [|discriminate]. cbn [bind] in E. apply nums_each in En.
    destruct (normalize_transform O lo hi i xs) as [ys|] eqn:Ez; [|discriminate]. injection E as <-. eexists. split; [reflexivity|].
    assert (Q : exists h, ys = map h xs /\ Forall (fun x => normalize_transform O lo hi i [x] = Ok [h x]) xs).
    { unfold normalize_transform in *. cbn [existsb]. cbn [map].
      destruct i; (destruct (existsb _ xs) eqn:E1 in Ez; [discriminate|]; destruct (existsb _ xs) eqn:E2 in Ez; [discriminate|]; apply existsb_each in E1, E2;
      destruct (neqb O _ _); injection Ez as <-; eexists; (split; [reflexivity|]); apply Forall_forall; intros x Hx;
      rewrite Forall_forall in E1, E2; rewrite (E1 _ Hx), (E2 _ Hx); reflexivity). }
    destruct Q as (h & -> & Fh). clear Ez. induction En as [|v x l xs H F IH]; cbn [map]; [constructor|]. inversion Fh; subst. constructor; [|auto].
    cbn [transform as_A1 bind]. rewrite (nums_one _ H). cbn [bind]. rewrite H2. reflexivity.
  Qed.
  Lemma each1_label cats l : homogeneous l -> each1 (TLabelEnc cats) l.
  Proof.
    intros [ty Hh] a E. cbn [transform as_A1 bind] in E. rewrite np_asarray_homog in E by now exists ty.
    destruct (mapM _ l) as [ys|] eqn:Em; [|discriminate]. injection E as <-. eexists. split; [reflexivity|]. apply mapM_each in Em.
    induction Em as [|v y l ys H F IH]; cbn [map]; [constructor|]. inversion Hh; subst. constructor; [|now apply IH].
    cbn [transform as_A1 bind]. rewrite np_asarray_homog by (exists (type_of v); now constructor). cbn [mapM]. now rewrite H.
  Qed.
  Lemma each_onehot cats l : each (TCatEnc cats) l.
  Proof.
    intros a E. cbn [transform as_A1 bind] in E. destruct (mapM _ l) as [ys|] eqn:Em; [|discriminate]. cbn [bind] in E.
    destruct (cat_classes O cats) as [cl|] eqn:Ec; [|discriminate]. cbn [bind] in E. destruct (lb_transform cl ys) as [rows|] eqn:El; [|discriminate]. injection E as <-. cbn [rows_of].
    apply mapM_each in Em. unfold lb_transform in El. destruct ys as [|y0 ys0] eqn:Ey; [discriminate|]. rewrite <- Ey in *. clear Ey.
    assert (Er := f_equal (fun r => match r with Ok x => x | Raise _ => [] end) El). cbv beta iota in Er. subst rows. clear El.
    induction Em as [|v y l ys1 H F IH]; cbn [map]; constructor; [|exact IH]. cbn [transform as_A1 bind mapM]. rewrite H. cbn [bind]. rewrite Ec. cbn [bind lb_transform]. eexists. split; reflexivity.
  Qed.
  Lemma each1_pipe t1 t2 l : each1 t1 l -> (forall l', each1 t2 l') -> each1 (TPipeline [t1; t2]) l.
  Proof.
    intros H1 H2 a E. cbn in E. destruct (transform O t1 (A1 l)) as [b|] eqn:Eb; [|discriminate]. cbn [bind] in E.
    destruct (H1 _ Eb) as (l1 & -> & F1). destruct (transform O t2 (A1 l1)) as [c|] eqn:Ec; [|discriminate]. cbn [bind] in E. injection E as <-.
    destruct (H2 l1 _ Ec) as (l2 & -> & F2). exists l2. split; [easy|]. clear -F1 F2. revert l2 F2. induction F1 as [|v v1 l l1 Hv F1 IH]; intros l2 F2; inversion F2; subst; constructor; [|auto].
    cbn. rewrite Hv. cbn [bind]. now rewrite H1.
  Qed.

  Lemma dim_each d l a : (is_cat d = true -> homogeneous l) -> dim_transform O d l = Ok a ->
    Forall2 (fun v r => exists a1, dim_transform O d [v] = Ok a1 /\ rows_of a1 = [r]) l (rows_of a).
  Proof.
    intros Hh E. unfold dim_transform in *. revert a E. change (each (dim_transformer O d) l).
    destruct d as [r|i|c]; cbn [dim_transformer].
    - unfold real_transformer. destruct (r_kind r), (r_prior r); apply each1_each; auto using each1_identity, each1_log;
        apply each1_pipe; auto using each1_identity, each1_log; intro; apply each1_normalize.
    - unfold int_transformer. destruct (i_kind i), (i_prior i); apply each1_each; auto using each1_identity, each1_log;
        apply each1_pipe; auto using each1_identity, each1_log; intro; apply each1_normalize.
    - unfold cat_transformer. specialize (Hh eq_refl). destruct (c_kind c); try apply each_onehot; apply each1_each; auto using each1_identity, each1_string, each1_label.
      apply each1_pipe; [now apply each1_label|]. intro. apply each1_normalize.
  Qed.

  (** The number of rows is kept. *)
  Definition keeps (t : transformer N) (l : list val) : Prop := forall a, transform O t (A1 l) = Ok a -> length (rows_of a) = length l.
  Lemma Forall2_len {A B} (R : A -> B -> Prop) l m : Forall2 R l m -> length m = length l.
  Proof. induction 1; cbn; congruence. Qed.
  Lemma each_keeps t l : each t l -> keeps t l.
  Proof. intros H a E. exact (Forall2_len (H a E)). Qed.
  Definition keeps1 (t : transformer N) (l : list val) : Prop := forall a, transform O t (A1 l) = Ok a -> exists l', a = A1 l' /\ length l' = length l.
  Lemma keeps1_keeps t l : keeps1 t l -> keeps t l.
  Proof. intros H a E. destruct (H a E) as (l' & -> & K). cbn. now rewrite map_length. Qed.
  Lemma each1_keeps1 t l : each1 t l -> keeps1 t l.
  Proof. intros H a E. destruct (H a E) as (l' & -> & K). exists l'. split; [easy|]. exact (Forall2_len K). Qed.
  Lemma keeps1_label cats l : keeps1 (TLabelEnc cats) l.
  Proof.
    intros a E. cbn [transform as_A1 bind] in E. destruct (mapM _ _) as [ys|] eqn:Em; [|discriminate]. injection E as <-. eexists. split; [reflexivity|].
    rewrite map_length. rewrite (mapM_length _ _ Em). apply map_length.
  Qed.
  Lemma keeps1_pipe t1 t2 l : keeps1 t1 l -> (forall l', keeps1 t2 l') -> keeps1 (TPipeline [t1; t2]) l.
  Proof.
    intros H1 H2 a E. cbn in E. destruct (transform O t1 (A1 l)) as [b|] eqn:Eb; [|discriminate]. cbn [bind] in E.
    destruct (H1 _ Eb) as (l1 & -> & F1). destruct (transform O t2 (A1 l1)) as [c|] eqn:Ec; [|discriminate]. cbn [bind] in E. injection E as <-.
    destruct (H2 l1 _ Ec) as (l2 & -> & F2). exists l2. split; [easy|congruence].
  Qed.
  Lemma dim_keeps d l a : dim_transform O d l = Ok a -> length (rows_of a) = length l.
  Proof.
    unfold dim_transform. revert a. change (keeps (dim_transformer O d) l).
    destruct d as [r|i|c]; cbn [dim_transformer].
    - unfold real_transformer. destruct (r_kind r), (r_prior r); apply keeps1_keeps; auto using each1_keeps1, each1_identity, each1_log;
        apply keeps1_pipe; auto using each1_keeps1, each1_identity, each1_log; intro; apply each1_keeps1, each1_normalize.
    - unfold int_transformer. destruct (i_kind i), (i_prior i); apply keeps1_keeps; auto using each1_keeps1, each1_identity, each1_log;
        apply keeps1_pipe; auto using each1_keeps1, each1_identity, each1_log; intro; apply each1_keeps1, each1_normalize.
    - unfold cat_transformer. destruct (c_kind c); try (apply each_keeps, each_onehot); apply keeps1_keeps; auto using each1_keeps1, each1_identity, each1_string, keeps1_label.
      apply keeps1_pipe; [apply keeps1_label|]. intro. apply each1_keeps1, each1_normalize.
  Qed.

  Lemma hconcat_length (blocks : list (list (list val))) n : Forall (fun b => length b = n) blocks -> length (hconcat blocks n) = n.
  Proof. induction 1 as [|b bs Hb H IH]; cbn; [apply repeat_length|]. rewrite map_length, combine_length, IH. lia. Qed.
  Lemma harmonise_length (rows : list (list val)) : length (harmonise O rows) = length rows.
  Proof. unfold harmonise. destruct (has_ty _ _); [easy|]. destruct (has_ty _ _); apply map_length. Qed.

  Lemma space_transform_length dims P Xt : space_transform O dims P = Ok Xt -> length Xt = length P.
  Proof.
    unfold space_transform, point in *. intro H. destruct (pack (length dims) P) as [cols|] eqn:Ec; [|discriminate]. cbn [bind] in H.
    destruct (mapM _ (combine dims cols)) as [tcols|] eqn:Et; [|discriminate]. cbn [bind] in H.
    destruct (mapM _ tcols) as [blocks|] eqn:Eb; [|discriminate]. cbn [bind] in H.
    assert (Q : length (harmonise O (hconcat blocks (length P))) = length P).
    { rewrite harmonise_length. apply hconcat_length. apply Forall_forall. intros b Hb.
      destruct (mapM_in _ _ _ Eb Hb) as (a & Ha & Er). unfold reshape_rows in Er. assert (Eb' : b = rows_of a) by (destruct (length P); congruence). subst b. clear Er.
      destruct (mapM_in _ _ _ Et Ha) as ((d, c) & Hd & Ed). cbn [fst snd] in Ed. rewrite (dim_keeps _ _ Ed).
      apply in_combine_r in Hd. destruct (mapM_in _ _ _ Ec Hd) as (j & _ & Ej). now rewrite (mapM_length _ _ Ej). }
    destruct blocks; [discriminate|]. injection H as <-. exact Q.
  Qed.
End Each.
