(** np.argmin and np.argmax find the first extreme element. *)
From Coq Require Import String List ZArith Bool Lia.
From Verif Require Import Base Num Values Transformers Dimension Space Optimizer NumLaws BaseLemmas
  SpaceSpec OptSpec.
Import ListNotations.
Open Scope list_scope.
Set Implicit Arguments.

Section ArgBest.
  Context {N : Type} (O : numops N) (lt : N -> N -> bool).

  (** Both functions: [lt x best] when [x] replaces [best]. *)
  Fixpoint argbest (best : N) (bi i : nat) (l : list N) : nat :=
    match l with
    | [] => bi
    | x :: l' =>
      if nisnan O best then bi
      else if nisnan O x || lt x best then argbest x i (S i) l'
      else argbest best bi (S i) l'
    end.

  Notation num x := (nisnan O x = false).
  Hypothesis irrefl : forall x, num x -> lt x x = false.
  Hypothesis trans : forall x y z, num x -> num y -> num z -> lt x y = true -> lt z y = false -> lt x z = true.
  Hypothesis asym : forall x y z, num x -> num y -> num z -> lt x y = true -> lt z y = false -> lt z x = false.

  Definition first_best (l : list N) (i : nat) : Prop :=
    exists x, nth_error l i = Some x /\
      (forall j y, nth_error l j = Some y -> lt y x = false) /\
      (forall j y, j < i -> nth_error l j = Some y -> lt x y = true).

  Lemma nth_app_l {A} (l m : list A) i x : nth_error l i = Some x -> nth_error (l ++ m) i = Some x.
  Proof. intros H. rewrite nth_error_app1; [easy|]. apply nth_error_Some. congruence. Qed.

  Lemma argbest_first l : forall pre best bi, Forall (fun x => num x) (pre ++ l) ->
    nth_error pre bi = Some best ->
    (forall j y, nth_error pre j = Some y -> lt y best = false) ->
    (forall j y, j < bi -> nth_error pre j = Some y -> lt best y = true) ->
    first_best (pre ++ l) (argbest best bi (length pre) l).
  Proof.
    induction l as [|x l IH]; intros pre best bi Hn Hb Hall Hlt; simpl.
    - rewrite app_nil_r in *. exists best. auto.
    - assert (Nb : num best).
      { rewrite Forall_forall in Hn. apply Hn. apply in_or_app. left. eapply nth_error_In; eauto. }
      assert (Nx : num x).
      { rewrite Forall_forall in Hn. apply Hn. apply in_or_app. right. now left. }
      assert (Np : forall j y, nth_error pre j = Some y -> num y).
      { intros j y Hj. rewrite Forall_forall in Hn. apply Hn. apply in_or_app. left. eapply nth_error_In; eauto. }
      assert (Hlast : forall j y, nth_error (pre ++ [x]) j = Some y ->
                (nth_error pre j = Some y /\ j < length pre) \/ (j = length pre /\ y = x)).
      { intros j y Hj. destruct (Nat.lt_ge_cases j (length pre)) as [Hlt'|Hge].
        - left. rewrite nth_error_app1 in Hj by easy. auto.
        - right. rewrite nth_error_app2 in Hj by easy.
          destruct (j - length pre) as [|k] eqn:E; simpl in Hj.
          + injection Hj as <-. split; [lia|easy].
          + destruct k; discriminate. }
      rewrite Nb, Nx. simpl.
      replace (pre ++ x :: l) with ((pre ++ [x]) ++ l) in * by (now rewrite <- app_assoc).
      replace (S (length pre)) with (length (pre ++ [x])) by (rewrite app_length; simpl; lia).
      destruct (lt x best) eqn:E; apply IH; auto.
      + rewrite nth_error_app2 by lia. now rewrite Nat.sub_diag.
      + intros j y Hj. apply Hlast in Hj. destruct Hj as [[Hj _]|[_ ->]]; [|now apply irrefl].
        apply (asym Nx Nb (Np _ _ Hj) E). eauto.
      + intros j y Hj Hy. apply Hlast in Hy. destruct Hy as [[Hy _]|[? _]]; [|lia].
        apply (trans Nx Nb (Np _ _ Hy) E). eauto.
      + now apply nth_app_l.
      + intros j y Hj. apply Hlast in Hj. destruct Hj as [[Hj _]|[_ ->]]; [eauto|easy].
      + intros j y Hj Hy. apply Hlast in Hy. destruct Hy as [[Hy _]|[-> _]]; [eauto|].
        assert (bi < length pre) by (apply nth_error_Some; congruence). lia.
  Qed.

  Lemma first_best_unique l i j : first_best l i -> first_best l j -> i = j.
  Proof.
    intros (x & Hx & Hx1 & Hx2) (y & Hy & Hy1 & Hy2).
    destruct (Nat.lt_trichotomy i j) as [H|[H|H]]; [|easy|].
    - specialize (Hy2 _ _ H Hx). specialize (Hx1 _ _ Hy). congruence.
    - specialize (Hx2 _ _ H Hy). specialize (Hy1 _ _ Hx). congruence.
  Qed.
  Lemma first_best_again l i x : nth_error l i = Some x -> num x -> first_best l i -> first_best (l ++ [x]) i.
  Proof.
    intros Hx Nx (x' & Hx' & H1 & H2). assert (x' = x) by congruence. subst x'. exists x.
    assert (Hi : i < length l) by (apply nth_error_Some; congruence).
    split; [now apply nth_app_l|]. split; intros j y.
    - intros Hj. destruct (Nat.lt_ge_cases j (length l)) as [H|H].
      + rewrite nth_error_app1 in Hj by easy. eauto.
      + rewrite nth_error_app2 in Hj by easy. destruct (j - length l) as [|[|]]; try discriminate.
        injection Hj as <-. now apply irrefl.
    - intros Hlt Hj. rewrite nth_error_app1 in Hj by lia. eauto.
  Qed.
End ArgBest.

Section Arg.
  Context {N : Type} (O : numops N) (L : order_laws O).
  Notation num x := (nisnan O x = false).
  Lemma num_leb x : num x <-> nleb O x x = true.
  Proof. unfold nisnan. now rewrite negb_false_iff. Qed.
  Lemma not_lt x y : num x -> num y -> (nltb O x y = false <-> nleb O y x = true).
  Proof.
    rewrite !num_leb. intros Hx Hy. split; intros H.
    - destruct (nleb O y x) eqn:E; [easy|]. assert (nltb O x y = true) by (apply (ol_lt L); auto). congruence.
    - destruct (nltb O x y) eqn:E; [|easy]. apply (ol_lt L) in E. intuition congruence.
  Qed.
  Lemma lt_not x y : nltb O x y = true -> nleb O y x = false.
  Proof. intros H. apply (ol_lt L) in H. tauto. Qed.

  Definition lt_min (x best : N) : bool := nltb O x best.
  Definition lt_max (x best : N) : bool := nltb O best x.

  Lemma min_laws :
    (forall x, num x -> lt_min x x = false) /\
    (forall x y z, num x -> num y -> num z -> lt_min x y = true -> lt_min z y = false -> lt_min x z = true) /\
    (forall x y z, num x -> num y -> num z -> lt_min x y = true -> lt_min z y = false -> lt_min z x = false).
  Proof.
    unfold lt_min. repeat split.
    - intros x Hx. apply not_lt; auto. now apply num_leb.
    - intros x y z Hx Hy Hz H1 H2. apply not_lt in H2; auto. apply lt_not in H1.
      destruct (nltb O x z) eqn:E; [easy|]. apply not_lt in E; auto. pose proof (ol_trans L _ _ _ H2 E). congruence.
    - intros x y z Hx Hy Hz H1 H2. apply not_lt in H2; auto. apply lt_not in H1.
      destruct (nltb O z x) eqn:E; [|easy]. apply lt_not in E. rewrite num_leb in *.
      destruct (ol_total L _ _ Hx Hz) as [K|K]; [congruence|]. pose proof (ol_trans L _ _ _ H2 K). congruence.
  Qed.
  Lemma max_laws :
    (forall x, num x -> lt_max x x = false) /\
    (forall x y z, num x -> num y -> num z -> lt_max x y = true -> lt_max z y = false -> lt_max x z = true) /\
    (forall x y z, num x -> num y -> num z -> lt_max x y = true -> lt_max z y = false -> lt_max z x = false).
  Proof.
    unfold lt_max. repeat split.
    - intros x Hx. apply not_lt; auto. now apply num_leb.
    - intros x y z Hx Hy Hz H1 H2. apply not_lt in H2; auto. apply lt_not in H1.
      destruct (nltb O z x) eqn:E; [easy|]. apply not_lt in E; auto. pose proof (ol_trans L _ _ _ E H2). congruence.
    - intros x y z Hx Hy Hz H1 H2. apply not_lt in H2; auto. apply lt_not in H1.
      destruct (nltb O x z) eqn:E; [|easy]. apply lt_not in E. rewrite num_leb in *.
      destruct (ol_total L _ _ Hx Hz) as [K|K]; [|congruence]. pose proof (ol_trans L _ _ _ K H2). congruence.
  Qed.

  Lemma argmin_eq l : forall best bi i, argmin_aux O best bi i l = argbest O lt_min best bi i l.
  Proof. induction l as [|x l IH]; intros; simpl; [easy|]. now rewrite !IH. Qed.
  Lemma argmax_eq l : forall best bi i, argmax_aux O best bi i l = argbest O lt_max best bi i l.
  Proof. induction l as [|x l IH]; intros; simpl; [easy|]. now rewrite !IH. Qed.

  Lemma argmin_first l : l <> [] -> no_nan O l -> exists i, np_argmin O l = Some i /\ first_best lt_min l i.
  Proof.
    destruct l as [|x l]; [easy|]. intros _ H. eexists. split; [reflexivity|]. rewrite argmin_eq.
    destruct min_laws as (A & B & C).
    apply (@argbest_first N O _ A B C l [x] x 0); auto.
    - intros [|[|]] y Hy; try discriminate. injection Hy as <-. apply A. now inversion H.
    - intros j y Hj. lia.
  Qed.
  Lemma argmax_first l : l <> [] -> no_nan O l -> exists i, np_argmax O l = Some i /\ first_best lt_max l i.
  Proof.
    destruct l as [|x l]; [easy|]. intros _ H. eexists. split; [reflexivity|]. rewrite argmax_eq.
    destruct max_laws as (A & B & C).
    apply (@argbest_first N O _ A B C l [x] x 0); auto.
    - intros [|[|]] y Hy; try discriminate. injection Hy as <-. apply A. now inversion H.
    - intros j y Hj. lia.
  Qed.

  Lemma no_nan_nth l i x : no_nan O l -> nth_error l i = Some x -> num x.
  Proof. intros H Hi. apply nth_error_In in Hi. unfold no_nan in H. rewrite Forall_forall in H. auto. Qed.

  Lemma np_min_spec l : l <> [] -> no_nan O l ->
    exists m, np_min O l = Ok m /\ In m l /\ (forall v, In v l -> nleb O m v = true) /\ np_min O (l ++ [m]) = Ok m.
  Proof.
    intros Hl Hn. destruct (argmin_first Hl Hn) as (i & E & F).
    pose proof F as (m & Hm & H1 & _). pose proof (no_nan_nth _ Hn Hm) as Nm.
    exists m. unfold np_min. rewrite E. simpl. rewrite Hm. split; [easy|]. split; [eapply nth_error_In; eauto|].
    split.
    - intros v Hv. apply In_nth_error in Hv. destruct Hv as [j Hj]. apply not_lt; [now apply (no_nan_nth j Hn)|easy|exact (H1 _ _ Hj)] || (apply not_lt; [easy|now apply (no_nan_nth j Hn)|exact (H1 _ _ Hj)]).
    - assert (H2 : l ++ [m] <> []) by now destruct l.
      assert (H3 : no_nan O (l ++ [m])) by (apply Forall_app; split; [easy|now constructor]).
      destruct (argmin_first H2 H3) as (i' & E' & F').
      destruct min_laws as (A & _). rewrite E'.
      rewrite (first_best_unique F' (@first_best_again N O _ A l i m Hm Nm F)). simpl. now rewrite (nth_app_l _ _ _ Hm).
  Qed.
  Lemma np_max_spec l : l <> [] -> no_nan O l ->
    exists m, np_max O l = Ok m /\ In m l /\ (forall v, In v l -> nleb O v m = true) /\ np_max O (l ++ [m]) = Ok m.
  Proof.
    intros Hl Hn. destruct (argmax_first Hl Hn) as (i & E & F).
    pose proof F as (m & Hm & H1 & _). pose proof (no_nan_nth _ Hn Hm) as Nm.
    exists m. unfold np_max. rewrite E. simpl. rewrite Hm. split; [easy|]. split; [eapply nth_error_In; eauto|].
    split.
    - intros v Hv. apply In_nth_error in Hv. destruct Hv as [j Hj]. apply not_lt; [now apply (no_nan_nth j Hn)|easy|exact (H1 _ _ Hj)] || (apply not_lt; [easy|now apply (no_nan_nth j Hn)|exact (H1 _ _ Hj)]).
    - assert (H2 : l ++ [m] <> []) by now destruct l.
      assert (H3 : no_nan O (l ++ [m])) by (apply Forall_app; split; [easy|now constructor]).
      destruct (argmax_first H2 H3) as (i' & E' & F').
      destruct max_laws as (A & _). rewrite E'.
      rewrite (first_best_unique F' (@first_best_again N O _ A l i m Hm Nm F)). simpl. now rewrite (nth_app_l _ _ _ Hm).
  Qed.

  (** C14 *)
  Context {RNG M : Type}.
  Lemma result_best (Xi : list (xarg N)) yi dims (g : RNG) (ms : list M) r :
    create_result O Xi yi dims g ms = Ok r -> no_nan O (res_func_vals r) -> best_first O r.
  Proof.
    unfold create_result. intros H Hn.
    destruct (map y_obj yi) as [|v vs] eqn:Ev; [discriminate|].
    destruct (np_argmin O (v :: vs)) as [i|] eqn:Ei; [|discriminate].
    destruct (nth_error Xi i) as [x|] eqn:Ex; [|discriminate].
    destruct (nth_error (v :: vs) i) as [y|] eqn:Ey; [|discriminate].
    injection H as <-. simpl in Hn. unfold best_first. simpl.
    destruct (@argmin_first (v :: vs)) as (i' & E' & (m & Hm & H1 & H2)); [easy|easy|].
    assert (i' = i) by congruence. subst i'. assert (m = y) by congruence. subst m.
    exists i. split; [easy|]. split; [easy|]. split; [|exact H2].
    intros j w Hj. apply not_lt; [now apply (no_nan_nth j Hn)|now apply (no_nan_nth i Hn)|exact (H1 _ _ Hj)].
  Qed.

  (** C15 *)
  Lemma best_improves (r1 r2 : result N RNG M) l : res_func_vals r2 = res_func_vals r1 ++ l ->
    best_first O r1 -> best_first O r2 -> nleb O (res_fun r2) (res_fun r1) = true.
  Proof.
    intros E (i & Hi & _) (j & _ & _ & H & _). apply (H i). rewrite E. now apply nth_app_l.
  Qed.
End Arg.
