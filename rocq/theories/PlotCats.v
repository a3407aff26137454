From Coq Require Import String List ZArith Bool Lia Reals Lra.
From Flocq Require Import Core.Core IEEE754.BinarySingleNaN.
From Verif Require Import Base BaseLemmas Num Values Transformers Dimension Space NumLaws SpaceSpec CatLemmas EachLemmas Optimizer Plots PlotLemmas DependLemmas PanelSpec.
Import ListNotations.
Open Scope nat_scope.
Open Scope list_scope.
Set Implicit Arguments.

Lemma F64_trunc L z : (Z.abs z <= 2 ^ 53)%Z -> ntoint (F64 L) (nofZ (F64 L) z) = z.
Proof. intro H. destruct (fofZ_exact _ H) as [F E]. cbn. unfold ftoint. rewrite F.
  assert (T : Btrunc (fofZ z) = z). { apply eq_IZR. rewrite Btrunc_correct by exact emax64. rewrite E.
    unfold round, F2R, scaled_mantissa, cexp, FIX_exp. simpl. rewrite !Rmult_1_r. now rewrite Ztrunc_IZR. }
  rewrite T. assert (Q : (Z.abs z <? 2 ^ 63)%Z = true) by (apply Z.ltb_lt; lia). now rewrite Q. Qed.

Lemma NoDup_app_one {A} (l : list A) v : NoDup l -> ~ In v l -> NoDup (l ++ [v]).
Proof.
  induction 1 as [|a l Ha H IH]; intro Hv; cbn; constructor; [easy|constructor| |].
  - intro Q. apply in_app_or in Q. destruct Q as [Q|[->|[]]]; [easy|]. apply Hv. now left.
  - apply IH. intro Q. apply Hv. now right.
Qed.
Lemma filter_both {A} (f g : A -> bool) l : (forall x, In x l -> f x = true -> g x = true) -> filter f l = filter f (filter g l).
Proof.
  induction l as [|x l IH]; intro H; [easy|]. cbn. assert (IH' := IH (fun y Hy => H y (or_intror Hy))). specialize (H x (or_introl eq_refl)).
  destruct (f x) eqn:F; [rewrite (H eq_refl); cbn; rewrite F; congruence|]. destruct (g x); cbn; [rewrite F|]; easy.
Qed.

Section Cats.
  Context {N : Type} (O : numops N).
  Notation val := (pyval N).
  Notation axis_value := (axis_value O).
  (** Whole numbers are kept by int(). *)
  Context (Htr : forall z, (Z.abs z <= 2 ^ 53)%Z -> ntoint O (nofZ O z) = z).

  Lemma map_category_ok d v : wf_dim O d -> in_dim O d v -> exists x, map_category O d v = Ok x /\ axis_value d v x.
  Proof.
    intros Hw Hi. destruct d as [r|i|c]; cbn [map_category].
    - inversion Hi; subst. cbn. eauto.
    - inversion Hi; subst. cbn. eauto.
    - assert (Hin : In v (c_cats c)) by now inversion Hi. apply In_nth_error in Hin. destruct Hin as [k Hk]. destruct Hw as (_ & _ & Hd).
      unfold cat_mapping. fold (keyed (c_cats c)). rewrite keyed_mapping by easy. rewrite (lookup_keyed _ Hd Hk). cbn [bind]. eexists. split; [reflexivity|]. now exists k.
  Qed.
  Lemma map_point_ok dims p : Forall (wf_dim O) dims -> in_space O dims p -> exists xs, map_point O dims p = Ok xs /\ Forall2 (fun dv x => axis_value (fst dv) (snd dv) x) (combine dims p) xs.
  Proof.
    intro Hw. revert p. induction Hw as [|d dims Hd Hw IH]; intros p Hp; inversion Hp as [|? v ? q Hv Hq]; subst; [exists []; split; [easy|constructor]|].
    destruct (map_category_ok Hd Hv) as (x & E & A). destruct (IH q Hq) as (xs & Es & As). exists (x :: xs). cbn [map_point combine]. rewrite E. cbn [bind]. rewrite Es. cbn [bind].
    split; [easy|]. now constructor.
  Qed.
  Lemma map_categories_ok dims P m : Forall (wf_dim O) dims -> Forall (in_space O dims) P -> in_space O dims m ->
    exists xss ms, map_categories O dims P m = Ok (xss, ms, map (@is_cat N) dims) /\
      Forall2 (fun p xs => Forall2 (fun dv x => axis_value (fst dv) (snd dv) x) (combine dims p) xs) P xss /\
      Forall2 (fun dv x => axis_value (fst dv) (snd dv) x) (combine dims m) ms.
  Proof.
    intros Hw HP Hm. destruct (map_point_ok Hw Hm) as (ms & Em & Am).
    assert (Q : exists xss, mapM (map_point O dims) P = Ok xss /\ Forall2 (fun p xs => Forall2 (fun dv x => axis_value (fst dv) (snd dv) x) (combine dims p) xs) P xss).
    { induction HP as [|p P Hp HP IH]; [now exists []|]. destruct (map_point_ok Hw Hp) as (xs & E & A). destruct IH as (xss & Es & As). exists (xs :: xss). cbn. rewrite E, Es. split; [easy|now constructor]. }
    destruct Q as (xss & E & A). exists xss, ms. unfold map_categories. rewrite E. cbn [bind]. rewrite Em. now cbn [bind].
  Qed.
  (** The label of a category's coordinate is its name. *)
  Lemma cat_label c v x : axis_value (DCat c) v x -> (Z.of_nat (length (c_cats c)) <= 2 ^ 53)%Z -> cat_format O c x = Ok (py_str O v).
  Proof.
    intros (k & Hk & ->) Hl. assert (K : k < length (c_cats c)) by (apply nth_error_Some; congruence). unfold cat_format.
    rewrite Htr by lia. assert (E : (Z.of_nat k <? 0)%Z = false) by (apply Z.ltb_ge; lia). rewrite E. unfold znat. rewrite E. rewrite Nat2Z.id, Hk. reflexivity.
  Qed.

  (** Categories of one dimension: equal means the same. *)
  Lemma distinct_eq cats a b : distinct O cats -> In a cats -> In b cats -> (py_eqb O a b = true <-> a = b).
  Proof.
    intros [Hr Hp] Ha Hb. split.
    - intro E. induction Hp as [|c cats Hc Hp IH]; [easy|]. inversion Hr; subst. rewrite Forall_forall in Hc. destruct Ha as [->|Ha], Hb as [->|Hb]; auto.
      + specialize (Hc _ Hb). congruence.
      + specialize (Hc _ Ha). rewrite py_eqb_sym in E. congruence.
    - intros ->. rewrite Forall_forall in Hr. auto.
  Qed.
  (** How often [v] occurs. *)
  Notation times := (times O).
  Notation tally := (tally O).
  Lemma times_app v l w : times v (l ++ [w]) = times v l + (if py_eqb O w v then 1 else 0).
  Proof. unfold times. rewrite filter_app, app_length. cbn. now destruct (py_eqb O w v). Qed.
  Lemma count_names cats v : distinct O cats -> In v cats -> forall m, incl (map fst m) cats ->
    (In v (map fst m) -> map fst (count_in O v m) = map fst m) /\ (~ In v (map fst m) -> count_in O v m = m ++ [(v, 1)]).
  Proof.
    intros Hd Hv. induction m as [|[k n] m IH]; intro Hi; [easy|]. cbn [map fst count_in]. assert (Hk : In k cats) by (apply Hi; now left).
    destruct IH as [I1 I2]; [intros x Hx; apply Hi; now right|]. destruct (py_eqb O k v) eqn:E.
    - apply (distinct_eq _ _ Hd Hk Hv) in E. subst k. split; [easy|]. intro H. exfalso. apply H. now left.
    - assert (K : k <> v) by (intro Q; apply (distinct_eq _ _ Hd Hk Hv) in Q; congruence). split; intro H.
      + cbn. f_equal. apply I1. now destruct H.
      + cbn. f_equal. apply I2. intro Q. apply H. now right.
  Qed.
  Lemma count_entries cats v : distinct O cats -> In v cats -> forall m, incl (map fst m) cats -> NoDup (map fst m) -> In v (map fst m) ->
    forall w n, In (w, n) (count_in O v m) -> (w <> v /\ In (w, n) m) \/ (w = v /\ exists n', n = S n' /\ In (v, n') m).
  Proof.
    intros Hd Hv. induction m as [|[k n] m IH]; intros Hi Hn Hin w n0 H; [easy|]. cbn [map fst count_in] in *. assert (Hk : In k cats) by (apply Hi; now left).
    inversion Hn; subst. destruct (py_eqb O k v) eqn:E.
    - apply (distinct_eq _ _ Hd Hk Hv) in E. subst k. destruct H as [H|H].
      + injection H as <- <-. right. split; [easy|]. exists n. split; [easy|now left].
      + left. split; [|now right]. intros ->. apply H2. change v with (fst (v, n0)). now apply in_map.
    - assert (K : k <> v) by (intro Q; apply (distinct_eq _ _ Hd Hk Hv) in Q; congruence).
      destruct H as [H|H]; [injection H as <- <-; left; split; [easy|now left]|]. destruct Hin as [Hin|Hin]; [easy|].
      destruct (IH (fun x Hx => Hi x (or_intror Hx)) H3 Hin w n0 H) as [[A B]|[A (n' & B & C)]]; [left; split; [easy|now right]|]. right. split; [easy|]. exists n'. split; [easy|now right].
  Qed.
  Lemma tally_step cats l v m : distinct O cats -> incl l cats -> In v cats -> tally l m -> tally (l ++ [v]) (count_in O v m).
  Proof.
    intros Hd Hl Hv (T1 & T2 & T3).
    assert (Hi : incl (map fst m) cats). { intros w Hw. apply in_map_iff in Hw. destruct Hw as ([w' n] & <- & Hw). apply Hl. now apply T2 in Hw. }
    destruct (count_names _ Hd Hv m Hi) as [I1 I2].
    assert (EQ : forall w, In w cats -> py_eqb O v w = true <-> v = w) by (intros w Hw; now apply (distinct_eq _ _ Hd)).
    assert (D : In v (map fst m) \/ ~ In v (map fst m)).
    { destruct (existsb (fun w => py_eqb O w v) (map fst m)) eqn:E.
      - apply existsb_exists in E. destruct E as (w & Hw & E). apply (distinct_eq _ _ Hd (Hi _ Hw) Hv) in E. subst. now left.
      - right. intro Q. assert (P : py_eqb O v v = true) by now apply EQ. assert (X : existsb (fun w => py_eqb O w v) (map fst m) = true) by (apply existsb_exists; now exists v). congruence. }
    assert (NEW : forall w n, In (w, n) m -> w <> v -> In w (l ++ [v]) /\ n = times w (l ++ [v])).
    { intros w n Hw Hne. destruct (T2 _ _ Hw) as [A ->]. split; [apply in_or_app; now left|]. rewrite times_app.
      destruct (py_eqb O v w) eqn:E; [apply EQ in E; [congruence|now apply Hl]|lia]. }
    assert (VV : py_eqb O v v = true) by now apply EQ.
    destruct D as [H|H].
    - split; [now rewrite (I1 H)|]. split.
      + intros w n Hw. destruct (count_entries _ Hd Hv _ Hi T1 H _ _ Hw) as [[A B]|[-> (n' & -> & B)]]; [now apply NEW|].
        split; [apply in_or_app; right; now left|]. rewrite times_app, VV. destruct (T2 _ _ B) as [_ ->]. lia.
      + intros w Hw. rewrite (I1 H). apply in_app_or in Hw. destruct Hw as [Hw|[<-|[]]]; auto.
    - rewrite (I2 H). split; [|split].
      + rewrite map_app. cbn. apply NoDup_app_one; easy.
      + intros w n Hw. apply in_app_or in Hw. destruct Hw as [Hw|[Hw|[]]].
        * apply NEW; [easy|]. intros ->. apply H. change v with (fst (v, n)). now apply in_map.
        * injection Hw as <- <-. split; [apply in_or_app; right; now left|]. rewrite times_app, VV.
          assert (Z0 : times v l = 0). { unfold times. destruct (filter _ l) as [|w l'] eqn:E; [easy|]. assert (Q : In w (filter (fun w => py_eqb O w v) l)) by (rewrite E; now left).
            apply filter_In in Q. destruct Q as [Q1 Q2]. apply (distinct_eq _ _ Hd (Hl _ Q1) Hv) in Q2. subst. exfalso. apply H. auto. }
          lia.
      + intros w Hw. rewrite map_app. apply in_or_app. apply in_app_or in Hw. destruct Hw as [Hw|Hw]; [left; auto|right; exact Hw].
  Qed.
  Lemma counter_tally cats l : distinct O cats -> incl l cats -> tally l (counter O l).
  Proof.
    intro Hd. unfold counter. induction l as [|v l IH] using rev_ind; intro Hl; [split; [constructor|split; easy]|].
    rewrite fold_left_app. cbn [fold_left]. apply tally_step with cats; auto.
    - intros w Hw. apply Hl, in_or_app. now left.
    - apply Hl, in_or_app. right. now left.
    - apply IH. intros w Hw. apply Hl, in_or_app. now left.
  Qed.
  Lemma tally_sum cats l m : distinct O cats -> incl l cats -> tally l m -> fold_right Nat.add 0 (map snd m) = length l.
  Proof.
    intros Hd. revert l. induction m as [|[v n] m IH]; intros l Hl (T1 & T2 & T3).
    - destruct l as [|w l]; [easy|]. destruct (T3 w); now left.
    - cbn [map snd fold_right]. inversion T1 as [|? ? H1 H2]; subst. destruct (T2 v n) as [Hv ->]; [now left|].
      set (rest := filter (fun w => negb (py_eqb O w v)) l).
      assert (L : times v l + length rest = length l). { unfold times, rest. clear. induction l as [|w l IH]; [easy|]. cbn. destruct (py_eqb O w v); cbn; lia. }
      assert (Hr : incl rest cats) by (intros w Hw; apply filter_In in Hw; now apply Hl).
      assert (E : fold_right Nat.add 0 (map snd m) = length rest); [|lia].
      apply IH; [easy|]. split; [easy|]. split.
      + intros w n Hw. destruct (T2 w n) as [A ->]; [now right|].
        assert (K : w <> v). { intros ->. apply H1. change v with (fst (v, times v l)). now apply in_map. }
        split.
        * apply filter_In. split; [easy|]. apply negb_true_iff. destruct (py_eqb O w v) eqn:E; [|easy]. apply (distinct_eq _ _ Hd) in E; auto. easy.
        * unfold times, rest. rewrite <- (filter_both (fun w0 => py_eqb O w0 w) (fun w0 => negb (py_eqb O w0 v))); [easy|].
          intros x Hx E. apply (distinct_eq _ _ Hd) in E; auto. subst x. apply negb_true_iff. destruct (py_eqb O w v) eqn:E; [|easy]. apply (distinct_eq _ _ Hd) in E; auto. easy.
      + intros w Hw. apply filter_In in Hw. destruct Hw as [Hw Q]. destruct (T3 w Hw) as [E|E]; [|easy]. cbn in E. subst w. apply negb_true_iff in Q.
        assert (py_eqb O v v = true) by (apply (distinct_eq _ _ Hd); auto). congruence.
  Qed.
End Cats.
