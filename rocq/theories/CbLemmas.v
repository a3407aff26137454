(** Callback properties. *)
From Coq Require Import String List ZArith Bool Lia Permutation Sorted Reals Lra.
From Verif Require Import Base Num Values Transformers Dimension Space Optimizer NumLaws BaseLemmas SpaceSpec MetricLemmas
  OptSpec OptLemmas2 Minimize MinSpec MinLemmas MinProps MinDummy Callbacks CbSpec.
Import ListNotations.
Open Scope list_scope.
Set Implicit Arguments.

Lemma py_index_last {A} (l : list A) n : n < length l -> py_index l (- Z.of_nat n - 1) = nth_error l (length l - S n).
Proof.
  intros H. unfold py_index. replace (0 <=? - Z.of_nat n - 1)%Z with false by (symmetry; apply Z.leb_gt; lia).
  replace (0 <=? Z.of_nat (length l) + (- Z.of_nat n - 1))%Z with true by (symmetry; apply Z.leb_le; lia).
  f_equal. lia.
Qed.
Lemma py_index_nat {A} (l : list A) z : (0 <= z)%Z -> py_index l z = nth_error l (Z.to_nat z).
Proof. intros H. unfold py_index. now replace (0 <=? z)%Z with true by (symmetry; apply Z.leb_le; lia). Qed.

Section Sort.
  Context {N : Type} (O : numops N) (L : order_laws O).
  Notation le a b := (nleb O a b = true).

  Lemma num_of x : nisnan O x = false <-> le x x.
  Proof. unfold nisnan. destruct (nleb O x x); cbn; split; congruence. Qed.
  Lemma sort_insert_perm a l : Permutation (a :: l) (sort_insert O a l).
  Proof.
    induction l as [|b l IH]; cbn; [easy|]. destruct (sort_le O a b); [easy|].
    rewrite perm_swap. now constructor.
  Qed.
  Lemma np_sort_perm l : Permutation l (np_sort O l).
  Proof. induction l as [|a l IH]; cbn; [constructor|]. rewrite IH at 1. apply sort_insert_perm. Qed.
  Lemma sort_insert_sorted a l : nisnan O a = false -> no_nan O l -> StronglySorted (fun x y => le x y) l ->
    StronglySorted (fun x y => le x y) (sort_insert O a l).
  Proof.
    intros Ha Hn. induction 1 as [|b l Hs IH Hb]; cbn; [repeat constructor|].
    inversion Hn as [|? ? Hb' Hn']; subst. unfold sort_le. rewrite Hb'. cbn [orb].
    destruct (nleb O a b) eqn:E.
    - constructor; [now constructor|]. constructor; [exact E|]. eapply Forall_impl; [|exact Hb]. intros x Hx.
      exact (ol_trans L _ _ _ E Hx).
    - constructor; [now apply IH|]. apply Forall_forall. intros x Hx.
      apply (Permutation_in _ (Permutation_sym (sort_insert_perm a l))) in Hx. destruct Hx as [<-|Hx].
      + apply num_of in Ha, Hb'. destruct (ol_total L _ _ Ha Hb'); congruence.
      + rewrite Forall_forall in Hb. auto.
  Qed.
  Lemma no_nan_perm l m : Permutation l m -> no_nan O l -> no_nan O m.
  Proof. intros H. unfold no_nan. now rewrite H. Qed.
  Lemma np_sort_sorted l : no_nan O l -> StronglySorted (fun x y => le x y) (np_sort O l).
  Proof.
    induction l as [|a l IH]; cbn; intros H; [constructor|]. inversion H; subst.
    apply sort_insert_sorted; auto. eapply no_nan_perm; [apply np_sort_perm|easy].
  Qed.

  Lemma count_perm (f : N -> bool) l m : Permutation l m -> count f l = count f m.
  Proof.
    unfold count. induction 1 as [|x l m H IH|x y l|l m k H1 IH1 H2 IH2]; cbn; [easy| | |congruence].
    - destruct (f x); cbn; congruence.
    - now destruct (f x), (f y).
  Qed.
  Lemma count_app (f : N -> bool) l m : count f (l ++ m) = count f l + count f m.
  Proof. unfold count. now rewrite filter_app, app_length. Qed.
  Lemma count_le (f : N -> bool) l : count f l <= length l.
  Proof. unfold count. induction l as [|a l IH]; cbn; [easy|]. destruct (f a); cbn; lia. Qed.
  Lemma count_all (f : N -> bool) l : Forall (fun x => f x = true) l -> count f l = length l.
  Proof. unfold count. induction 1 as [|a l H _ IH]; cbn; [easy|]. rewrite H. cbn. congruence. Qed.
  Lemma count_none (f : N -> bool) l : Forall (fun x => f x = false) l -> count f l = 0.
  Proof. unfold count. induction 1 as [|a l H _ IH]; cbn; [easy|]. rewrite H. cbn. congruence. Qed.

  Lemma sorted_split s k v : StronglySorted (fun x y => le x y) s -> nth_error s k = Some v ->
    exists a b, s = a ++ v :: b /\ length a = k /\ Forall (fun x => le x v) a /\ Forall (fun x => le v x) b.
  Proof.
    intros Hs. revert k. induction Hs as [|x s Hs IH Hx]; intros k Hk; [destruct k; discriminate|].
    destruct k as [|k].
    - injection Hk as <-. exists [], s. now repeat split.
    - destruct (IH _ Hk) as (a & b & -> & <- & Ha & Hb). exists (x :: a), b. repeat split; auto.
      constructor; [|exact Ha]. rewrite Forall_forall in Hx. apply Hx. apply in_elt.
  Qed.
  Lemma kth_sorted l k v : no_nan O l -> nth_error (np_sort O l) k = Some v -> kth_smallest O (S k) l v.
  Proof.
    intros Hn Hk. destruct (sorted_split _ (np_sort_sorted Hn) Hk) as (a & b & E & <- & Ha & Hb).
    pose proof (np_sort_perm l) as P. rewrite E in P.
    assert (Hv : le v v).
    { apply num_of. pose proof (no_nan_perm P Hn) as K. unfold no_nan in K. rewrite Forall_forall in K. apply K. apply in_elt. }
    unfold kth_smallest. rewrite !(count_perm _ P), !count_app. split; [|split].
    - apply (Permutation_in _ (Permutation_sym P)). apply in_elt.
    - rewrite (@count_none (fun x => nltb O x v) (v :: b)).
      + pose proof (count_le (fun x => nltb O x v) a). lia.
      + assert (K : forall x, le v x -> nltb O x v = false).
        { intros x Hx. destruct (nltb O x v) eqn:E'; [|easy]. apply (ol_lt L) in E'. destruct E' as (_ & _ & E'). congruence. }
        constructor; [now apply K|]. eapply Forall_impl; [|exact Hb]. intros x Hx. now apply K.
    - rewrite (count_all _ Ha). cbn. unfold count. cbn. rewrite Hv. cbn. lia.
  Qed.
  Lemma least_sorted l v : no_nan O l -> nth_error (np_sort O l) 0 = Some v -> least O l v.
  Proof.
    intros Hn Hk. destruct (sorted_split _ (np_sort_sorted Hn) Hk) as (a & b & E & Ha' & Ha & Hb).
    destruct a; [|discriminate]. pose proof (np_sort_perm l) as P. rewrite E in P. cbn in P.
    split; [apply (Permutation_in _ (Permutation_sym P)); now left|].
    intros x Hx. apply (Permutation_in _ P) in Hx. destruct Hx as [<-|Hx].
    - apply num_of. pose proof (no_nan_perm P Hn) as K. now inversion K.
    - rewrite Forall_forall in Hb. auto.
  Qed.

  (** cummin *)
  Lemma minimum_least l m x : least O l m -> nisnan O x = false -> least O (l ++ [x]) (np_minimum O m x).
  Proof.
    intros [Hm Hl] Hx. pose proof (Hl _ Hm) as Hmm. pose proof (proj2 (num_of m) Hmm) as Em. unfold np_minimum. rewrite Em, Hx.
    apply num_of in Hx. destruct (nltb O x m) eqn:E.
    - apply (ol_lt L) in E. destruct E as (_ & _ & E). destruct (ol_total L _ _ Hx Hmm) as [K|K]; [|congruence].
      split; [apply in_or_app; right; now left|]. intros v Hv. apply in_app_or in Hv. destruct Hv as [Hv|[<-|[]]]; [|exact Hx].
      exact (ol_trans L _ _ _ K (Hl _ Hv)).
    - split; [apply in_or_app; now left|]. intros v Hv. apply in_app_or in Hv. destruct Hv as [Hv|[<-|[]]]; [auto|].
      destruct (nleb O m x) eqn:E2; [easy|]. assert (K : nltb O x m = true) by (apply (ol_lt L); auto). congruence.
  Qed.
  Lemma accumulate_len acc l : length (accumulate O acc l) = length l.
  Proof. revert acc. induction l; intros acc; cbn; auto. Qed.
  Lemma accumulate_least l : forall pre acc i v, least O pre acc -> no_nan O l -> nth_error (accumulate O acc l) i = Some v ->
    least O (pre ++ firstn (S i) l) v.
  Proof.
    induction l as [|x l IH]; intros pre acc i v Hp Hn Hi; [destruct i; discriminate|].
    inversion Hn; subst. cbn [accumulate] in Hi. pose proof (@minimum_least pre acc x Hp H1) as K. destruct i as [|i].
    - injection Hi as <-. exact K.
    - cbn [nth_error] in Hi. specialize (IH (pre ++ [x]) (np_minimum O acc x) i v K H2 Hi). rewrite <- app_assoc in IH. exact IH.
  Qed.
  Lemma cummin_len l : length (cummin O l) = length l.
  Proof. destruct l; [easy|]. cbn. now rewrite accumulate_len. Qed.
  Lemma cummin_least l i v : no_nan O l -> nth_error (cummin O l) i = Some v -> least O (firstn (S i) l) v.
  Proof.
    destruct l as [|x l]; intros Hn Hi; [destruct i; discriminate|]. inversion Hn; subst.
    assert (K : least O [x] x).
    { split; [now left|]. intros v' [<-|[]]. now apply num_of. }
    destruct i as [|i]; [injection Hi as <-; exact K|]. cbn [cummin nth_error] in Hi.
    exact (@accumulate_least l [x] x i v K H2 Hi).
  Qed.
End Sort.

Section Criteria.
  Context {N RNG M : Type} (O : numops N).
  Notation result := (result N RNG M).

  Lemma c32 (L : order_laws O) delta n_best (r : result) : (1 <= n_best)%Z -> no_nan O (res_func_vals r) ->
    if (n_best <=? Z.of_nat (length (res_func_vals r)))%Z then
      exists worst best, kth_smallest O (Z.to_nat n_best) (res_func_vals r) worst /\ least O (res_func_vals r) best /\
        delta_y O delta n_best r = Ok (Some (nltb O (nsub O worst best) delta))
    else delta_y O delta n_best r = Ok None.
  Proof.
    intros Hb Hn. unfold delta_y. destruct (_ <=? _)%Z eqn:E; [|easy]. apply Z.leb_le in E.
    pose proof (Permutation_length (np_sort_perm O (res_func_vals r))) as Hl.
    rewrite !py_index_nat by lia.
    destruct (nth_error (np_sort O (res_func_vals r)) (Z.to_nat (n_best - 1))) as [w|] eqn:Ew.
    2:{ apply nth_error_None in Ew. lia. }
    destruct (nth_error (np_sort O (res_func_vals r)) (Z.to_nat 0)) as [b|] eqn:Eb.
    2:{ apply nth_error_None in Eb. lia. }
    exists w, b. split; [|split; [|easy]].
    - replace (Z.to_nat n_best) with (S (Z.to_nat (n_best - 1))) by lia. now apply kth_sorted.
    - now apply least_sorted.
  Qed.

  Lemma c34 (L : order_laws O) n thr (r : result) : no_nan O (res_func_vals r) ->
    if Nat.leb (length (res_func_vals r)) n then hollow O (Z.of_nat n) thr r = Ok (Some false)
    else exists before now, least O (firstn (length (res_func_vals r) - n) (res_func_vals r)) before /\
      least O (res_func_vals r) now /\
      hollow O (Z.of_nat n) thr r = Ok (Some (nleb O (nsub O before now) (nabs O thr))).
  Proof.
    intros Hn. unfold hollow. destruct (Nat.leb _ n) eqn:E.
    - apply Nat.leb_le in E. now replace (_ <=? _)%Z with true by (symmetry; apply Z.leb_le; lia).
    - apply Nat.leb_gt in E. replace (_ <=? _)%Z with false by (symmetry; apply Z.leb_gt; lia).
      set (l := res_func_vals r) in *.
      rewrite (@py_index_last _ (cummin O l) n) by (rewrite cummin_len; lia).
      change (-1)%Z with (- Z.of_nat 0 - 1)%Z. rewrite (@py_index_last _ (cummin O l) 0) by (rewrite cummin_len; lia).
      rewrite cummin_len.
      destruct (nth_error (cummin O l) (length l - S n)) as [b|] eqn:Eb.
      2:{ apply nth_error_None in Eb. rewrite cummin_len in Eb. lia. }
      destruct (nth_error (cummin O l) (length l - 1)) as [c|] eqn:Ec.
      2:{ apply nth_error_None in Ec. rewrite cummin_len in Ec. lia. }
      exists b, c. split; [|split; [|easy]].
      + replace (length l - n) with (S (length l - S n)) by lia. now apply cummin_least.
      + rewrite <- (firstn_all l). replace (length l) with (S (length l - 1)) by lia. now apply cummin_least.
  Qed.

  Lemma c35_threshold t (r : result) : exists b, threshold O t r = Ok (Some b) /\
    (b = true <-> exists v, In v (res_func_vals r) /\ nleb O v t = true).
  Proof. eexists. split; [reflexivity|]. apply existsb_exists. Qed.

  Lemma c33 delta (r : result) :
    (length (res_x_iters r) < 2 -> delta_x O delta r = Ok None) /\
    (forall a b d, last_two r a b -> space_distance O (res_space r) a b = Ok d ->
       delta_x O delta r = Ok (Some (nltb O d delta))).
  Proof.
    unfold delta_x. split.
    - intros H. now replace (2 <=? _)%Z with false by (symmetry; apply Z.leb_gt; lia).
    - intros a b d (l & E) Hd. rewrite E.
      assert (Hl : length (l ++ [X1 a; X1 b]) = length l + 2) by (rewrite app_length; easy).
      replace (2 <=? _)%Z with true by (symmetry; apply Z.leb_le; lia).
      change (-2)%Z with (- Z.of_nat 1 - 1)%Z. change (-1)%Z with (- Z.of_nat 0 - 1)%Z.
      rewrite !py_index_last by lia. rewrite !Hl.
      replace (length l + 2 - 2) with (length l + 0) by lia. replace (length l + 2 - 1) with (length l + 1) by lia.
      rewrite !nth_error_app2 by lia. replace (length l + 0 - length l) with 0 by lia. replace (length l + 1 - length l) with 1 by lia.
      cbn [nth_error]. now rewrite Hd.
  Qed.
End Criteria.
