(** Named points (C40, C41). *)
From Coq Require Import String Ascii List ZArith Bool Lia Permutation Sorted NArith.
From Verif Require Import Base BaseLemmas Num Values Transformers Dimension Named SearchSpec.
Import ListNotations.
Open Scope list_scope.
Set Implicit Arguments.

(** *** The order of strings *)
Lemma ascii_compare_lt a b c : Ascii.compare a b = Lt -> Ascii.compare b c = Lt -> Ascii.compare a c = Lt.
Proof. unfold Ascii.compare. rewrite !N.compare_lt_iff. lia. Qed.
Lemma str_compare_lt : forall a b c, String.compare a b = Lt -> String.compare b c = Lt -> String.compare a c = Lt.
Proof.
  induction a as [|x a IH]; intros [|y b] [|z c]; simpl; try easy.
  destruct (Ascii.compare x y) eqn:E1; try easy; destruct (Ascii.compare y z) eqn:E2; try easy; intros H1 H2.
  - apply Ascii.compare_eq_iff in E1. subst. rewrite E2. eapply IH; eauto.
  - apply Ascii.compare_eq_iff in E1. subst. now rewrite E2.
  - apply Ascii.compare_eq_iff in E2. subst. now rewrite E1.
  - now rewrite (ascii_compare_lt _ _ _ E1 E2).
Qed.
Lemma str_le_trans a b c : str_le a b -> str_le b c -> str_le a c.
Proof.
  unfold str_le, String.leb. destruct (String.compare a b) eqn:E1; try easy; destruct (String.compare b c) eqn:E2; try easy; intros _ _.
  - apply String.compare_eq_iff in E1. subst. now rewrite E2.
  - apply String.compare_eq_iff in E1. subst. now rewrite E2.
  - apply String.compare_eq_iff in E2. subst. now rewrite E1.
  - now rewrite (str_compare_lt _ _ _ E1 E2).
Qed.

Lemma key_insert_perm k : forall l, Permutation (key_insert k l) (k :: l).
Proof.
  induction l as [|k' l IH]; simpl; [reflexivity|]. destruct (String.leb k k'); [reflexivity|].
  rewrite IH. apply perm_swap.
Qed.
Lemma sorted_keys_perm : forall l, Permutation (sorted_keys l) l.
Proof. induction l as [|k l IH]; [reflexivity|]. cbn [sorted_keys fold_right]. rewrite key_insert_perm. now constructor. Qed.
Lemma key_insert_sorted k : forall l, StronglySorted str_le l -> StronglySorted str_le (key_insert k l).
Proof.
  induction l as [|k' l IH]; intros H; simpl; [repeat constructor|]. inversion H as [|? ? Hl Hk]; subst.
  destruct (String.leb k k') eqn:E.
  - constructor; [easy|]. constructor; [easy|]. eapply Forall_impl; [|exact Hk]. intros a Ha. eapply str_le_trans; eauto.
  - constructor; [now apply IH|]. rewrite Forall_forall in *. intros a Ha.
    apply (Permutation_in _ (key_insert_perm k l)) in Ha. destruct Ha as [<-|Ha]; [|now apply Hk].
    destruct (String.leb_total k k'); [congruence|easy].
Qed.
Lemma sorted_keys_sorted : forall l, StronglySorted str_le (sorted_keys l).
Proof. induction l; [constructor|]. cbn [sorted_keys fold_right]. now apply key_insert_sorted. Qed.
(** Sorted lists with the same elements are equal. *)
Lemma sorted_unique : forall l l', StronglySorted str_le l -> StronglySorted str_le l' -> Permutation l l' -> l = l'.
Proof.
  induction l as [|a l IH]; intros [|b l'] H H' P; [easy| | |].
  - apply Permutation_nil in P. discriminate.
  - apply Permutation_sym, Permutation_nil in P. discriminate.
  - inversion H as [|? ? Hl Ha]; subst. inversion H' as [|? ? Hl' Hb]; subst.
    assert (a = b).
    { rewrite Forall_forall in *. assert (I1 : In a (b :: l')) by (eapply Permutation_in; [exact P|now left]).
      assert (I2 : In b (a :: l)) by (eapply Permutation_in; [symmetry; exact P|now left]).
      destruct I1 as [->|I1]; [easy|]. destruct I2 as [->|I2]; [easy|].
      apply String.leb_antisym; [apply Ha|apply Hb]; assumption. }
    subst b. f_equal. apply IH; auto. eapply Permutation_cons_inv; eauto.
Qed.
Lemma sorted_keys_names {V} (d : list (string * V)) ks : ordered_names d ks -> sorted_keys (map fst d) = ks.
Proof.
  intros [H1 H2]. apply sorted_unique; auto using sorted_keys_sorted. rewrite sorted_keys_perm. now symmetry.
Qed.
Lemma names_ordered {V} (d : list (string * V)) : ordered_names d (sorted_keys (map fst d)).
Proof. split; [apply sorted_keys_perm|apply sorted_keys_sorted]. Qed.

(** *** Dicts *)
Section Dicts.
  Context {V : Type}.
  Notation dict := (list (string * V)).
  Notation get := (dict_get String.eqb).
  Lemma get_in (d : dict) k v : get d k = Some v -> In (k, v) d.
  Proof. intros H. apply dict_get_in in H. destruct H as (k' & H & E). apply String.eqb_eq in E. now subst. Qed.
  Lemma in_get (d : dict) k v : is_dict d -> In (k, v) d -> get d k = Some v.
  Proof.
    unfold is_dict. induction d as [|[k' v'] d IH]; intros Hd Hi; [easy|]. inversion Hd; subst. simpl.
    destruct Hi as [E|Hi]; [injection E as -> ->; now rewrite String.eqb_refl|].
    destruct (String.eqb_spec k' k) as [->|_]; [|auto]. exfalso. apply H1. now apply (in_map fst) in Hi.
  Qed.
  Arguments in_get {d k v}.
  Lemma get_none (d : dict) k : ~ In k (map fst d) -> get d k = None.
  Proof.
    induction d as [|[k' v'] d IH]; intros H; [easy|]. simpl in *. destruct (String.eqb_spec k' k) as [->|_]; [tauto|auto].
  Qed.
  Lemma item_holds (d : dict) k v : is_dict d -> dict_item d k = Ok v <-> In (k, v) d.
  Proof.
    intros Hd. unfold dict_item. split.
    - destruct (get d k) eqn:E; [|discriminate]. intros H. injection H as <-. now apply get_in.
    - intros H. now rewrite (in_get Hd H).
  Qed.
  Lemma set_fresh (d : dict) k v : ~ In k (map fst d) -> dict_set String.eqb d k v = d ++ [(k, v)].
  Proof.
    induction d as [|[k' v'] d IH]; intros H; [easy|]. simpl in *.
    destruct (String.eqb_spec k' k) as [->|_]; [tauto|]. rewrite IH; tauto.
  Qed.
  Lemma dict_of_nodup_from : forall (l d : dict), NoDup (map fst d ++ map fst l) ->
    fold_left (fun d kv => dict_set String.eqb d (fst kv) (snd kv)) l d = d ++ l.
  Proof.
    induction l as [|[k v] l IH]; intros d H; simpl; [now rewrite app_nil_r|].
    rewrite set_fresh.
    - rewrite IH; [now rewrite <- app_assoc|]. rewrite map_app, <- app_assoc. exact H.
    - simpl in H. apply NoDup_remove_2 in H. intros Hi. apply H. apply in_or_app. now left.
  Qed.
  Lemma dict_of_nodup (l : dict) : is_dict l -> dict_of String.eqb l = l.
  Proof. intros H. unfold dict_of. now rewrite dict_of_nodup_from. Qed.
  (** Assigning twice keeps the last value. *)
  Lemma get_set_same (d : dict) k v : get (dict_set String.eqb d k v) k = Some v.
  Proof.
    induction d as [|[k' v'] d IH]; simpl; [now rewrite String.eqb_refl|].
    destruct (String.eqb_spec k' k) as [->|E]; simpl; [now rewrite String.eqb_refl|].
    destruct (String.eqb_spec k' k); [contradiction|auto].
  Qed.
  Lemma get_set_other (d : dict) k k2 v : k2 <> k -> get (dict_set String.eqb d k v) k2 = get d k2.
  Proof.
    intros Hn. induction d as [|[k' v'] d IH]; simpl.
    - destruct (String.eqb_spec k k2); [congruence|easy].
    - destruct (String.eqb_spec k' k) as [E|E]; simpl; destruct (String.eqb_spec k' k2); congruence || easy.
  Qed.
End Dicts.
Arguments in_get {V d k v}.
Arguments item_holds {V d}.


Lemma combine_fst_sub {A B} : forall (l : list A) (x : list B), exists q, l = map fst (combine l x) ++ q.
Proof.
  induction l as [|a l IH]; intros x; [now exists []|]. destruct x as [|b x]; [now exists (a :: l)|].
  destruct (IH x) as [q E]. exists q. simpl. congruence.
Qed.
Lemma combine_fst {A B} : forall (l : list A) (x : list B), length l = length x -> map fst (combine l x) = l.
Proof. induction l; intros [|b x] H; simpl in *; try easy. f_equal. auto. Qed.
Lemma nodup_app_l {A} : forall (a b : list A), NoDup (a ++ b) -> NoDup a.
Proof.
  induction a as [|x a IH]; intros b H; [constructor|]. inversion H; subst. constructor; [|eauto].
  intros Hi. apply H2. apply in_or_app. now left.
Qed.
Lemma nodup_combine {V} ks (x : list V) : NoDup ks -> is_dict (combine ks x).
Proof.
  intros H. unfold is_dict. destruct (combine_fst_sub ks x) as [q E]. rewrite E in H. now apply nodup_app_l in H.
Qed.
Lemma ordered_nodup {V} (d : list (string * V)) ks : is_dict d -> ordered_names d ks -> NoDup ks.
Proof. intros H [P _]. eapply Permutation_NoDup; [symmetry; exact P|exact H]. Qed.

Lemma Forall2_nth_l {A B} (R : A -> B -> Prop) : forall l m i a, Forall2 R l m -> nth_error l i = Some a ->
  exists b, nth_error m i = Some b /\ R a b.
Proof.
  intros l m i a F. revert i. induction F as [|x y l m H F IH]; intros [|i]; simpl; try easy.
  - intros E. injection E as ->. eauto.
  - apply IH.
Qed.
Section Points.
  Context {D V : Type}.
  Notation sdict := (list (string * D)).
  Lemma asdict_combine (sp : sdict) ks (x : list V) : is_dict sp -> ordered_names sp ks ->
    point_asdict sp x = combine ks x.
  Proof.
    intros Hd Hk. unfold point_asdict. rewrite (sorted_keys_names Hk). apply dict_of_nodup, nodup_combine.
    eapply ordered_nodup; eauto.
  Qed.
  Lemma asdict_named (sp : sdict) (x : list V) : is_dict sp -> named sp x (point_asdict sp x).
  Proof.
    intros Hd. exists (sorted_keys (map fst sp)). split; [apply names_ordered|]. apply asdict_combine; [easy|apply names_ordered].
  Qed.
  Lemma mapM_nth {A B} (f : A -> res B) : forall l r, (length l = length r) ->
    (forall i a b, nth_error l i = Some a -> nth_error r i = Some b -> f a = Ok b) -> mapM f l = Ok r.
  Proof.
    induction l as [|a l IH]; intros [|b r] Hl H; try easy. simpl.
    rewrite (H 0 a b eq_refl eq_refl). simpl. rewrite (IH r); [easy|simpl in Hl; lia|].
    intros i. exact (H (S i)).
  Qed.
  Lemma nth_combine {A B} : forall (l : list A) (r : list B) i a b, nth_error l i = Some a -> nth_error r i = Some b ->
    In (a, b) (combine l r).
  Proof.
    induction l as [|a' l IH]; intros [|b' r] [|i] a b; simpl; try easy.
    - intros E1 E2. left. congruence.
    - intros E1 E2. right. eapply IH; eauto.
  Qed.
  Lemma names_length (sp : sdict) ks : ordered_names sp ks -> length ks = length sp.
  Proof. intros [P _]. rewrite (Permutation_length P). apply map_length. Qed.

  Lemma c40_roundtrip (sp : sdict) (x : list V) : is_dict sp -> length x = length sp ->
    point_aslist sp (point_asdict sp x) = Ok x.
  Proof.
    intros Hd Hl. pose proof (names_ordered sp) as Hk. rewrite (asdict_combine x Hd Hk). unfold point_aslist.
    assert (Hn : NoDup (sorted_keys (map fst sp))) by (eapply ordered_nodup; eauto).
    apply mapM_nth; [rewrite (names_length Hk); lia|]. intros i k v E1 E2.
    apply (item_holds k v (nodup_combine x Hn)). eapply nth_combine; eauto.
  Qed.
  Lemma c40_dims (sp : sdict) ks : is_dict sp -> ordered_names sp ks ->
    exists ds, dimensions_aslist sp = Ok ds /\ Forall2 (fun k d => In (k, d) sp) ks ds.
  Proof.
    intros Hd Hk. unfold dimensions_aslist. rewrite (sorted_keys_names Hk).
    assert (Hi : forall k, In k ks -> exists d, In (k, d) sp).
    { intros k H. apply (Permutation_in _ (proj1 Hk)) in H. apply in_map_iff in H. destruct H as [[k' d] [<- H]]. eauto. }
    clear Hk. induction ks as [|k ks IH]; [exists []; split; [easy|constructor]|].
    destruct (Hi k (or_introl eq_refl)) as [d Hin]. destruct IH as (ds & E & F); [intros; apply Hi; now right|].
    exists (d :: ds). split; [|now constructor]. cbn [mapM]. rewrite (proj2 (item_holds k d Hd) Hin). cbn [bind]. now rewrite E.
  Qed.
  Lemma c40_coordinate (sp : sdict) ds (x : list V) ks i k d v : is_dict sp -> length x = length sp -> ordered_names sp ks ->
    dimensions_aslist sp = Ok ds -> nth_error ks i = Some k ->
    nth_error ds i = Some d -> nth_error x i = Some v -> holds sp k d /\ holds (point_asdict sp x) k v.
  Proof.
    intros Hd Hl Hk Eds Ek Ed Ev. destruct (c40_dims Hd Hk) as (ds' & E & F).
    rewrite E in Eds. injection Eds as ->. split.
    - split; [easy|]. destruct (Forall2_nth_l _ F Ek) as (d' & E' & H). congruence.
    - rewrite (asdict_combine x Hd Hk). split; [apply nodup_combine; eapply ordered_nodup; eauto|]. eapply nth_combine; eauto.
  Qed.
  (** A dict with all the names comes back. *)
  Lemma c40_back (sp : sdict) (d : list (string * V)) x : is_dict sp -> is_dict d -> point_aslist sp d = Ok x ->
    length x = length sp /\ forall k v, In k (map fst sp) -> holds (point_asdict sp x) k v <-> holds d k v.
  Proof.
    intros Hs Hd Hx. pose proof (names_ordered sp) as Hk. pose proof Hx as Hm. unfold point_aslist in Hm. apply mapM_ok in Hm.
    assert (Hl : length x = length sp) by (rewrite <- (names_length Hk); symmetry; eapply Forall2_len; eauto).
    split; [easy|]. intros k v Hin. rewrite (asdict_combine x Hs Hk).
    assert (Hn : NoDup (sorted_keys (map fst sp))) by exact (ordered_nodup Hs Hk).
    unfold holds. split; intros [_ H]; (split; [auto using nodup_combine|]).
    - revert H. clear -Hm Hd. induction Hm as [|a b l r E Hm IH]; simpl; [easy|]. intros [H|H]; [|auto].
      injection H as <- <-. now apply (item_holds a b Hd).
    - apply (Permutation_in _ (Permutation_sym (proj1 Hk))) in Hin. revert Hin. clear -Hm H Hd.
      induction Hm as [|a b l r E Hm IH]; simpl; [easy|]. intros [->|Hi]; [|auto]. left.
      apply (item_holds k b Hd) in E. apply (in_get Hd) in E. apply (in_get Hd) in H. congruence.
  Qed.
  (** A missing name is reported. *)
  Lemma c40_missing (sp : sdict) (d : list (string * V)) k : In k (map fst sp) -> ~ In k (map fst d) ->
    point_aslist sp d = Raise KeyError.
  Proof.
    intros Hi Hn. unfold point_aslist. apply (Permutation_in _ (Permutation_sym (sorted_keys_perm _))) in Hi.
    induction (sorted_keys (map fst sp)) as [|a l IH]; [easy|]. cbn [mapM]. unfold dict_item at 1.
    destruct Hi as [->|Hi]; [now rewrite (get_none _ _ Hn)|].
    destruct (dict_get String.eqb d a); [|easy]. cbn [bind]. now rewrite (IH Hi).
  Qed.
  (** The order in which the space was written down does not matter. *)
  Lemma c40_order (sp sp' : sdict) (x : list V) : is_dict sp -> Permutation sp sp' ->
    point_asdict sp x = point_asdict sp' x /\ dimensions_aslist sp = dimensions_aslist sp'.
  Proof.
    intros Hd P. assert (Hd' : is_dict sp') by (eapply Permutation_NoDup; [apply Permutation_map; exact P|exact Hd]).
    pose proof (names_ordered sp) as Hk.
    assert (Hk' : ordered_names sp' (sorted_keys (map fst sp))).
    { split; [|apply Hk]. rewrite <- (Permutation_map fst P). apply Hk. }
    split; [now rewrite (asdict_combine x Hd Hk), (asdict_combine x Hd' Hk')|].
    unfold dimensions_aslist. rewrite (sorted_keys_names Hk'). apply mapM_ext. intros k _.
    unfold dict_item. destruct (dict_get String.eqb sp k) eqn:E.
    - apply get_in in E. rewrite (in_get Hd' (Permutation_in _ P E)). reflexivity.
    - destruct (dict_get String.eqb sp' k) eqn:E'; [|easy]. apply get_in in E'.
      apply (Permutation_in _ (Permutation_sym P)) in E'. apply (in_get Hd) in E'. congruence.
  Qed.
End Points.

Section Args.
  Context {V Y : Type} (func : list (string * V) -> res Y).
  Lemma names_named ds names : map Some names = map (fun d => match d with NDim n => n | NOther => None end) ds ->
    names_of ds = names /\ forallb is_dim ds = true /\ forallb has_name ds = true.
  Proof.
    revert names. induction ds as [|d ds IH]; intros [|n names]; simpl; try easy. intros H.
    destruct d as [[m|]|]; try discriminate. injection H as -> H. destruct (IH _ H) as (E & E1 & E2). simpl. now rewrite E.
  Qed.
  Lemma c41_call names x : NoDup names -> length x = length names ->
    exists w, use_named_args (map (fun n => NDim (Some n)) names) func = Ok w /\ w x = func (combine names x).
  Proof.
    intros Hn Hl. destruct (@names_named (map (fun n => NDim (Some n)) names) names) as (E & E1 & E2).
    { rewrite map_map. reflexivity. }
    unfold use_named_args, check_list_types, check_dimension_names. rewrite E1, E2. cbn [bind]. eexists. split; [reflexivity|].
    rewrite map_length, Hl, Nat.eqb_refl. cbn [negb]. rewrite E. now rewrite (dict_of_nodup (nodup_combine x Hn)).
  Qed.
  Lemma c41_length ds w x : use_named_args ds func = Ok w -> length x <> length ds -> w x = Raise ValueError.
  Proof.
    unfold use_named_args. intros H Hl. apply bind_ok in H. destruct H as (_ & _ & H). apply bind_ok in H. destruct H as (_ & _ & H).
    injection H as <-. destruct (Nat.eqb_spec (length x) (length ds)); [contradiction|reflexivity].
  Qed.
  Lemma c41_reject ds : use_named_args ds func = Raise ValueError <-> exists d, In d ds /\ forall n, d <> NDim (Some n).
  Proof.
    unfold use_named_args, check_list_types, check_dimension_names.
    split.
    - intros H. assert (Hf : forallb has_name ds = false).
      { destruct (forallb has_name ds) eqn:E; [|easy]. destruct (forallb is_dim ds) eqn:E2; [discriminate H|].
        apply not_true_iff_false in E2. exfalso. apply E2. apply forallb_forall. intros d Hd.
        rewrite forallb_forall in E. specialize (E d Hd). now destruct d as [[|]|]. }
      apply not_true_iff_false in Hf. rewrite forallb_forall in Hf.
      assert (Hd : forall l, (exists d, In d l /\ has_name d = false) \/ forall d, In d l -> has_name d = true).
      { induction l as [|d l IH]; [now right|]. destruct (has_name d) eqn:E; [|left; exists d; split; [now left|easy]].
        destruct IH as [(d' & Hi & Hx)|IH]; [left; exists d'; split; [now right|easy]|]. right. intros d' [<-|Hi]; auto. }
      destruct (Hd ds) as [(d & Hi & E)|E]; [|contradiction]. exists d. split; [easy|]. intros n ->. discriminate.
    - intros (d & Hi & Hd). destruct (forallb is_dim ds); [cbn [bind]|easy].
      destruct (forallb has_name ds) eqn:E; [|easy]. rewrite forallb_forall in E. specialize (E d Hi).
      destruct d as [[n|]|]; try discriminate. now destruct (Hd n).
  Qed.
End Args.
