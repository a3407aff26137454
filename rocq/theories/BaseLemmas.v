(** Lemmas about the basics in Base.v. *)
From Coq Require Import String List ZArith Bool Lia.
From Verif Require Import Base.
Import ListNotations.
Open Scope list_scope.
Set Implicit Arguments.

Lemma bind_ok {A B} (r : res A) (f : A -> res B) b :
  bind r f = Ok b <-> exists a, r = Ok a /\ f a = Ok b.
Proof.
  destruct r as [a|e]; simpl; split.
  - intros H. now exists a.
  - intros (a' & E & H). now injection E as <-.
  - easy.
  - now intros (a' & E & H).
Qed.

Lemma rmap_ok {A B} (f : A -> B) (r : res A) b :
  rmap f r = Ok b <-> exists a, r = Ok a /\ f a = b.
Proof.
  destruct r as [a|e]; simpl; split.
  - intros H. exists a. now injection H as <-.
  - intros (a' & E & H). injection E as <-. now subst.
  - easy.
  - now intros (a' & E & H).
Qed.

Lemma mapM_ok {A B} (f : A -> res B) l m :
  mapM f l = Ok m <-> Forall2 (fun x y => f x = Ok y) l m.
Proof.
  revert m. induction l as [|x l IH]; intros m; simpl.
  - split.
    + intros H. injection H as <-. constructor.
    + intros H. now inversion H.
  - split.
    + intros H. apply bind_ok in H as (y & Hy & H). apply bind_ok in H as (ys & Hys & H).
      injection H as <-. constructor; [easy|]. now apply IH.
    + intros H. inversion H as [|? y ? ys Hy Hys]; subst. rewrite Hy. simpl.
      apply IH in Hys. now rewrite Hys.
Qed.

Lemma mapM_pure {A B} (f : A -> res B) (g : A -> B) l :
  (forall x, In x l -> f x = Ok (g x)) -> mapM f l = Ok (map g l).
Proof.
  induction l as [|x l IH]; simpl; intros H; [easy|].
  rewrite (H x) by auto. simpl. rewrite IH by auto. easy.
Qed.

Lemma mapM_map {A B C} (f : B -> res C) (g : A -> B) l : mapM f (map g l) = mapM (fun x => f (g x)) l.
Proof. induction l as [|x l IH]; simpl; [easy|]. now rewrite IH. Qed.

Lemma mapM_ext {A B} (f g : A -> res B) l : (forall x, In x l -> f x = g x) -> mapM f l = mapM g l.
Proof.
  induction l as [|x l IH]; simpl; intros H; [easy|]. rewrite (H x) by auto. rewrite IH by auto. easy.
Qed.

Lemma Forall2_len {A B} (R : A -> B -> Prop) l m : Forall2 R l m -> length l = length m.
Proof. induction 1; simpl; congruence. Qed.

Lemma Forall2_weaken {A B} (R S : A -> B -> Prop) l m :
  (forall x y, R x y -> S x y) -> Forall2 R l m -> Forall2 S l m.
Proof. intros H F. induction F; constructor; auto. Qed.

Lemma mapM_length {A B} (f : A -> res B) l m : mapM f l = Ok m -> length m = length l.
Proof. intros H. apply mapM_ok in H. symmetry. now apply Forall2_len in H. Qed.

Lemma mapM_in {A B} (f : A -> res B) l m y : mapM f l = Ok m -> In y m -> exists x, In x l /\ f x = Ok y.
Proof.
  intros H. apply mapM_ok in H. induction H as [|x z l m Hx H IH]; simpl; [easy|].
  intros [<-|Hy]; [exists x; auto|]. destruct (IH Hy) as (x' & ? & ?). exists x'; auto.
Qed.

Lemma mapM_app {A B} (f : A -> res B) l l' m m' :
  mapM f l = Ok m -> mapM f l' = Ok m' -> mapM f (l ++ l') = Ok (m ++ m').
Proof. rewrite !mapM_ok. apply Forall2_app. Qed.

Lemma mapM_all_ok {A B} (f : A -> res B) l :
  (forall x, In x l -> exists y, f x = Ok y) -> exists m, mapM f l = Ok m.
Proof.
  induction l as [|x l IH]; intros H; simpl; [now eexists|].
  destruct (H x) as [y Hy]; [now left|]. rewrite Hy. simpl.
  destruct IH as [m Hm]; [intros; apply H; now right|]. rewrite Hm. simpl. now eexists.
Qed.

Lemma allM_ok {A} (f : A -> res bool) l b :
  allM f l = Ok b <-> exists bs, Forall2 (fun x y => f x = Ok y) l bs /\ b = forallb (fun b => b) bs.
Proof.
  unfold allM. rewrite rmap_ok. split.
  - intros (bs & H & <-). exists bs. now apply mapM_ok in H.
  - intros (bs & H & ->). exists bs. now apply mapM_ok in H.
Qed.

Lemma Forall2_nth {A B} (R : A -> B -> Prop) l m :
  Forall2 R l m <->
  length l = length m /\ (forall i x y, nth_error l i = Some x -> nth_error m i = Some y -> R x y).
Proof.
  split.
  - intros H. split; [now apply Forall2_len in H|].
    induction H as [|a b l m Hab H IH]; intros [|i] x y; simpl; try easy.
    + intros Hx Hy. congruence.
    + apply IH.
  - revert m. induction l as [|a l IH]; intros [|b m]; simpl; intros [Hl H]; try easy.
    constructor; [now apply (H 0)|]. apply IH. split; [lia|]. intros i. apply (H (S i)).
Qed.

Lemma enumerate_from_app {A} i (l m : list A) :
  enumerate_from i (l ++ m) = enumerate_from i l ++ enumerate_from (i + length l) m.
Proof.
  revert i. induction l as [|x l IH]; intros i; simpl.
  - now rewrite Nat.add_0_r.
  - now rewrite IH, <- plus_n_Sm.
Qed.
Lemma enumerate_from_nth {A} i (l : list A) k :
  nth_error (enumerate_from i l) k = option_map (fun x => (i + k, x)) (nth_error l k).
Proof.
  revert i k. induction l as [|x l IH]; intros i [|k]; simpl; try easy.
  - now rewrite Nat.add_0_r.
  - now rewrite IH, <- plus_n_Sm.
Qed.
Lemma enumerate_from_length {A} i (l : list A) : length (enumerate_from i l) = length l.
Proof. revert i. induction l; simpl; auto. Qed.
Lemma enumerate_from_snd {A} i (l : list A) : map snd (enumerate_from i l) = l.
Proof. revert i. induction l; simpl; intros; [easy|]. now rewrite IHl. Qed.
Lemma enumerate_from_fst {A} i (l : list A) : map fst (enumerate_from i l) = seq i (length l).
Proof. revert i. induction l; simpl; intros; [easy|]. now rewrite IHl. Qed.

(** Pairwise distinct keys (for every ordered pair, earlier against later). *)
Section Dict.
  Context {K V : Type} (eqb : K -> K -> bool).

  Lemma dict_set_fresh (d : list (K * V)) k v :
    (forall k' v', In (k', v') d -> eqb k' k = false) -> dict_set eqb d k v = d ++ [(k, v)].
  Proof.
    induction d as [|[k' v'] d IH]; simpl; intros H; [easy|].
    rewrite (H k' v') by auto. rewrite IH; [easy|]. intros; eapply H; eauto.
  Qed.

  Lemma dict_of_acc (l d : list (K * V)) :
    ForallOrdPairs (fun a b => eqb (fst a) (fst b) = false) (d ++ l) ->
    fold_left (fun d kv => dict_set eqb d (fst kv) (snd kv)) l d = d ++ l.
  Proof.
    revert d. induction l as [|[k v] l IH]; simpl; intros d H; [now rewrite app_nil_r|].
    rewrite dict_set_fresh.
    - rewrite IH; [|now rewrite <- app_assoc]. now rewrite <- app_assoc.
    - intros k' v' Hin. clear IH.
      induction d as [|e d IHd]; simpl in *; [easy|].
      inversion H as [|? ? Ha Hr]; subst. destruct Hin as [->|Hin].
      + rewrite Forall_forall in Ha. apply (Ha (k, v)). apply in_or_app. simpl; auto.
      + now apply IHd.
  Qed.

  Lemma dict_of_distinct (l : list (K * V)) :
    ForallOrdPairs (fun a b => eqb (fst a) (fst b) = false) l -> dict_of eqb l = l.
  Proof. intros H. unfold dict_of. now rewrite dict_of_acc. Qed.

  Lemma dict_get_in (d : list (K * V)) k v : dict_get eqb d k = Some v -> exists k', In (k', v) d /\ eqb k' k = true.
  Proof.
    induction d as [|[k' v'] d IH]; simpl; [easy|].
    destruct (eqb k' k) eqn:E.
    - intros H. injection H as ->. exists k'; auto.
    - intros H. destruct (IH H) as (k'' & ? & ?). exists k''; auto.
  Qed.

  Lemma dict_get_nth (d : list (K * V)) i k k' v :
    ForallOrdPairs (fun a b => eqb (fst a) (fst b) = false) d ->
    nth_error d i = Some (k, v) -> eqb k k' = true ->
    (forall k'', eqb k'' k' = true -> eqb k'' k = true) ->
    dict_get eqb d k' = Some v.
  Proof.
    revert i. induction d as [|[k0 v0] d IH]; intros [|i]; simpl; intros H Hn Hk Ht; try easy.
    - injection Hn as -> ->. now rewrite Hk.
    - inversion H as [|? ? Ha Hr]; subst.
      destruct (eqb k0 k') eqn:E.
      + apply Ht in E. rewrite Forall_forall in Ha.
        apply nth_error_In in Hn. specialize (Ha _ Hn). simpl in Ha. congruence.
      + eapply IH; eauto.
  Qed.

  Lemma dict_set_keys (d : list (K * V)) k v k' v' :
    In (k', v') (dict_set eqb d k v) -> (In k' (map fst d) \/ k' = k) /\ (In (k', v') d \/ v' = v).
  Proof.
    induction d as [|[k0 v0] d IH]; simpl.
    - intros [H|[]]. injection H as <- <-. auto.
    - destruct (eqb k0 k) eqn:E; simpl.
      + intros [H|H]; [injection H as <- <-; auto|]. split; [|auto].
        left. right. change k' with (fst (k', v')). now apply in_map.
      + intros [H|H]; [injection H as <- <-; auto|]. destruct (IH H) as [[?|?] [?|?]]; auto.
  Qed.

  Lemma dict_of_keys (l : list (K * V)) k v :
    In (k, v) (dict_of eqb l) -> In k (map fst l) /\ In v (map snd l).
  Proof.
    unfold dict_of. assert (G : forall d, In (k, v) (fold_left (fun d kv => dict_set eqb d (fst kv) (snd kv)) l d) ->
      (In k (map fst l) \/ In k (map fst d)) /\ (In v (map snd l) \/ In v (map snd d))).
    { induction l as [|[k0 v0] l IH]; simpl; intros d H.
      - split; right; [change k with (fst (k, v))|change v with (snd (k, v))]; now apply in_map.
      - destruct (IH _ H) as [Hk Hv]. split.
        + destruct Hk as [Hk|Hk]; [auto|]. apply in_map_iff in Hk as ([k1 v1] & <- & Hk).
          apply dict_set_keys in Hk as [[?|?] _]; auto.
        + destruct Hv as [Hv|Hv]; [auto|]. apply in_map_iff in Hv as ([k1 v1] & <- & Hv).
          apply dict_set_keys in Hv as [_ [?|?]]; auto.
          right. simpl. change v1 with (snd (k1, v1)). now apply in_map. }
    intros H. destruct (G _ H) as [[?|[]] [?|[]]]; auto.
  Qed.
End Dict.
