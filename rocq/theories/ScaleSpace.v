(** A space and the same in other units. *)
From Coq Require Import String List ZArith Bool Reals Lra Lia.
From Verif Require Import Base BaseLemmas Num NumLaws Values Transformers Dimension Space SpaceSpec Optimizer OptSpec ScaleSpec ScaleDim.
Import ListNotations.
Open Scope R_scope.
Open Scope list_scope.
Set Implicit Arguments.

Fixpoint conv_cols (fs : list (val -> val)) (cols : list (list val)) : list (list val) :=
  match fs, cols with f :: fs', c :: cs => map f c :: conv_cols fs' cs | _, _ => cols end.
Fixpoint keptc (ds ds' : list (dim R)) (fs : list (val -> val)) (cols : list (list val)) : Prop :=
  match ds, ds', fs, cols with d :: ds, d' :: ds', f :: fs, c :: cols => Forall (kept d d' f) c /\ keptc ds ds' fs cols | _, _, _, _ => True end.
Lemma conv_length : forall fs p, length (conv_from fs p) = length p.
Proof. induction fs as [|f fs IH]; intros [|v p]; cbn; auto. Qed.
Lemma nth_skip {A} : forall k (l : list A), nth_error l k = nth_error (skipn k l) 0.
Proof. induction k as [|k IH]; intros [|x l]; auto. cbn. apply IH. Qed.
Lemma skip_S {A} : forall k (l : list A), skipn (S k) l = tl (skipn k l).
Proof. induction k as [|k IH]; intros [|x l]; auto. cbn [skipn] in *. apply IH. Qed.
Lemma rmap_map {A B C} (f : A -> B) (g : B -> C) (r : res A) : rmap g (rmap f r) = rmap (fun x => g (f x)) r.
Proof. now destruct r. Qed.
Lemma mapM_rmap' {A B C} (f : A -> res B) (h : B -> C) l : mapM (fun x => rmap h (f x)) l = rmap (map h) (mapM f l).
Proof. induction l as [|x l IH]; [reflexivity|]. cbn. rewrite IH. destruct (f x); [|reflexivity]. cbn. now destruct (mapM f l). Qed.

Lemma spaces_length ds ds' fs : spaces ds ds' fs -> length ds' = length ds /\ length fs = length ds.
  Proof. unfold spaces. induction 1 as [|d d' f l l' m _ _ IH]; [auto|]. destruct IH as [I1 I2]; cbn [length]; split; congruence. Qed.
Lemma scale_contains ds ds' fs : spaces ds ds' fs -> forall p, space_contains Rops ds' (conv_from fs p) = space_contains Rops ds p.
  Proof.
    unfold spaces. induction 1 as [|d d' f l l' m Hd _ IH]; intros [|v p]; try reflexivity. cbn [conv_from space_contains]. rewrite (rescaled_contains v Hd).
    destruct (contains Rops d v) as [[|]|]; cbn [bind]; auto.
  Qed.
Lemma scale_check ds ds' fs x : spaces ds ds' fs -> check_x_in_space Rops (conv_x fs x) ds' = check_x_in_space Rops x ds.
  Proof. intros Sp.
    destruct (spaces_length Sp) as [E _]. destruct x as [p|ps]; cbn [conv_x check_x_in_space]; change (conv fs) with (conv_from fs).
    - rewrite (scale_contains Sp), conv_length, E. reflexivity.
    - assert (A : allM (space_contains Rops ds') (map (conv_from fs) ps) = allM (space_contains Rops ds) ps).
      { unfold allM. rewrite mapM_map. f_equal. apply mapM_ext. intros p _. apply (scale_contains Sp). }
      rewrite A. destruct (allM _ ps) as [b|]; [|reflexivity]. cbn [bind]. destruct (negb b); [reflexivity|].
      assert (B : existsb (fun p => negb (Nat.eqb (length p) (length ds'))) (map (conv_from fs) ps) = existsb (fun p => negb (Nat.eqb (length p) (length ds))) ps).
      { rewrite E. clear. induction ps as [|p ps IH]; [reflexivity|]. cbn. now rewrite IH, conv_length. }
      rewrite B. reflexivity.
  Qed.
Lemma contained_kept ds ds' fs : spaces ds ds' fs -> forall p, space_contains Rops ds p = Ok true -> keptp ds ds' fs p.
  Proof.
    unfold spaces. induction 1 as [|d d' f l l' m Hd _ IH]; intros [|v p] H; try exact I. cbn in *. destruct (contains Rops d v) as [[|]|] eqn:E; cbn [bind] in H; try discriminate.
    split; [now right|now apply IH].
  Qed.
Lemma scale_distance ds ds' fs : spaces ds ds' fs -> forall p q acc acc', rmap (fun _ => tt) (distance_from Rops acc' ds' (conv_from fs p) (conv_from fs q)) = rmap (fun _ => tt) (distance_from Rops acc ds p q).
  Proof.
    unfold spaces. induction 1 as [|d d' f l l' m Hd _ IH]; intros [|v p] [|w q] acc acc'; try reflexivity.
    cbn [conv_from distance_from]. pose proof (rescaled_distance v w Hd) as E.
    destruct (dim_distance Rops d' (f v) (f w)) as [x'|], (dim_distance Rops d v w) as [x|]; cbn in E; try discriminate; cbn [bind]; [apply IH|]. injection E as ->. reflexivity.
  Qed.

Lemma scale_shape ds ds' fs : spaces ds ds' fs -> Forall3 normal ds ds' fs -> space_tbounds Rops ds' = space_tbounds Rops ds /\ is_categorical ds' = is_categorical ds.
  Proof.
    unfold spaces. induction 1 as [|d d' f l l' m Hd _ IH]; intro Hn; [auto|]. inversion Hn; subst. destruct (rescaled_shape Hd) as (_ & B & C & _); [assumption|]. destruct IH as [I1 I2]; [assumption|].
    unfold space_tbounds, is_categorical in *. cbn. now rewrite B, C, I1, I2.
  Qed.
Definition nth_at (j : nat) (x : point R) : res val := match nth_error x j with Some v => Ok v | None => Raise IndexError end.
Lemma scale_cols ds ds' fs (c : point R -> point R) (X : list (point R)) : spaces ds ds' fs -> Forall3 normal ds ds' fs -> forall k,
    Forall (fun p => skipn k (c p) = conv_from fs (skipn k p) /\ keptp ds ds' fs (skipn k p)) X ->
    match mapM (fun j => mapM (nth_at j) X) (seq k (length ds)), mapM (fun j => mapM (nth_at j) (map c X)) (seq k (length ds)) with
    | Ok cs, Ok cs' => mapM (fun dc => dim_transform Rops (fst dc) (snd dc)) (combine ds' cs') = mapM (fun dc => dim_transform Rops (fst dc) (snd dc)) (combine ds cs)
    | Raise e, Raise e' => e = e' | _, _ => False end.
  Proof.
    unfold spaces. induction 1 as [|d d' f l l' m Hd _ IH]; intro Hn; intros k F; [reflexivity|]. inversion Hn as [|? ? ? ? ? ? Hn1 Hn2]; subst. cbn [length seq mapM].
    assert (H0 : mapM (nth_at k) (map c X) = rmap (map f) (mapM (nth_at k) X) /\ forall col, mapM (nth_at k) X = Ok col -> Forall (kept d d' f) col).
    { clear -F. induction F as [|p X [E K] _ [IH1 IH2]]; [split; [reflexivity|intros col [= <-]; constructor]|]. cbn [map mapM]. unfold nth_at at 1 3. rewrite (nth_skip k (c p)), E, (nth_skip k p).
      assert (Q : nth_at k p = match nth_error (skipn k p) 0 with Some v => Ok v | None => Raise IndexError end) by (unfold nth_at; now rewrite (nth_skip k p)).
      rewrite Q. destruct (skipn k p) as [|v t]; cbn [conv_from nth_error]; [split; [reflexivity|discriminate]|]. cbn [bind]. rewrite IH1. destruct (mapM (nth_at k) X) as [col|]; [|split; [reflexivity|discriminate]]. cbn.
      split; [reflexivity|]. intros col' [= <-]. constructor; [apply K|now apply IH2]. }
    destruct H0 as [H0 H1]. rewrite H0. destruct (mapM (nth_at k) X) as [col|]; [|reflexivity]. cbn [rmap bind]. specialize (H1 _ eq_refl).
    specialize (IH Hn2 (S k)). assert (F' : Forall (fun p => skipn (S k) (c p) = conv_from m (skipn (S k) p) /\ keptp l l' m (skipn (S k) p)) X).
    { eapply Forall_impl; [|exact F]. cbn beta. intros p [E K]. rewrite !skip_S, E. destruct (skipn k p) as [|v t]; cbn [conv_from tl]; [split; [now destruct m|now destruct l, l', m]|]. split; [reflexivity|apply K]. }
    specialize (IH F'). destruct (mapM _ (seq (S k) (length l))) as [cs|], (mapM _ (seq (S k) (length l))) as [cs'|]; cbn [bind]; try contradiction; [|exact IH].
    cbn [combine mapM fst snd]. rewrite (rescaled_transform Hd Hn1 H1). destruct (dim_transform Rops d col); [|reflexivity]. cbn [bind]. now rewrite IH.
  Qed.
Lemma scale_transform ds ds' fs X : spaces ds ds' fs -> Forall3 normal ds ds' fs -> Forall (keptp ds ds' fs) X -> space_transform Rops ds' (map (conv fs) X) = space_transform Rops ds X.
  Proof. intros Sp Hn.
    intro F. unfold space_transform, pack. destruct (spaces_length Sp) as [-> _]. pose proof (@scale_cols ds ds' fs (conv fs) X Sp Hn 0%nat) as H. cbn [skipn] in H.
    assert (F' : Forall (fun p => conv fs p = conv_from fs p /\ keptp ds ds' fs p) X) by (eapply Forall_impl; [|exact F]; cbn; auto). specialize (H F').
    change (fun x : point R => match nth_error x ?j with Some v => Ok v | None => Raise IndexError end) with (nth_at j) in *. fold nth_at in *.
    match goal with |- bind ?a _ = bind ?b _ => change a with (mapM (fun j => mapM (nth_at j) (map (conv fs) X)) (seq 0 (length ds))); change b with (mapM (fun j => mapM (nth_at j) X) (seq 0 (length ds))) end.
    destruct (mapM (fun j => mapM (nth_at j) X) _) as [cs|], (mapM (fun j => mapM (nth_at j) (map (conv fs) X)) _) as [cs'|]; try contradiction; [|cbn; congruence]. cbn [bind]. rewrite H, map_length. reflexivity.
  Qed.
Lemma scale_columns ds ds' fs Xt : spaces ds ds' fs -> Forall3 normal ds ds' fs -> forall start, inverse_columns Rops ds' start Xt = rmap (conv_cols fs) (inverse_columns Rops ds start Xt) /\
    forall cols, inverse_columns Rops ds start Xt = Ok cols -> keptc ds ds' fs cols.
  Proof.
    unfold spaces. induction 1 as [|d d' f l l' m Hd _ IH]; intro Hn; intro start; [split; [reflexivity|intros cols _; exact I]|]. inversion Hn as [|? ? ? ? ? ? Hn1 Hn2]; subst.
    cbn [inverse_columns]. destruct (rescaled_shape Hd Hn1) as (-> & _).
    set (c' := if Nat.eqb (tsize d) 1 then _ else dim_inverse Rops d' _). set (c := if Nat.eqb (tsize d) 1 then _ else dim_inverse Rops d _).
    assert (Hc : c' = rmap (map f) c /\ forall col, c = Ok col -> Forall (kept d d' f) col).
    { unfold c, c'. destruct (Nat.eqb (tsize d) 1); [|apply rescaled_inverse; assumption]. destruct (column start Xt) as [q|]; [|split; [reflexivity|discriminate]]. cbn [bind]. now apply rescaled_inverse. }
    destruct Hc as [-> Hc]. destruct c as [col|]; [|split; [reflexivity|discriminate]]. cbn [rmap bind]. destruct (IH Hn2 (start + tsize d)%nat) as [-> Hk].
    destruct (inverse_columns Rops l (start + tsize d) Xt) as [cs|]; [|split; [reflexivity|discriminate]]. cbn. split; [reflexivity|]. intros cols [= <-]. cbn. split; auto.
  Qed.
Lemma scale_row ds ds' fs : spaces ds ds' fs -> forall cols i, keptc ds ds' fs cols -> mapM (fun col => match nth_error col i with Some v => Ok v | None => Raise IndexError end) (conv_cols fs cols) =
    rmap (conv fs) (mapM (fun col : list val => match nth_error col i with Some v => Ok v | None => Raise IndexError end) cols) /\
    forall p, mapM (fun col : list val => match nth_error col i with Some v => Ok v | None => Raise IndexError end) cols = Ok p -> keptp ds ds' fs p.
  Proof.
    unfold spaces. unfold conv. induction 1 as [|d d' f l l' m Hd _ IH]; intros [|c cols] i K.
    - split; [reflexivity|intros p _; exact I].
    - cbn [conv_cols mapM conv_from]. split; [|intros; exact I]. destruct (nth_error c i); [|reflexivity]. cbn. now destruct (mapM _ cols).
    - split; [reflexivity|intros p [= <-]; exact I].
    - cbn [conv_cols mapM]. rewrite nth_error_map. destruct K as [Kc K]. destruct (nth_error c i) as [v|] eqn:E; [|split; [reflexivity|discriminate]]. cbn [option_map bind].
      destruct (IH cols i K) as [-> H2]. destruct (mapM _ cols) as [p|]; [|split; [reflexivity|discriminate]]. cbn. split; [reflexivity|]. intros q [= <-]. cbn. split; [|now apply H2].
      rewrite Forall_forall in Kc. apply Kc. eapply nth_error_In. exact E.
  Qed.
Lemma scale_transpose ds ds' fs cols : spaces ds ds' fs -> Forall3 normal ds ds' fs -> keptc ds ds' fs cols -> length cols = length ds -> transpose (conv_cols fs cols) = rmap (map (conv fs)) (transpose cols) /\ forall P, transpose cols = Ok P -> Forall (keptp ds ds' fs) P.
  Proof. intros Sp Hn.
    intros K L. destruct cols as [|c cols].
    { destruct fs; (split; [reflexivity|discriminate]). }
    assert (E : exists c' cs', conv_cols fs (c :: cols) = c' :: cs' /\ length c' = length c).
    { destruct fs as [|f m]; cbn; do 2 eexists; (split; [reflexivity|]); [reflexivity|apply map_length]. }
    destruct E as (c' & cs' & E & Lc). unfold transpose. rewrite E, Lc, <- E. split.
    - rewrite <- mapM_rmap'. apply mapM_ext. intros i _. now apply (scale_row Sp).
    - intros P H. apply Forall_forall. intros p Hp. destruct (mapM_in _ _ _ H Hp) as (i & _ & Hi). now apply (proj2 (scale_row Sp (c :: cols) i K)).
  Qed.
Lemma columns_length Xt : forall l start cols, inverse_columns Rops l start Xt = Ok cols -> length cols = length l.
  Proof.
    induction l as [|d l IH]; intros start cols; cbn [inverse_columns]; [intros [= <-]; reflexivity|]. destruct (if Nat.eqb _ _ then _ else _); [|discriminate]. cbn [bind].
    destruct (inverse_columns Rops l _ Xt) eqn:E; [|discriminate]. intros [= <-]. cbn. now rewrite (IH _ _ E).
  Qed.
Lemma scale_inverse ds ds' fs Xt : spaces ds ds' fs -> Forall3 normal ds ds' fs -> space_inverse Rops ds' Xt = rmap (map (conv fs)) (space_inverse Rops ds Xt) /\ forall P, space_inverse Rops ds Xt = Ok P -> Forall (keptp ds ds' fs) P.
  Proof. intros Sp Hn.
    unfold space_inverse. destruct (scale_columns Xt Sp Hn 0) as [-> K]. destruct (inverse_columns Rops ds 0 Xt) as [cols|] eqn:E; [|split; [reflexivity|discriminate]]. cbn [rmap bind].
    apply (@scale_transpose ds ds' fs cols Sp Hn); [now apply K|exact (columns_length _ _ _ E)].
  Qed.
Lemma scale_rvs ds ds' fs RNG (G : rng_ops R RNG) n g : spaces ds ds' fs -> Forall3 normal ds ds' fs -> space_rvs Rops G ds' n g = (let '(P, g') := space_rvs Rops G ds n g in (rmap (map (conv fs)) P, g')) /\
    forall P g', space_rvs Rops G ds n g = (Ok P, g') -> Forall (keptp ds ds' fs) P.
  Proof. intros Sp Hn.
    assert (C : forall g, rvs_columns Rops G ds' n g = (let '(P, g') := rvs_columns Rops G ds n g in (rmap (conv_cols fs) P, g')) /\
      forall cols g', rvs_columns Rops G ds n g = (Ok cols, g') -> keptc ds ds' fs cols /\ length cols = length ds).
    { clear g. revert Sp Hn. unfold spaces. induction 1 as [|d d' f l l' m Hd _ IH]; intro Hn; intro g; [split; [reflexivity|intros cols g' [= <- <-]; split; [exact I|reflexivity]]|]. inversion Hn as [|? ? ? ? ? ? Hn1 Hn2]; subst.
      cbn [rvs_columns]. destruct (rescaled_rvs G n g Hd Hn1) as [-> Hk]. destruct (dim_rvs Rops G d n g) as [[c|e] g1]; [|split; [reflexivity|discriminate]]. cbn [rmap].
      destruct (IH Hn2 g1) as [-> Hi]. destruct (rvs_columns Rops G l n g1) as [[cs|e] g2]; [|split; [reflexivity|discriminate]]. cbn. split; [reflexivity|].
      intros cols g' [= <- <-]. destruct (Hi cs g2 eq_refl) as [K L]. cbn. split; [split; [exact (Hk c g1 eq_refl)|exact K]|lia]. }
    unfold space_rvs. destruct (C g) as [-> K]. destruct (rvs_columns Rops G ds n g) as [[cols|e] g']; [|split; [reflexivity|discriminate]]. cbn [rmap bind].
    destruct (K cols g' eq_refl) as [Kc L]. destruct (@scale_transpose ds ds' fs cols Sp Hn Kc L) as [-> H]. split; [reflexivity|]. intros P g1 [= E _]. now apply H.
  Qed.
Lemma scale_kinds ds ds' fs : spaces ds ds' fs -> match set_kinds_all KNormalize ds, set_kinds_all KNormalize ds' with
    Ok es, Ok es' => spaces es es' fs /\ Forall3 normal es es' fs | _, _ => False end.
Proof.
  unfold spaces, set_kinds_all. induction 1 as [|d d' f l l' m Hd _ IH]; [split; constructor|]. cbn [mapM]. pose proof (rescaled_kind Hd) as H.
  destruct (set_kind KNormalize d), (set_kind KNormalize d'); try contradiction. cbn [bind]. destruct (mapM _ l), (mapM _ l'); try contradiction. destruct H, IH. split; constructor; auto.
Qed.
