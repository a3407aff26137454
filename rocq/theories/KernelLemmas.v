(** Derivatives of kernels. *)
From Coq Require Import List ZArith Bool Reals Lra Lia.
From Coquelicot Require Import Coquelicot.
From Verif Require Import Base Kernels AcqSpec GaussLemmas AcqLemmas.
Import ListNotations.
Open Scope R_scope.
Open Scope list_scope.

(** ** Lists *)
Lemma zip_len {A B C} (f : A -> B -> C) l l' : length l = length l' -> length (zip f l l') = length l.
Proof. intro H. unfold zip. rewrite map_length, combine_length. lia. Qed.
Lemma zip_nth {A B C} (f : A -> B -> C) : forall l l' i a b, nth_error l i = Some a -> nth_error l' i = Some b ->
  nth_error (zip f l l') i = Some (f a b).
Proof.
  unfold zip. induction l as [|x l IH]; intros [|y l'] [|i] a b Ha Hb; try discriminate; cbn in *.
  - now injection Ha as <-; injection Hb as <-.
  - now apply IH.
Qed.
Lemma zip_nth_inv {A B C} (f : A -> B -> C) : forall l l' i v, nth_error (zip f l l') i = Some v ->
  exists a b, nth_error l i = Some a /\ nth_error l' i = Some b /\ v = f a b.
Proof.
  unfold zip. induction l as [|x l IH]; intros [|y l'] [|i] v H; try discriminate; cbn in *.
  - injection H as <-. eauto.
  - now apply IH.
Qed.
Lemma map_nth_inv {A B} (f : A -> B) : forall l i v, nth_error (map f l) i = Some v -> exists a, nth_error l i = Some a /\ v = f a.
Proof.
  induction l as [|x l IH]; intros [|i] v H; try discriminate; cbn in *; [injection H as <-; eauto|now apply IH].
Qed.
Lemma nth_lt {A} (l l' : list A) i a : nth_error l i = Some a -> length l = length l' -> exists b, nth_error l' i = Some b.
Proof.
  intros H L. destruct (nth_error l' i) as [b|] eqn:E; [eauto|]. apply nth_error_None in E.
  assert (i < length l)%nat by (apply nth_error_Some; congruence). lia.
Qed.
Lemma put_len : forall x i u, length (put x i u) = length x.
Proof. induction x as [|a x IH]; intros [|i] u; cbn; congruence. Qed.
Lemma put_same : forall x i a, nth_error x i = Some a -> put x i a = x.
Proof. induction x as [|b x IH]; intros [|i] a H; try discriminate; cbn in *; [now injection H as ->|now rewrite IH]. Qed.

Lemma sqr_nonneg x : 0 <= sqr x. Proof. unfold sqr. nra. Qed.
Lemma sq_norm_nonneg v : 0 <= sq_norm v.
Proof. unfold sq_norm. induction v as [|a v IH]; cbn; [lra|]. pose proof (sqr_nonneg a). fold (sum (map sqr v)). lra. Qed.
Lemma norm_nonneg v : 0 <= norm v. Proof. unfold norm. apply sqrt_pos. Qed.
Lemma sqr_norm v : sqr (norm v) = sq_norm v.
Proof. unfold sqr, norm. apply sqrt_sqrt, sq_norm_nonneg. Qed.
Lemma sq_norm_0 v : sq_norm v = 0 -> List.Forall (fun a => a = 0) v.
Proof.
  induction v as [|a v IH]; intro H; constructor; unfold sq_norm in *; cbn in H; fold (sum (map sqr v)) in H;
    pose proof (sqr_nonneg a); pose proof (sq_norm_nonneg v) as N; unfold sq_norm in N.
  - assert (E : sqr a = 0) by lra. unfold sqr in E. nra.
  - apply IH. lra.
Qed.
Lemma norm_0 v : norm v = 0 -> List.Forall (fun a => a = 0) v.
Proof. intro H. apply sq_norm_0. rewrite <- sqr_norm, H. unfold sqr. ring. Qed.

(** ** A function of the distance *)
Definition scaled (x t ls : list R) : list R := zip Rdiv (zip Rminus x t) ls.

Lemma coordinate : forall x t ls i a b l, length x = length t -> length x = length ls ->
  nth_error x i = Some a -> nth_error t i = Some b -> nth_error ls i = Some l ->
  exists c, 0 <= c /\ forall u, sq_norm (scaled (put x i u) t ls) = c + sqr ((u - b) / l).
Proof.
  induction x as [|x0 x IH]; intros [|t0 t] [|l0 ls] [|i] a b l L1 L2 Ha Hb Hl; try discriminate; cbn in L1, L2, Ha, Hb, Hl.
  - injection Ha as <-. injection Hb as <-. injection Hl as <-.
    exists (sq_norm (scaled x t ls)). split; [apply sq_norm_nonneg|]. intro u.
    change (sq_norm (scaled (put (x0 :: x) 0 u) (t0 :: t) (l0 :: ls))) with (sqr ((u - t0) / l0) + sq_norm (scaled x t ls)). ring.
  - destruct (IH t ls i a b l) as (c & Hc & E); auto. exists (c + sqr ((x0 - t0) / l0)).
    pose proof (sqr_nonneg ((x0 - t0) / l0)). split; [lra|]. intro u.
    change (sq_norm (scaled (put (x0 :: x) (S i) u) (t0 :: t) (l0 :: ls))) with (sqr ((x0 - t0) / l0) + sq_norm (scaled (put x i u) t ls)).
    rewrite E. ring.
Qed.

Lemma derive_abs (h : R -> R) : is_derive h 0 0 -> is_derive (fun v => h (Rabs v)) 0 0.
Proof.
  intro H. apply is_derive_Reals in H. apply is_derive_Reals. intros eps He. destruct (H eps He) as [delta Hd].
  exists delta. intros k Hk Hlt. specialize (Hd (Rabs k)). rewrite Rabs_R0, !Rplus_0_l in *.
  assert (K : Rabs k <> 0) by now apply Rabs_no_R0.
  specialize (Hd K). rewrite Rabs_Rabsolu in Hd. specialize (Hd Hlt).
  rewrite Rminus_0_r in *. unfold Rdiv in *. rewrite Rabs_mult in *. rewrite Rabs_inv in *. now rewrite Rabs_Rabsolu in Hd.
Qed.
Definition radial_d (r h' v l : R) : R := if Req_EM_T r 0 then 0 else h' / r * (v / l).
Lemma radial (h : R -> R) (h' c b l a : R) : 0 <= c -> l <> 0 ->
  let r := sqrt (c + sqr ((a - b) / l)) in
  is_derive h r h' -> (r = 0 -> h' = 0) ->
  is_derive (fun u => h (sqrt (c + sqr ((u - b) / l)))) a (radial_d r h' ((a - b) / l) l).
Proof.
  intros Hc Hl r Hh H0. pose proof (sqr_nonneg ((a - b) / l)) as Hq. unfold radial_d. destruct (Req_EM_T r 0) as [Er|Er].
  - assert (Z : c + sqr ((a - b) / l) = 0).
    { assert (Q : r * r = c + sqr ((a - b) / l)) by (apply sqrt_sqrt; lra). rewrite Er in Q. lra. }
    assert (c = 0) by lra. subst c. assert (Q : sqr ((a - b) / l) = 0) by lra.
    assert (Q' : (a - b) / l = 0) by (unfold sqr in Q; nra).
    apply d_ext with (fun u => h (Rabs ((u - b) / l))).
    { intro u. rewrite Rplus_0_l. unfold sqr. now rewrite <- sqrt_Rsqr_abs. }
    rewrite (H0 Er) in Hh. rewrite Er in Hh. pose proof (derive_abs h Hh) as D.
    assert (Dl : is_derive (fun u => (u - b) / l) a (/ l)) by (auto_derive; [exact I|field; exact Hl]).
    eapply d_eq; [apply (is_derive_comp (fun v => h (Rabs v)) (fun u => (u - b) / l) a 0 (/ l)); [|exact Dl]|].
    + rewrite Q'. exact D.
    + exact (Rmult_0_r (/ l)).
  - assert (P : 0 < c + sqr ((a - b) / l)).
    { destruct (Rle_lt_or_eq_dec 0 (c + sqr ((a - b) / l))) as [P|P]; [lra|exact P|]. exfalso. apply Er. unfold r. rewrite <- P. apply sqrt_0. }
    assert (Ds : is_derive (fun u => c + sqr ((u - b) / l)) a (2 * ((a - b) / l) / l)).
    { unfold sqr. auto_derive; [exact I|]. field. exact Hl. }
    eapply d_eq; [apply (is_derive_comp h (fun u => sqrt (c + sqr ((u - b) / l))) a h' ((2 * ((a - b) / l) / l) / (2 * r))); [exact Hh|]|].
    + exact (is_derive_sqrt _ _ _ Ds P).
    + change (2 * ((a - b) / l) / l / (2 * r) * h' = h' / r * ((a - b) / l / l)). field. split; [exact Hl|exact Er].
Qed.

Lemma radial_gradient (h : R -> R) (h' : R) x t ls g :
  length x = length t -> length x = length ls -> List.Forall (fun l => l <> 0) ls ->
  let r := norm (scaled x t ls) in
  is_derive h r h' -> (r = 0 -> h' = 0) -> length g = length x ->
  (forall i v l d, nth_error (scaled x t ls) i = Some v -> nth_error ls i = Some l -> nth_error g i = Some d ->
     d = radial_d r h' v l) ->
  gradient (fun x => h (norm (scaled x t ls))) x g.
Proof.
  intros L1 L2 Hl r Hh H0 Lg E. split; [exact Lg|]. intros i a d Ha Hd.
  destruct (nth_lt x t i a Ha L1) as [b Hb]. destruct (nth_lt x ls i a Ha L2) as [l Hi].
  destruct (coordinate x t ls i a b l L1 L2 Ha Hb Hi) as (c & Hc & S).
  assert (Nl : l <> 0) by (rewrite List.Forall_forall in Hl; apply Hl; now apply nth_error_In in Hi).
  assert (Er : r = sqrt (c + sqr ((a - b) / l))) by (unfold r, norm; rewrite <- (S a), (put_same x i a Ha); reflexivity).
  rewrite (E i ((a - b) / l) l d); [| |exact Hi|exact Hd].
  2:{ unfold scaled. apply zip_nth; [now apply zip_nth|exact Hi]. }
  apply d_ext with (fun u => h (sqrt (c + sqr ((u - b) / l)))).
  { intro u. unfold norm. now rewrite S. }
  rewrite Er in Hh, H0 |- *. now apply radial.
Qed.
