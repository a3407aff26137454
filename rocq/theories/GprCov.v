(** Kernel matrices and predicted covariances are covariance matrices. *)
From Coq Require Import List ZArith Bool Reals Lra Lia.
From Verif Require Import Base BaseLemmas Kernels KernelPsdSpec Gpr GprSpec GprLemmas GprProps GprPosterior Psd PsdSchur KernelPsd.
Import ListNotations.
Open Scope R_scope.
Open Scope list_scope.

Ltac ln := unfold vec, mat in *; lia.
(** ** Matrices as lists and by entries *)
Lemma dot_sm a b n : length a = n -> length b = n -> dot a b = sm n (fun i => nth i a 0 * nth i b 0).
Proof. exact (sum_zip Rmult a b n). Qed.
Lemma quad_sm K c n : length K = n -> Forall (fun r => length r = n) K -> length c = n -> dot c (map (dot c) K) = qf n (entry K) (fun i => nth i c 0).
Proof.
  intros LK FK Lc. rewrite (dot_sm c _ n Lc) by now rewrite map_length. unfold qf. apply sm_ext. intros i Hi.
  rewrite (nth_map (dot c) K []) by ln. rewrite Forall_forall in FK. rewrite (dot_sm c _ n Lc) by (apply FK; apply nth_In; ln).
  rewrite <- sm_scal. apply sm_ext. intros j _. unfold entry, vec, mat. ring.
Qed.
Lemma entry_out K n i j : length K = n -> Forall (fun r => length r = n) K -> (n <= i \/ n <= j)%nat -> entry K i j = 0.
Proof.
  intros LK FK H. unfold entry. destruct (Nat.lt_ge_cases i n) as [Hi|Hi].
  - apply nth_overflow. rewrite Forall_forall in FK. rewrite FK by (apply nth_In; ln). ln.
  - rewrite (nth_overflow K) by ln. now destruct j.
Qed.
Lemma psd_covariance K n : length K = n -> Forall (fun r => length r = n) K -> psd n (entry K) -> covariance K.
Proof.
  intros LK FK [S P]. split; [now rewrite LK|]. split.
  - intros i j. destruct (Nat.lt_ge_cases i n) as [Hi|Hi], (Nat.lt_ge_cases j n) as [Hj|Hj]; [now apply S| | |]; rewrite !(entry_out K n) by (auto; lia); reflexivity.
  - intros c Lc. rewrite LK in Lc. rewrite (quad_sm K c n) by assumption. apply P.
Qed.
Lemma Forall2_length' {A B} (Q : A -> B -> Prop) l m : Forall2 Q l m -> length m = length l.
Proof. induction 1; cbn; lia. Qed.
Lemma nth_err {A} (l : list A) d i : (i < length l)%nat -> nth_error l i = Some (nth i l d).
Proof. intro H. now apply nth_error_nth'. Qed.

Lemma train_entries k alpha X K : train_matrix k alpha X = Ok K -> length K = length X /\ Forall (fun r => length r = length X) K /\
  forall i j, (i < length X)%nat -> (j < length X)%nat -> exists v, ktrain k (Nat.eqb i j) (nth i X []) (nth j X []) = Ok v /\ entry K i j = v + (if Nat.eqb i j then alpha else 0).
Proof.
  intro H. unfold train_matrix in H. pose proof (@mapM_length _ _ _ _ _ H) as LK. unfold enumerate in LK. rewrite enumerate_from_length in LK.
  apply mapM_ok in H.
  assert (En : forall i, (i < length X)%nat -> nth_error (enumerate X) i = Some (i, nth i X [])).
  { intros i Hi. unfold enumerate. rewrite enumerate_from_nth, (nth_err X [] i Hi). reflexivity. }
  assert (Row : forall i, (i < length X)%nat -> length (nth i K []) = length X /\ forall j, (j < length X)%nat -> exists v, ktrain k (Nat.eqb i j) (nth i X []) (nth j X []) = Ok v /\ entry K i j = v + (if Nat.eqb i j then alpha else 0)).
  { intros i Hi. destruct (Forall2_nth_ok _ _ _ H _ _ (En i Hi)) as (r & Hr & F). cbn [fst snd] in F. pose proof (nth_error_nth _ _ [] Hr) as Er.
    rewrite Er. unfold entry. rewrite Er. pose proof (@mapM_length _ _ _ _ _ F) as Lr. unfold enumerate in Lr. rewrite enumerate_from_length in Lr. split; [exact Lr|].
    intros j Hj. apply mapM_ok in F. destruct (Forall2_nth_ok _ _ _ F _ _ (En j Hj)) as (a & Ha & Fa). cbn [fst snd] in Fa.
    destruct (ktrain k (Nat.eqb i j) (nth i X []) (nth j X [])) as [v|] eqn:E; [|discriminate]. cbn [bind] in Fa. exists v. split; [reflexivity|].
    rewrite (nth_error_nth _ _ _ Ha). destruct (Nat.eqb i j); injection Fa as <-; ring. }
  split; [exact LK|]. split.
  - rewrite Forall_forall. intros r Hr. apply (In_nth _ _ []) in Hr. destruct Hr as (i & Hi & <-). apply Row. now rewrite <- LK.
  - intros i j Hi Hj. now apply Row.
Qed.
Lemma train_total k alpha X (M : mx) : (forall i j, (i < length X)%nat -> (j < length X)%nat -> ktrain k (Nat.eqb i j) (nth i X []) (nth j X []) = Ok (M i j)) ->
  exists K, train_matrix k alpha X = Ok K.
Proof.
  intro H. unfold train_matrix. apply mapM_total. apply Forall_forall. intros [i x] Hix. apply mapM_total. apply Forall_forall. intros [j t] Hjt. cbn [fst snd].
  assert (En : forall i x, In (i, x) (enumerate X) -> (i < length X)%nat /\ nth i X [] = x).
  { clear. intros i x Hi. apply In_nth_error in Hi. destruct Hi as [m Hm]. unfold enumerate in Hm. rewrite enumerate_from_nth in Hm.
    destruct (nth_error X m) as [y|] eqn:E; [|discriminate]. cbn in Hm. injection Hm as <- <-. split; [apply nth_error_Some; congruence|now apply nth_error_nth]. }
  destruct (En i x Hix) as [Li Ei]. destruct (En j t Hjt) as [Lj Ej]. specialize (H i j Li Lj). rewrite Ei, Ej in H. rewrite H. cbn [bind]. eauto.
Qed.

(** ** Kernel matrices *)
Lemma sm_pos n f : (forall i, (i < n)%nat -> 0 <= f i) -> (exists i, (i < n)%nat /\ 0 < f i) -> 0 < sm n f.
Proof.
  induction n as [|n IH]; intros H (i & Hi & P); [lia|]. cbn [sm]. destruct (Nat.eq_dec i n) as [->|].
  - pose proof (sm_nonneg n f ltac:(intros; apply H; lia)). lra.
  - pose proof (IH ltac:(intros; apply H; lia) ltac:(exists i; split; [lia|exact P])). specialize (H n ltac:(lia)). lra.
Qed.
Lemma qf_id n a c : qf n (fun i j => if Nat.eqb i j then a else 0) c = a * sm n (fun i => c i * c i).
Proof.
  unfold qf. rewrite <- sm_scal. apply sm_ext. intros i Hi. rewrite (sm_ext n _ (fun j => if Nat.eqb j i then c i * c j * a else 0)).
  - rewrite sm_delta. apply Nat.ltb_lt in Hi. rewrite Hi. ring.
  - intros j _. rewrite (Nat.eqb_sym i j). destruct (Nat.eqb j i); ring.
Qed.
Lemma c78 k d X alpha : valid k d -> Forall (fun x => length x = d) X -> 0 <= alpha ->
  exists K, train_matrix k alpha X = Ok K /\ length K = length X /\ covariance K /\ (0 < alpha -> positive_definite K).
Proof.
  intros V F Ha. destruct (kernel_psd d X F k V) as (M & R & P). destruct (train_total k alpha X M R) as [K E]. exists K. split; [exact E|].
  destruct (train_entries _ _ _ _ E) as (LK & FK & HK). split; [exact LK|].
  assert (HE : forall i j, (i < length X)%nat -> (j < length X)%nat -> M i j + (if Nat.eqb i j then alpha else 0) = entry K i j).
  { intros i j Hi Hj. destruct (HK i j Hi Hj) as (v & Ev & ->). rewrite (R i j Hi Hj) in Ev. now injection Ev as <-. }
  assert (PE : psd (length X) (entry K)) by (eapply psd_ext; [exact HE|]; apply psd_plus; [exact P|now apply psd_id]).
  pose proof (psd_covariance K _ LK FK PE) as C. split; [exact C|]. intro Hp. split; [exact C|]. intros c Lc Hc. rewrite LK in Lc.
  rewrite (quad_sm K c (length X)) by assumption. rewrite <- (qf_ext (length X) _ (entry K) _ HE), qf_plus, qf_id.
  pose proof (proj2 P (fun i => nth i c 0)) as Q. assert (S : 0 < sm (length X) (fun i => nth i c 0 * nth i c 0)); [|nra].
  apply sm_pos; [intros; apply Rle_0_sqr|]. apply Exists_exists in Hc. destruct Hc as (a & Ia & Na). apply (In_nth _ _ 0) in Ia. destruct Ia as (i & Hi & <-).
  exists i. split; [lia|]. apply Rlt_0_sqr in Na. exact Na.
Qed.

(** ** The kernel after the noise has been taken out *)
Lemma ktrain_false : forall k x t, ktrain k false x t = kcall k 2 x t.
Proof. induction k; intros x t; cbn [ktrain kcall]; try reflexivity; [now rewrite IHk|now rewrite IHk1, IHk2|now rewrite IHk1, IHk2]. Qed.
Lemma zero_train : forall p k v same x t a, level_at k p = Some v -> ktrain k same x t = Ok a ->
  ktrain (zero_at k p) same x t = Ok (a - if same then v else 0).
Proof.
  induction p as [|s p IH]; intros k v same x t a Hl Ha.
  - destruct k; try discriminate. cbn [level_at] in Hl. injection Hl as <-. cbn [ktrain zero_at] in *. injection Ha as <-. destruct same; f_equal; ring.
  - destruct k; try (destruct s; discriminate). destruct s; cbn [level_at zero_at ktrain] in *;
      destruct (ktrain k1 same x t) as [b|] eqn:E1; try discriminate; destruct (ktrain k2 same x t) as [c|] eqn:E2; try discriminate; cbn [bind] in Ha; injection Ha as <-.
    + rewrite (IH _ _ _ _ _ _ Hl E1). cbn [bind]. f_equal. ring.
    + cbn [bind]. rewrite (IH _ _ _ _ _ _ Hl E2). cbn [bind]. f_equal. ring.
Qed.
Lemma path_level : forall k p, white_path k = Some p -> exists v, level_at k p = Some v.
Proof.
  induction k; intros q Hq; try discriminate. cbn [white_path] in Hq.
  assert (D : (exists v, k1 = White v) \/ ((forall v, k1 <> White v) /\
     match white_path k1 with Some p => Some (K1 :: p) | None => match k2 with White _ => Some [K2] | _ => match white_path k2 with Some p => Some (K2 :: p) | None => None end end end = Some q)).
  { destruct k1; try (right; split; [discriminate|exact Hq]). left. eauto. }
  destruct D as [[v ->]|[_ D]].
  - injection Hq as <-. exists v. reflexivity.
  - destruct (white_path k1) as [p1|].
    + injection D as <-. destruct (IHk1 p1 eq_refl) as [v Hv]. exists v. exact Hv.
    + assert (D2 : (exists v, k2 = White v /\ q = [K2]) \/ exists p2, white_path k2 = Some p2 /\ q = K2 :: p2).
      { destruct k2; try (destruct (white_path _) as [p2|]; [injection D as <-; right; eauto|discriminate]). injection D as <-. left. eauto. }
      destruct D2 as [(v & -> & ->)|(p2 & E2 & ->)]; [exists v; reflexivity|]. destruct (IHk2 p2 E2) as [v Hv]. exists v. exact Hv.
Qed.
Lemma zero_valid : forall p k d, valid k d -> valid (zero_at k p) d.
Proof.
  induction p as [|s p IH]; intros k d V; [destruct k; cbn [zero_at]; try exact V; cbn; lra|]. destruct k; try (destruct s; exact V).
  destruct V as [V1 V2]. destruct s; cbn [zero_at valid]; auto.
Qed.
Lemma level_valid : forall p k d v, valid k d -> level_at k p = Some v -> 0 <= v.
Proof.
  induction p as [|s p IH]; intros k d v V H; [destruct k; try discriminate; injection H as <-; exact V|]. destruct k; try (destruct s; discriminate).
  destruct V as [V1 V2]. destruct s; cbn [level_at] in H; eauto.
Qed.
