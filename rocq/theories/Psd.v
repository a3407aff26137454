(** Positive semi-definite and conditionally negative definite matrices, given by their entries. *)
From Coq Require Import List ZArith Bool Reals Lra Lia.
From Coquelicot Require Import Coquelicot.
Import ListNotations.
Open Scope R_scope.

(** ** Finite sums *)
Fixpoint sm (n : nat) (f : nat -> R) : R := match n with 0%nat => 0 | S n => sm n f + f n end.
Lemma sm_ext n f g : (forall i, (i < n)%nat -> f i = g i) -> sm n f = sm n g.
Proof. induction n as [|n IH]; intro H; [reflexivity|]. cbn. rewrite IH by (intros; apply H; lia). now rewrite (H n) by lia. Qed.
Lemma sm_plus n f g : sm n (fun i => f i + g i) = sm n f + sm n g.
Proof. induction n as [|n IH]; cbn; [ring|]. rewrite IH. ring. Qed.
Lemma sm_scal n c f : sm n (fun i => c * f i) = c * sm n f.
Proof. induction n as [|n IH]; cbn; [ring|]. rewrite IH. ring. Qed.
Lemma sm_0 n : sm n (fun _ => 0) = 0.
Proof. induction n as [|n IH]; cbn; [ring|]. rewrite IH. ring. Qed.
Lemma sm_swap n m f : sm n (fun i => sm m (fun j => f i j)) = sm m (fun j => sm n (fun i => f i j)).
Proof. induction n as [|n IH]; cbn; [now rewrite sm_0|]. now rewrite IH, <- sm_plus. Qed.
Lemma sm_nonneg n f : (forall i, (i < n)%nat -> 0 <= f i) -> 0 <= sm n f.
Proof. induction n as [|n IH]; intro H; cbn; [lra|]. pose proof (H n ltac:(lia)). pose proof (IH ltac:(intros; apply H; lia)). lra. Qed.
Lemma sm_delta n k f : sm n (fun i => if Nat.eqb i k then f i else 0) = if Nat.ltb k n then f k else 0.
Proof.
  induction n as [|n IH]; [reflexivity|]. cbn [sm]. rewrite IH. destruct (Nat.eqb_spec n k) as [->|H].
  - rewrite Nat.ltb_irrefl. replace (Nat.ltb k (S k)) with true by (symmetry; apply Nat.ltb_lt; lia). ring.
  - destruct (Nat.ltb_spec k n), (Nat.ltb_spec k (S n)); try lia; ring.
Qed.
Lemma sm_split n m f : sm (n + m) f = sm n f + sm m (fun i => f (n + i)%nat).
Proof. induction m as [|m IH]; [rewrite Nat.add_0_r; cbn; ring|]. rewrite Nat.add_succ_r. cbn [sm]. rewrite IH. ring. Qed.

(** ** Quadratic forms *)
Definition mx := nat -> nat -> R.
Definition qf (n : nat) (M : mx) (c : nat -> R) : R := sm n (fun i => sm n (fun j => c i * c j * M i j)).
Definition symm (n : nat) (M : mx) : Prop := forall i j, (i < n)%nat -> (j < n)%nat -> M i j = M j i.
Definition psd (n : nat) (M : mx) : Prop := symm n M /\ forall c, 0 <= qf n M c.
(** Conditionally negative definite *)
Definition cnd (n : nat) (M : mx) : Prop := symm n M /\ forall c, sm n c = 0 -> qf n M c <= 0.

Lemma qf_ext n M M' c : (forall i j, (i < n)%nat -> (j < n)%nat -> M i j = M' i j) -> qf n M c = qf n M' c.
Proof. intro H. apply sm_ext. intros i Hi. apply sm_ext. intros j Hj. now rewrite H. Qed.
Lemma qf_plus n M M' c : qf n (fun i j => M i j + M' i j) c = qf n M c + qf n M' c.
Proof.
  unfold qf. rewrite <- sm_plus. apply sm_ext. intros i _. rewrite <- sm_plus. apply sm_ext. intros j _. ring.
Qed.
Lemma qf_scal n a M c : qf n (fun i j => a * M i j) c = a * qf n M c.
Proof.
  unfold qf. rewrite <- sm_scal. apply sm_ext. intros i _. rewrite <- sm_scal. apply sm_ext. intros j _. ring.
Qed.
Lemma qf_rank1 n f c : qf n (fun i j => f i * f j) c = sm n (fun i => c i * f i) * sm n (fun i => c i * f i).
Proof.
  unfold qf. rewrite <- sm_scal. apply sm_ext. intros i _. rewrite Rmult_comm, <- sm_scal. apply sm_ext. intros j _. ring.
Qed.
Lemma qf_left n f c : qf n (fun i _ => f i) c = sm n (fun i => c i * f i) * sm n c.
Proof. unfold qf. rewrite Rmult_comm, <- sm_scal. apply sm_ext. intros i _. rewrite (Rmult_comm (sm n c)), <- sm_scal. apply sm_ext. intros j _. ring. Qed.
Lemma qf_right n f c : qf n (fun _ j => f j) c = sm n (fun i => c i * f i) * sm n c.
Proof. unfold qf. rewrite sm_swap. rewrite <- qf_left. apply sm_ext. intros i _. apply sm_ext. intros j _. ring. Qed.
Lemma psd_ext n M M' : (forall i j, (i < n)%nat -> (j < n)%nat -> M i j = M' i j) -> psd n M -> psd n M'.
Proof.
  intros E [S H]. split; [intros i j Hi Hj; rewrite <- !E by assumption; now apply S|]. intro c. now rewrite <- (qf_ext n M M' c E).
Qed.
Lemma cnd_ext n M M' : (forall i j, (i < n)%nat -> (j < n)%nat -> M i j = M' i j) -> cnd n M -> cnd n M'.
Proof.
  intros E [S H]. split; [intros i j Hi Hj; rewrite <- !E by assumption; now apply S|]. intros c Hc. rewrite <- (qf_ext n M M' c E). now apply H.
Qed.
Lemma psd_plus n M M' : psd n M -> psd n M' -> psd n (fun i j => M i j + M' i j).
Proof.
  intros [S H] [S' H']. split; [intros i j Hi Hj; now rewrite S, S' by assumption|]. intro c. rewrite qf_plus. specialize (H c). specialize (H' c). lra.
Qed.
Lemma psd_scal n a M : 0 <= a -> psd n M -> psd n (fun i j => a * M i j).
Proof. intros Ha [S H]. split; [intros i j Hi Hj; now rewrite S by assumption|]. intro c. rewrite qf_scal. specialize (H c). nra. Qed.
Lemma psd_rank1 n f : psd n (fun i j => f i * f j).
Proof. split; [intros i j _ _; ring|]. intro c. rewrite qf_rank1. nra. Qed.
Lemma psd_const n a : 0 <= a -> psd n (fun _ _ => a).
Proof. intro Ha. eapply psd_ext; [|exact (psd_scal n a _ Ha (psd_rank1 n (fun _ => 1)))]. intros. cbn. ring. Qed.
Lemma psd_id n a : 0 <= a -> psd n (fun i j => if Nat.eqb i j then a else 0).
Proof.
  intro Ha. split; [intros i j _ _; now rewrite Nat.eqb_sym|]. intro c. unfold qf. apply sm_nonneg. intros i Hi.
  rewrite (sm_ext n _ (fun j => if Nat.eqb j i then c i * c j * a else 0)).
  - rewrite sm_delta. destruct (Nat.ltb i n); nra.
  - intros j _. rewrite (Nat.eqb_sym i j). destruct (Nat.eqb j i); ring.
Qed.
Lemma psd_map n m (s : nat -> nat) M : psd m M -> (forall i, (i < n)%nat -> (s i < m)%nat) -> psd n (fun i j => M (s i) (s j)).
Proof.
  intros [S H] Hs. split; [intros i j Hi Hj; apply S; auto|]. intro c.
  specialize (H (fun a => sm n (fun i => if Nat.eqb a (s i) then c i else 0))). eapply Rle_trans; [exact H|]. right. unfold qf.
  transitivity (sm m (fun a => sm n (fun i => if Nat.eqb a (s i) then sm n (fun j => c i * c j * M a (s j)) else 0))).
  - apply sm_ext. intros a _. transitivity (sm n (fun i => (if Nat.eqb a (s i) then c i else 0) * sm n (fun j => c j * M a (s j)))).
    + rewrite (sm_ext n (fun i => (if Nat.eqb a (s i) then c i else 0) * _) (fun i => sm n (fun j => c j * M a (s j)) * (if Nat.eqb a (s i) then c i else 0))) by (intros; ring).
      rewrite sm_scal, Rmult_comm. rewrite (sm_ext m _ (fun j => sm n (fun i => if Nat.eqb a (s i) then c i else 0) * (sm n (fun i => if Nat.eqb j (s i) then c i else 0) * M a j))) by (intros; ring).
      rewrite sm_scal. f_equal.
      transitivity (sm m (fun b => sm n (fun j => if Nat.eqb b (s j) then c j * M a b else 0))).
      * apply sm_ext. intros b _. rewrite Rmult_comm, <- sm_scal. apply sm_ext. intros j _. destruct (Nat.eqb b (s j)); ring.
      * rewrite sm_swap. apply sm_ext. intros j Hj. rewrite (sm_delta m (s j) (fun b => c j * M a b)). pose proof (Hs j Hj) as B. apply Nat.ltb_lt in B. now rewrite B.
    + apply sm_ext. intros i _. destruct (Nat.eqb a (s i)); [|ring]. rewrite <- sm_scal. apply sm_ext. intros. ring.
  - rewrite sm_swap. apply sm_ext. intros i Hi. rewrite (sm_delta m (s i) (fun a => sm n (fun j => c i * c j * M a (s j)))). pose proof (Hs i Hi) as B. apply Nat.ltb_lt in B. now rewrite B.
Qed.

(** ** Gram representation and the Schur product *)
Lemma qf_S n M c : symm (S n) M -> qf (S n) M c = qf n M c + 2 * c n * sm n (fun i => c i * M i n) + c n * c n * M n n.
Proof.
  intro HS. unfold qf. cbn [sm]. rewrite sm_plus.
  assert (E1 : sm n (fun i => c i * c n * M i n) = c n * sm n (fun i => c i * M i n)) by (rewrite <- sm_scal; apply sm_ext; intros; ring).
  assert (E2 : sm n (fun j => c n * c j * M n j) = c n * sm n (fun i => c i * M i n)).
  { rewrite <- sm_scal. apply sm_ext. intros j Hj. rewrite (HS n j) by lia. ring. }
  rewrite E1, E2. ring.
Qed.
Definition upd (n : nat) (x : R) (c : nat -> R) : nat -> R := fun i => if Nat.eqb i n then x else c i.
Lemma upd_lt n x c i : (i < n)%nat -> upd n x c i = c i.
Proof. intro H. unfold upd. destruct (Nat.eqb_spec i n); [lia|reflexivity]. Qed.
Lemma upd_eq n x c : upd n x c n = x. Proof. unfold upd. now rewrite Nat.eqb_refl. Qed.
Lemma qf_upd n M x c : symm (S n) M -> qf (S n) M (upd n x c) = qf n M c + 2 * x * sm n (fun i => c i * M i n) + x * x * M n n.
Proof.
  intro HS. rewrite qf_S by exact HS. rewrite !upd_eq. f_equal. f_equal.
  - apply sm_ext. intros i Hi. apply sm_ext. intros j Hj. now rewrite !upd_lt.
  - f_equal. apply sm_ext. intros i Hi. now rewrite upd_lt.
Qed.
Lemma psd_S n M : psd (S n) M -> psd n M.
Proof.
  intros [HS H]. split; [intros i j Hi Hj; apply HS; lia|]. intro c. specialize (H (upd n 0 c)). rewrite qf_upd in H by exact HS. lra.
Qed.
Lemma psd_last n M : psd (S n) M -> 0 <= M n n.
Proof.
  intros [HS H]. specialize (H (upd n 1 (fun _ => 0))). rewrite qf_upd in H by exact HS.
  assert (Z : qf n M (fun _ => 0) = 0).
  { unfold qf. rewrite (sm_ext n _ (fun _ => 0)); [apply sm_0|]. intros i _. rewrite (sm_ext n _ (fun _ => 0)); [apply sm_0|]. intros. ring. }
  assert (Z2 : sm n (fun i => 0 * M i n) = 0) by (rewrite (sm_ext n _ (fun _ => 0)); [apply sm_0|intros; ring]).
  rewrite Z, Z2 in H. lra.
Qed.
Lemma psd_diag n M i : psd n M -> (i < n)%nat -> 0 <= M i i.
Proof.
  intros H Hi. assert (P : psd 1 (fun _ _ => M i i)) by exact (psd_map 1 n (fun _ => i) M H (fun _ _ => Hi)).
  exact (psd_last 0 _ P).
Qed.
Lemma zero_line (b d : R) : 0 <= d -> (forall t, 0 <= t * t * d + 2 * t * b) -> b = 0.
Proof.
  intros Hd H. destruct (Req_dec b 0) as [|N]; [assumption|]. exfalso. specialize (H (- b / (d + 1))).
  assert (E : - b / (d + 1) * (- b / (d + 1)) * d + 2 * (- b / (d + 1)) * b = - (b * b * (d + 2)) / ((d + 1) * (d + 1))) by (field; lra).
  rewrite E in H. assert (0 < b * b) by nra. assert (0 < (d + 1) * (d + 1)) by nra.
  assert (- (b * b * (d + 2)) / ((d + 1) * (d + 1)) < 0); [|lra]. unfold Rdiv. rewrite <- Ropp_mult_distr_l. apply Ropp_lt_gt_0_contravar. apply Rmult_lt_0_compat; [nra|now apply Rinv_0_lt_compat].
Qed.
Lemma psd_zero_row n M i : psd (S n) M -> M n n = 0 -> (i < n)%nat -> M i n = 0.
Proof.
  intros H Z Hi. pose proof (psd_diag _ _ i H ltac:(lia)) as Hd. apply (zero_line _ (M i i) Hd). intro t.
  destruct H as [HS H]. specialize (H (upd n 1 (fun k => if Nat.eqb k i then t else 0))). rewrite qf_upd in H by exact HS. rewrite Z in H.
  assert (Q : qf n M (fun k => if Nat.eqb k i then t else 0) = t * t * M i i).
  { unfold qf. rewrite (sm_ext n _ (fun k => if Nat.eqb k i then t * t * M i i else 0)).
    - rewrite sm_delta. apply Nat.ltb_lt in Hi. now rewrite Hi.
    - intros k Hk. destruct (Nat.eqb_spec k i) as [->|Nk].
      + rewrite (sm_ext n _ (fun j => if Nat.eqb j i then t * t * M i j else 0)) by (intros j _; destruct (Nat.eqb j i); ring).
        rewrite sm_delta. apply Nat.ltb_lt in Hi. now rewrite Hi.
      + rewrite (sm_ext n _ (fun _ => 0)) by (intros; ring). apply sm_0. }
  assert (Q2 : sm n (fun k => (if Nat.eqb k i then t else 0) * M k n) = t * M i n).
  { rewrite (sm_ext n _ (fun k => if Nat.eqb k i then t * M k n else 0)) by (intros k _; destruct (Nat.eqb k i); ring).
    rewrite sm_delta. apply Nat.ltb_lt in Hi. now rewrite Hi. }
  rewrite Q, Q2 in H. lra.
Qed.
Lemma gram : forall n M, psd n M -> exists m (f : nat -> nat -> R), forall i j, (i < n)%nat -> (j < n)%nat -> M i j = sm m (fun k => f k i * f k j).
Proof.
  induction n as [|n IH]; intros M H; [exists 0%nat, (fun _ _ => 0); intros; lia|].
  pose proof (psd_last _ _ H) as P. destruct (Req_dec (M n n) 0) as [Z|NZ].
  - destruct (IH M (psd_S _ _ H)) as (m & f & E). exists m, (fun k i => if Nat.ltb i n then f k i else 0).
    assert (R0 : forall i, (i < S n)%nat -> M i n = 0).
    { intros i Hi. destruct (Nat.eq_dec i n) as [->|]; [exact Z|]. apply (psd_zero_row n M i H Z). lia. }
    intros i j Hi Hj. destruct (Nat.ltb_spec i n) as [Li|Li], (Nat.ltb_spec j n) as [Lj|Lj].
    + now apply E.
    + assert (j = n) by lia. subst j. rewrite R0 by lia. symmetry. rewrite (sm_ext m _ (fun _ => 0)); [apply sm_0|intros; ring].
    + assert (i = n) by lia. subst i. rewrite (proj1 H) by lia. rewrite R0 by lia. symmetry. rewrite (sm_ext m _ (fun _ => 0)); [apply sm_0|intros; ring].
    + assert (i = n) by lia. subst i. rewrite (proj1 H) by lia. rewrite R0 by lia. symmetry. rewrite (sm_ext m _ (fun _ => 0)); [apply sm_0|intros; ring].
  - assert (Ha : 0 < M n n) by lra. set (a := M n n) in *.
    assert (H' : psd n (fun i j => M i j + - (/ a) * (M i n * M j n))).
    { destruct H as [HS H]. split; [intros i j Hi Hj; rewrite (HS i j) by lia; ring|]. intro c. rewrite qf_plus, qf_scal, (qf_rank1 n (fun i => M i n)).
      set (b := sm n (fun i => c i * M i n)). specialize (H (upd n (- b / a) c)). rewrite qf_upd in H by exact HS. fold b in H. fold a in H.
      replace (qf n M c + - / a * (b * b)) with (qf n M c + 2 * (- b / a) * b + - b / a * (- b / a) * a) by (field; lra). exact H. }
    destruct (IH _ H') as (m & f & E). exists (S m), (fun k i => if Nat.eqb k m then M i n / sqrt a else if Nat.ltb i n then f k i else 0).
    assert (SA : sqrt a * sqrt a = a) by (apply sqrt_sqrt; lra). assert (SP : 0 < sqrt a) by now apply sqrt_lt_R0.
    assert (F : forall x y, x / sqrt a * (y / sqrt a) = / a * (x * y)) by (intros x y; rewrite <- SA at 3; field; lra).
    intros i j Hi Hj. cbn [sm]. rewrite Nat.eqb_refl, F.
    rewrite (sm_ext m _ (fun k => (if Nat.ltb i n then f k i else 0) * (if Nat.ltb j n then f k j else 0))).
    2: { intros k Hk. destruct (Nat.eqb_spec k m); [lia|reflexivity]. }
    destruct (Nat.ltb_spec i n) as [Li|Li], (Nat.ltb_spec j n) as [Lj|Lj].
    + rewrite <- (E i j Li Lj). ring.
    + assert (j = n) by lia. subst j. fold a. rewrite (sm_ext m _ (fun _ => 0)) by (intros; ring). rewrite sm_0. field. lra.
    + assert (i = n) by lia. subst i. fold a. rewrite (sm_ext m _ (fun _ => 0)) by (intros; ring). rewrite sm_0, (proj1 H n j) by lia. field. lra.
    + assert (i = n) by lia. assert (j = n) by lia. subst i j. fold a. rewrite (sm_ext m _ (fun _ => 0)) by (intros; ring). rewrite sm_0. field. lra.
Qed.
Lemma psd_mult n M M' : psd n M -> psd n M' -> psd n (fun i j => M i j * M' i j).
Proof.
  intros H H'. destruct (gram n M H) as (m & f & E). split.
  - intros i j Hi Hj. now rewrite (proj1 H), (proj1 H') by assumption.
  - intro c. rewrite (qf_ext n _ (fun i j => sm m (fun k => f k i * f k j) * M' i j)) by (intros i j Hi Hj; now rewrite (E i j Hi Hj)).
    assert (Q : qf n (fun i j => sm m (fun k => f k i * f k j) * M' i j) c = sm m (fun k => qf n M' (fun i => c i * f k i))).
    { unfold qf. rewrite (sm_swap m n). apply sm_ext. intros i _. rewrite (sm_swap m n). apply sm_ext. intros j _.
      rewrite (sm_ext m (fun k => c i * f k i * (c j * f k j) * M' i j) (fun k => c i * c j * M' i j * (f k i * f k j))) by (intros; ring).
      rewrite sm_scal. ring. }
    rewrite Q. apply sm_nonneg. intros k _. apply H'.
Qed.
Lemma psd_pow n M k : psd n M -> psd n (fun i j => M i j ^ k).
Proof.
  intro H. induction k as [|k IH]; [exact (psd_const n 1 Rle_0_1)|]. exact (psd_mult n _ _ H IH).
Qed.
