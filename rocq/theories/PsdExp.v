(** Limits, integrals and exponentials of positive semi-definite matrices. *)
From Coq Require Import List ZArith Bool Reals Lra Lia.
From Coquelicot Require Import Coquelicot.
From Verif Require Import Psd.
Import ListNotations.
Open Scope R_scope.

(** ** Limits *)
Lemma sm_lim n (f : nat -> nat -> R) (l : nat -> R) : (forall i, (i < n)%nat -> is_lim_seq (fun k => f k i) (l i)) ->
  is_lim_seq (fun k => sm n (f k)) (sm n l).
Proof.
  induction n as [|n IH]; intro H; [apply is_lim_seq_const|]. cbn [sm]. apply is_lim_seq_plus'; [apply IH; intros; apply H; lia|apply H; lia].
Qed.
Lemma qf_lim n (M : nat -> mx) (M' : mx) c : (forall i j, (i < n)%nat -> (j < n)%nat -> is_lim_seq (fun k => M k i j) (M' i j)) ->
  is_lim_seq (fun k => qf n (M k) c) (qf n M' c).
Proof.
  intro H. unfold qf. apply sm_lim. intros i Hi. apply (sm_lim n (fun k j => c i * c j * M k i j) (fun j => c i * c j * M' i j)). intros j Hj.
  apply is_lim_seq_mult'; [apply is_lim_seq_const|now apply H].
Qed.
Lemma lim_unique f (a b : R) : is_lim_seq f a -> is_lim_seq f b -> a = b.
Proof. intros Ha Hb. apply is_lim_seq_unique in Ha. apply is_lim_seq_unique in Hb. rewrite Ha in Hb. now injection Hb. Qed.
Lemma symm_lim n (M : nat -> mx) (M' : mx) : (forall k, symm n (M k)) ->
  (forall i j, (i < n)%nat -> (j < n)%nat -> is_lim_seq (fun k => M k i j) (M' i j)) -> symm n M'.
Proof.
  intros S H i j Hi Hj. apply (lim_unique (fun k => M k i j)); [now apply H|]. eapply is_lim_seq_ext; [|exact (H j i Hj Hi)]. intro k. now apply S.
Qed.
Lemma psd_lim n (M : nat -> mx) (M' : mx) : (forall k, psd n (M k)) ->
  (forall i j, (i < n)%nat -> (j < n)%nat -> is_lim_seq (fun k => M k i j) (M' i j)) -> psd n M'.
Proof.
  intros P H. split; [exact (symm_lim n M M' (fun k => proj1 (P k)) H)|]. intro c.
  refine (is_lim_seq_le (fun _ => 0) (fun k => qf n (M k) c) 0 (qf n M' c) _ (is_lim_seq_const 0) (qf_lim n M M' c H)). intro k. apply P.
Qed.
Lemma cnd_lim n (M : nat -> mx) (M' : mx) : (forall k, cnd n (M k)) ->
  (forall i j, (i < n)%nat -> (j < n)%nat -> is_lim_seq (fun k => M k i j) (M' i j)) -> cnd n M'.
Proof.
  intros P H. split; [exact (symm_lim n M M' (fun k => proj1 (P k)) H)|]. intros c Hc.
  refine (is_lim_seq_le (fun k => qf n (M k) c) (fun _ => 0) (qf n M' c) 0 _ (qf_lim n M M' c H) (is_lim_seq_const 0)). intro k. now apply P.
Qed.

(** ** Integrals over a segment *)
Lemma sm_int n (f : R -> nat -> R) (l : nat -> R) a b : (forall i, (i < n)%nat -> is_RInt (fun u => f u i) a b (l i)) ->
  is_RInt (fun u => sm n (f u)) a b (sm n l).
Proof.
  induction n as [|n IH]; intro H.
  - cbn. evar_last; [apply @is_RInt_const|]. apply Rmult_0_r.
  - cbn [sm]. apply (is_RInt_plus (V := R_NormedModule)); [apply IH; intros; apply H; lia|apply H; lia].
Qed.
Lemma qf_int n (M : R -> mx) (I : mx) a b c : (forall i j, (i < n)%nat -> (j < n)%nat -> is_RInt (fun u => M u i j) a b (I i j)) ->
  is_RInt (fun u => qf n (M u) c) a b (qf n I c).
Proof.
  intro H. unfold qf. apply sm_int. intros i Hi. apply (sm_int n (fun u j => c i * c j * M u i j) (fun j => c i * c j * I i j)). intros j Hj.
  apply (is_RInt_scal (V := R_NormedModule)). now apply H.
Qed.
Lemma int_le (f g : R -> R) a b If Ig : a <= b -> (forall u, a < u < b -> f u <= g u) -> is_RInt f a b If -> is_RInt g a b Ig -> If <= Ig.
Proof. intros L H Hf Hg. exact (is_RInt_le f g a b If Ig L Hf Hg H). Qed.
Lemma int_unique (f g : R -> R) a b I J : a <= b -> (forall u, a < u < b -> f u = g u) -> is_RInt f a b I -> is_RInt g a b J -> I = J.
Proof. intros L H Hf Hg. apply Rle_antisym; [apply (int_le f g a b)|apply (int_le g f a b)]; auto; intros u Hu; rewrite (H u Hu); lra. Qed.
Lemma int_const0 a b : is_RInt (fun _ => 0) a b 0.
Proof. evar_last; [apply @is_RInt_const|]. apply Rmult_0_r. Qed.
Lemma psd_int n (M : R -> mx) (I : mx) a b : a <= b -> (forall u, a < u < b -> psd n (M u)) ->
  (forall i j, (i < n)%nat -> (j < n)%nat -> is_RInt (fun u => M u i j) a b (I i j)) -> psd n I.
Proof.
  intros L P H. split.
  - intros i j Hi Hj. apply (int_unique (fun u => M u i j) (fun u => M u j i) a b); auto. intros u Hu. now apply (proj1 (P u Hu)).
  - intro c. apply (int_le (fun _ => 0) (fun u => qf n (M u) c) a b); [exact L| |apply int_const0|now apply qf_int]. intros u Hu. now apply P.
Qed.
Lemma cnd_int n (M : R -> mx) (I : mx) a b : a <= b -> (forall u, a < u < b -> cnd n (M u)) ->
  (forall i j, (i < n)%nat -> (j < n)%nat -> is_RInt (fun u => M u i j) a b (I i j)) -> cnd n I.
Proof.
  intros L P H. split.
  - intros i j Hi Hj. apply (int_unique (fun u => M u i j) (fun u => M u j i) a b); auto. intros u Hu. now apply (proj1 (P u Hu)).
  - intros c Hc. apply (int_le (fun u => qf n (M u) c) (fun _ => 0) a b); [exact L| |now apply qf_int|apply int_const0]. intros u Hu. now apply P.
Qed.

(** ** Exponentials *)
Lemma exp_lim x : is_lim_seq (fun k => sum_n (fun m => x ^ m / INR (fact m)) k) (exp x).
Proof.
  pose proof (is_exp_Reals x) as H. unfold is_pseries, is_series in H. eapply filterlim_ext; [|exact H]. intro k. apply sum_n_ext. intro m.
  rewrite pow_n_pow. change (scal (x ^ m) (/ INR (fact m))) with (x ^ m * / INR (fact m)). reflexivity.
Qed.
Lemma psd_exp n M : psd n M -> psd n (fun i j => exp (M i j)).
Proof.
  intro H. apply (psd_lim n (fun k i j => sum_n (fun m => M i j ^ m / INR (fact m)) k)); [|intros; apply exp_lim].
  assert (T : forall m, psd n (fun i j => M i j ^ m / INR (fact m))).
  { intro m. eapply psd_ext; [|apply (psd_scal n (/ INR (fact m)) (fun i j => M i j ^ m)); [|now apply psd_pow]].
    - intros. cbn beta. unfold Rdiv. ring.
    - left. apply Rinv_0_lt_compat. apply INR_fact_lt_0. }
  induction k as [|k IH].
  - eapply psd_ext; [|exact (T 0%nat)]. intros. cbn beta. now rewrite sum_O.
  - eapply psd_ext; [|exact (psd_plus n _ _ IH (T (S k)))]. intros. cbn beta. now rewrite sum_Sn.
Qed.
Lemma cnd_base n N : cnd n N -> (0 < n)%nat -> psd n (fun i j => N i 0%nat + N 0%nat j - N i j - N 0%nat 0%nat).
Proof.
  intros [S H] Hn. split; [intros i j Hi Hj; rewrite (S i 0%nat), (S 0%nat j), (S i j) by assumption; ring|]. intro c.
  set (C := sm n c). set (d := fun i => c i - if Nat.eqb i 0 then C else 0).
  assert (D : forall f, sm n (fun i => d i * f i) = sm n (fun i => c i * f i) - C * f 0%nat).
  { intro f. rewrite (sm_ext n _ (fun i => c i * f i + (-1) * (if Nat.eqb i 0 then C * f i else 0))) by (intros i _; unfold d; destruct (Nat.eqb i 0); ring).
    rewrite sm_plus, sm_scal, (sm_delta n 0 (fun i => C * f i)). apply Nat.ltb_lt in Hn. rewrite Hn. ring. }
  assert (D0 : sm n d = 0).
  { rewrite (sm_ext n d (fun i => d i * 1)) by (intros; ring). rewrite (D (fun _ => 1)). rewrite (sm_ext n _ c) by (intros; ring). unfold C. ring. }
  specialize (H d D0).
  assert (Q : qf n N d = qf n N c - 2 * C * sm n (fun i => c i * N i 0%nat) + C * C * N 0%nat 0%nat).
  { unfold qf. rewrite (sm_ext n (fun i => sm n (fun j => d i * d j * N i j)) (fun i => d i * (sm n (fun j => c j * N i j) - C * N i 0%nat))).
    2: { intros i _. rewrite <- D, <- sm_scal. apply sm_ext. intros. ring. }
    rewrite D. rewrite (sm_ext n (fun i => c i * (sm n (fun j => c j * N i j) - C * N i 0%nat)) (fun i => sm n (fun j => c i * c j * N i j) + (- C) * (c i * N i 0%nat))).
    2: { intros i _. rewrite (sm_ext n (fun j => c i * c j * N i j) (fun j => c i * (c j * N i j))) by (intros; ring). rewrite sm_scal. ring. }
    rewrite sm_plus, sm_scal. rewrite (sm_ext n (fun j => c j * N 0%nat j) (fun i => c i * N i 0%nat)) by (intros j Hj; now rewrite (S 0%nat j)). ring. }
  rewrite Q in H.
  assert (Q' : qf n (fun i j => N i 0%nat + N 0%nat j - N i j - N 0%nat 0%nat) c = 2 * C * sm n (fun i => c i * N i 0%nat) - qf n N c - C * C * N 0%nat 0%nat).
  { rewrite (qf_ext n _ (fun i j => (N i 0%nat + N 0%nat j) + ((-1) * N i j + (- N 0%nat 0%nat) * 1))) by (intros; ring).
    rewrite !qf_plus, !qf_scal. rewrite (qf_left n (fun i => N i 0%nat)), (qf_right n (fun j => N 0%nat j)), (qf_left n (fun _ => 1)).
    rewrite (sm_ext n (fun j => c j * N 0%nat j) (fun i => c i * N i 0%nat)) by (intros j Hj; now rewrite (S 0%nat j)).
    rewrite (sm_ext n (fun i => c i * 1) c) by (intros; ring). fold C. ring. }
  rewrite Q'. lra.
Qed.
(** Schoenberg: e^(-N) is positive semi-definite when N is conditionally negative definite. *)
Lemma cnd_exp n N : cnd n N -> psd n (fun i j => exp (- N i j)).
Proof.
  intro H. destruct (Nat.eq_dec n 0) as [->|Hn]; [split; [intros i j Hi; lia|intro c; cbn; lra]|].
  eapply psd_ext; [|exact (psd_mult n _ _ (psd_exp n _ (cnd_base n N H ltac:(lia))) (psd_rank1 n (fun i => exp (- N i 0%nat + N 0%nat 0%nat / 2))))].
  intros i j Hi Hj. cbn beta. rewrite <- !exp_plus. f_equal. rewrite (proj1 H 0%nat j) by lia. field.
Qed.

(** ** Conditionally negative definite matrices *)
Lemma cnd_plus n M M' : cnd n M -> cnd n M' -> cnd n (fun i j => M i j + M' i j).
Proof.
  intros [S H] [S' H']. split; [intros i j Hi Hj; now rewrite S, S' by assumption|]. intros c Hc. rewrite qf_plus. specialize (H c Hc). specialize (H' c Hc). lra.
Qed.
Lemma cnd_scal n a M : 0 <= a -> cnd n M -> cnd n (fun i j => a * M i j).
Proof. intros Ha [S H]. split; [intros i j Hi Hj; now rewrite S by assumption|]. intros c Hc. rewrite qf_scal. specialize (H c Hc). nra. Qed.
Lemma cnd_const n a : cnd n (fun _ _ => a).
Proof.
  split; [intros i j _ _; reflexivity|]. intros c Hc. rewrite (qf_left n (fun _ => a)), Hc. lra.
Qed.
(** A constant minus a positive semi-definite matrix *)
Lemma cnd_minus n a M : psd n M -> cnd n (fun i j => a - M i j).
Proof.
  intros [S H]. split; [intros i j Hi Hj; now rewrite S by assumption|]. intros c Hc.
  rewrite (qf_ext n _ (fun i j => a + (-1) * M i j)) by (intros; ring). rewrite qf_plus, qf_scal, (qf_left n (fun _ => a)), Hc. specialize (H c). lra.
Qed.
Lemma cnd_sum n m (N : nat -> mx) : (forall k, (k < m)%nat -> cnd n (N k)) -> cnd n (fun i j => sm m (fun k => N k i j)).
Proof.
  induction m as [|m IH]; intro H; [exact (cnd_const n 0)|]. exact (cnd_plus n _ _ (IH (fun k Hk => H k ltac:(lia))) (H m ltac:(lia))).
Qed.
(** Squared differences *)
Lemma cnd_sqdiff n a : cnd n (fun i j => (a i - a j) * (a i - a j)).
Proof.
  split; [intros i j _ _; ring|]. intros c Hc.
  rewrite (qf_ext n _ (fun i j => (a i * a i + a j * a j) + (-2) * (a i * a j))) by (intros; ring).
  rewrite !qf_plus, qf_scal, qf_rank1. rewrite (qf_left n (fun i => a i * a i)), (qf_right n (fun i => a i * a i)), Hc. nra.
Qed.
