(** Functions of conditionally negative definite matrices. *)
From Coq Require Import List ZArith Bool Reals Lra Lia.
From Coquelicot Require Import Coquelicot.
From Verif Require Import Psd PsdExp.
Import ListNotations.
Open Scope R_scope.

Lemma lim_inv_nat : is_lim_seq (fun k => / (INR k + 1)) 0.
Proof.
  assert (H : is_lim_seq (fun k => / INR (S k)) 0).
  { apply (is_lim_seq_incr_1 (fun k => / INR k)). evar_last; [apply is_lim_seq_inv; [apply is_lim_seq_INR|discriminate]|reflexivity]. }
  apply is_lim_seq_ext with (fun k => / INR (S k)); [|exact H]. intro k. now rewrite S_INR.
Qed.
Lemma lim_squeeze (f g : nat -> R) (l : R) : (forall k, Rabs (f k - l) <= g k) -> is_lim_seq g 0 -> is_lim_seq f l.
Proof.
  intros H G. apply is_lim_seq_ext with (fun k => (f k - l) + l); [intro; ring|]. evar_last; [apply is_lim_seq_plus'; [|apply (is_lim_seq_const l)]|].
  - apply is_lim_seq_abs_0. refine (is_lim_seq_le_le (fun _ => 0) _ g 0 _ (is_lim_seq_const 0) G). intro k. split; [apply Rabs_pos|apply H].
  - cbn. f_equal. ring.
Qed.
Lemma exp_neg_small y : 0 <= y -> exp (- y) <= / (1 + y).
Proof.
  intro H. rewrite exp_Ropp. apply Rinv_le_contravar; [lra|]. destruct (Req_dec y 0) as [->|]; [rewrite exp_0; lra|]. left. apply exp_ineq1. lra.
Qed.
Lemma exp_neg_scaled x : 0 < x -> is_lim_seq (fun k => exp (- (INR k * x))) 0.
Proof.
  intro H. apply (lim_squeeze _ (fun k => (/ x + 1) * / (INR k + 1))).
  - intro k. pose proof (pos_INR k) as P. rewrite Rminus_0_r, Rabs_right by (left; apply exp_pos). eapply Rle_trans; [apply exp_neg_small; nra|].
    assert (E : (/ x + 1) * / (INR k + 1) - / (1 + INR k * x) = (1 + INR k * x * x) * / (x * (INR k + 1) * (1 + INR k * x))) by (field; nra).
    assert (0 <= (1 + INR k * x * x) * / (x * (INR k + 1) * (1 + INR k * x))); [|lra].
    apply Rmult_le_pos; [nra|]. left. apply Rinv_0_lt_compat. apply Rmult_lt_0_compat; [nra|nra].
  - evar_last; [apply is_lim_seq_mult'; [apply (is_lim_seq_const (/ x + 1))|apply lim_inv_nat]|]. cbn. f_equal. ring.
Qed.

Definition nonneg (n : nat) (N : mx) : Prop := forall i j, (i < n)%nat -> (j < n)%nat -> 0 <= N i j.

(** 1 / (N + v) *)
Lemma psd_inv n N v : cnd n N -> nonneg n N -> 0 < v -> psd n (fun i j => / (N i j + v)).
Proof.
  intros H P Hv. apply (psd_lim n (fun k i j => / (N i j + v) - exp (- (INR k * (N i j + v))) / (N i j + v))).
  - intro k. apply (psd_int n (fun u i j => exp (- (u * (N i j + v)))) _ 0 (INR k)).
    + apply pos_INR.
    + intros u Hu. apply (cnd_exp n (fun i j => u * (N i j + v))). apply cnd_scal; [lra|]. apply cnd_plus; [exact H|apply cnd_const].
    + intros i j Hi Hj. specialize (P i j Hi Hj). evar_last.
      * apply (is_RInt_derive (V := R_CompleteNormedModule) (fun u => - exp (- (u * (N i j + v))) / (N i j + v))).
        -- intros u _. auto_derive; [exact I|]. field. lra.
        -- intros u _. apply (@ex_derive_continuous R_AbsRing R_NormedModule). auto_derive. exact I.
      * cbn. unfold minus, plus, opp. cbn. rewrite Rmult_0_l, Ropp_0, exp_0. field. lra.
  - intros i j Hi Hj. specialize (P i j Hi Hj). evar_last; [apply is_lim_seq_minus'; [apply (is_lim_seq_const (/ (N i j + v)))|]|].
    + apply is_lim_seq_mult'; [apply exp_neg_scaled; lra|apply is_lim_seq_const].
    + cbn. f_equal. ring.
Qed.
(** N / (N + v) *)
Lemma cnd_ratio n N v : cnd n N -> nonneg n N -> 0 < v -> cnd n (fun i j => N i j / (N i j + v)).
Proof.
  intros H P Hv. eapply cnd_ext; [|exact (cnd_minus n 1 _ (psd_scal n v _ (Rlt_le _ _ Hv) (psd_inv n N v H P Hv)))].
  intros i j Hi Hj. specialize (P i j Hi Hj). cbn beta. field. lra.
Qed.
Lemma atan_lim x : 0 < x -> is_lim_seq (fun k => atan ((INR k + 1) / x)) (PI / 2).
Proof.
  intro Hx. assert (C : is_lim_seq (fun k => atan (x * / (INR k + 1))) 0).
  { rewrite <- atan_0. apply is_lim_seq_continuous; [apply derivable_continuous_pt, derivable_pt_atan|].
    evar_last; [apply is_lim_seq_mult'; [apply (is_lim_seq_const x)|apply lim_inv_nat]|]. cbn. f_equal. ring. }
  apply is_lim_seq_ext with (fun k => PI / 2 - atan (x * / (INR k + 1))).
  - intro k. pose proof (pos_INR k). assert (Q : 0 < x * / (INR k + 1)) by (apply Rmult_lt_0_compat; [lra|apply Rinv_0_lt_compat; lra]).
    rewrite <- (atan_inv _ Q). f_equal. field. lra.
  - evar_last; [apply is_lim_seq_minus'; [apply (is_lim_seq_const (PI / 2))|exact C]|]. cbn. f_equal. ring.
Qed.
(** The square root *)
Lemma cnd_sqrt n N : cnd n N -> nonneg n N -> cnd n (fun i j => sqrt (N i j)).
Proof.
  intros H P. pose proof PI_RGT_0 as HP. apply (cnd_lim n (fun k i j => 2 / PI * (sqrt (N i j) * atan ((INR k + 1) / sqrt (N i j))))).
  - intro k. apply cnd_scal; [left; apply Rdiv_lt_0_compat; lra|]. apply (cnd_int n (fun w i j => N i j / (N i j + w * w)) _ 0 (INR k + 1)).
    + pose proof (pos_INR k). lra.
    + intros w Hw. apply cnd_ratio; auto. nra.
    + intros i j Hi Hj. specialize (P i j Hi Hj). destruct (Req_dec (N i j) 0) as [Z|NZ].
      * rewrite Z, sqrt_0, Rmult_0_l. eapply is_RInt_ext; [|apply int_const0]. intros w _. unfold Rdiv. now rewrite Rmult_0_l.
      * assert (Hp : 0 < N i j) by lra. pose proof (sqrt_lt_R0 _ Hp) as Sp. pose proof (sqrt_sqrt _ P) as SS. evar_last.
        -- apply (is_RInt_derive (V := R_CompleteNormedModule) (fun w => sqrt (N i j) * atan (w / sqrt (N i j)))).
           ++ intros w _. auto_derive; [exact I|]. set (y := sqrt (N i j)) in *. clearbody y. rewrite <- SS. field. split; nra.
           ++ intros w _. apply (@ex_derive_continuous R_AbsRing R_NormedModule). auto_derive. nra.
        -- cbn. unfold minus, plus, opp. cbn. unfold Rdiv at 2. rewrite Rmult_0_l, atan_0. ring.
  - intros i j Hi Hj. specialize (P i j Hi Hj). destruct (Req_dec (N i j) 0) as [Z|NZ].
    + rewrite Z, sqrt_0. eapply is_lim_seq_ext; [|apply is_lim_seq_const]. intro k. cbn beta. ring.
    + assert (Hp : 0 < N i j) by lra. pose proof (sqrt_lt_R0 _ Hp) as Sp.
      evar_last; [apply is_lim_seq_mult'; [apply (is_lim_seq_const (2 / PI))|apply is_lim_seq_mult'; [apply (is_lim_seq_const (sqrt (N i j)))|apply (atan_lim _ Sp)]]|].
      cbn. f_equal. field. lra.
Qed.
(** The logarithm of 1 + c N *)
Lemma cnd_ln n N c : cnd n N -> nonneg n N -> 0 <= c -> cnd n (fun i j => ln (1 + c * N i j)).
Proof.
  intros H P Hc. apply (cnd_int n (fun v i j => N i j / (1 + v * N i j)) _ 0 c Hc).
  - intros v Hv. eapply cnd_ext; [|apply (cnd_scal n (/ v) (fun i j => N i j / (N i j + / v))); [|apply cnd_ratio; auto]].
    + intros i j Hi Hj. specialize (P i j Hi Hj). cbn beta. field. nra.
    + left. apply Rinv_0_lt_compat. lra.
    + apply Rinv_0_lt_compat. lra.
  - intros i j Hi Hj. specialize (P i j Hi Hj). evar_last.
    + apply (is_RInt_derive (V := R_CompleteNormedModule) (fun v => ln (1 + v * N i j))).
      * intros v Hv. rewrite Rmin_left, Rmax_right in Hv by lra. auto_derive; [nra|]. field. nra.
      * intros v Hv. rewrite Rmin_left, Rmax_right in Hv by lra. apply (@ex_derive_continuous R_AbsRing R_NormedModule). auto_derive. nra.
    + cbn. unfold minus, plus, opp. cbn. rewrite Rmult_0_l, Rplus_0_r, ln_1. ring.
Qed.

(** ** The Matern family *)
Definition m3 (x : R) : R := (1 + sqrt x) * exp (- sqrt x).
Definition m5 (x : R) : R := (1 + sqrt x + x / 3) * exp (- sqrt x).
Lemma tail_bound x : 0 < x -> 0 <= m5 x <= 256 / 3 * / x /\ 0 <= m3 x <= 256 / 3 * / x.
Proof.
  intro Hx. pose proof (sqrt_lt_R0 _ Hx) as Sp. pose proof (sqrt_sqrt x ltac:(lra)) as SS. unfold m5, m3. set (y := sqrt x) in *. rewrite <- SS.
  assert (B : exp (- y) <= / ((1 + y / 4) * (1 + y / 4) * ((1 + y / 4) * (1 + y / 4)))).
  { replace (- y) with (- (y / 4) + - (y / 4) + (- (y / 4) + - (y / 4))) by field. rewrite !exp_plus. pose proof (exp_neg_small (y / 4) ltac:(lra)) as E. pose proof (exp_pos (- (y / 4))) as E0.
    rewrite !Rinv_mult by nra. assert (0 < / (1 + y / 4)) by (apply Rinv_0_lt_compat; lra).
    assert (exp (- (y / 4)) * exp (- (y / 4)) <= / (1 + y / 4) * / (1 + y / 4)) by nra. apply Rmult_le_compat; nra. }
  pose proof (exp_pos (- y)) as E0. set (z := (1 + y / 4) * (1 + y / 4)) in *. assert (Z : 0 < z) by (unfold z; nra).
  assert (T : z * / (z * z) <= 16 * / (y * y)).
  { replace (z * / (z * z)) with (/ z) by (field; lra). replace (16 * / (y * y)) with (/ (y * y / 16)) by (field; lra). apply Rinv_le_contravar; [nra|unfold z; nra]. }
  assert (G : forall p, 0 <= p -> p <= 16 / 3 * z -> 0 <= p * exp (- y) <= 256 / 3 * / (y * y)).
  { intros p P0 P1. split; [nra|]. assert (I : 0 < / (z * z)) by (apply Rinv_0_lt_compat; nra). assert (p * exp (- y) <= 16 / 3 * z * / (z * z)) by (apply Rmult_le_compat; lra). lra. }
  split; apply G; unfold z; nra.
Qed.
Lemma m_tail (f : R -> R) N : (forall x, 0 < x -> 0 <= f x <= 256 / 3 * / x) -> 0 <= N -> is_lim_seq (fun k => f (N + (INR k + 1))) 0.
Proof.
  intros H HN. apply (lim_squeeze _ (fun k => 256 / 3 * / (INR k + 1))).
  - intro k. pose proof (pos_INR k). destruct (H (N + (INR k + 1)) ltac:(lra)) as [A B]. rewrite Rminus_0_r, Rabs_right by lra. eapply Rle_trans; [exact B|].
    apply Rmult_le_compat_l; [lra|]. apply Rinv_le_contravar; lra.
  - evar_last; [apply is_lim_seq_mult'; [apply is_lim_seq_const|apply lim_inv_nat]|]. cbn. f_equal. ring.
Qed.
Lemma m_head (f : R -> R) N : continuous f N -> is_lim_seq (fun k => f (N + / (INR k + 1))) (f N).
Proof.
  intro C. eapply filterlim_comp; [|exact C]. change (is_lim_seq (fun k => N + / (INR k + 1)) N).
  evar_last; [apply is_lim_seq_plus'; [apply is_lim_seq_const|apply lim_inv_nat]|]. cbn. f_equal. ring.
Qed.
Lemma cont_sqrt x : continuous sqrt x.
Proof. apply continuous_sqrt. Qed.
Lemma cont_exp_sqrt x : continuous (fun x => exp (- sqrt x)) x.
Proof.
  apply (continuous_comp (fun x => - sqrt x) exp); [apply (continuous_opp (V := R_NormedModule)); apply cont_sqrt|].
  apply (@ex_derive_continuous R_AbsRing R_NormedModule). auto_derive. exact I.
Qed.
Lemma cont_m3 x : continuous m3 x.
Proof.
  apply (continuous_mult (K := R_AbsRing)); [|apply cont_exp_sqrt]. apply (continuous_plus (V := R_NormedModule)); [apply continuous_const|apply cont_sqrt].
Qed.
Lemma cont_m5 x : continuous m5 x.
Proof.
  apply (continuous_mult (K := R_AbsRing)); [|apply cont_exp_sqrt].
  apply (continuous_plus (V := R_NormedModule)); [apply (continuous_plus (V := R_NormedModule)); [apply continuous_const|apply cont_sqrt]|].
  apply (@ex_derive_continuous R_AbsRing R_NormedModule). auto_derive. exact I.
Qed.
Lemma m3_derive x : 0 < x -> is_derive m3 x (- / 2 * exp (- sqrt x)).
Proof.
  intro Hx. pose proof (sqrt_lt_R0 _ Hx). unfold m3. auto_derive; [repeat split; lra|]. field. lra.
Qed.
Lemma m5_derive x : 0 < x -> is_derive m5 x (- / 6 * m3 x).
Proof.
  intro Hx. pose proof (sqrt_lt_R0 _ Hx) as Sp. pose proof (sqrt_sqrt x ltac:(lra)) as SS. unfold m5, m3. auto_derive; [repeat split; lra|].
  set (y := sqrt x) in *. rewrite <- SS. field. lra.
Qed.
Lemma psd_tail n N (f h : R -> R) c : nonneg n N -> 0 <= c -> (forall x, continuous f x) -> (forall x, 0 < x -> 0 <= f x <= 256 / 3 * / x) ->
  (forall x, continuous h x) -> (forall x, 0 < x -> is_derive f x (- c * h x)) -> (forall r, 0 < r -> psd n (fun i j => h (N i j + r))) ->
  psd n (fun i j => f (N i j)).
Proof.
  intros P Hc Cf Bf Ch Df Ph. apply (psd_lim n (fun k i j => f (N i j + / (INR k + 1)) - f (N i j + (INR k + 1)))).
  - intro k. pose proof (pos_INR k) as Pk. assert (I1 : 0 < / (INR k + 1) <= 1).
    { split; [apply Rinv_0_lt_compat; lra|]. rewrite <- Rinv_1. apply Rinv_le_contravar; lra. }
    apply (psd_int n (fun r i j => c * h (N i j + r)) _ (/ (INR k + 1)) (INR k + 1)); [lra| |].
    + intros r Hr. apply psd_scal; [exact Hc|]. apply Ph. lra.
    + intros i j Hi Hj. specialize (P i j Hi Hj). evar_last.
      * apply (is_RInt_derive (V := R_CompleteNormedModule) (fun r => - f (N i j + r))).
        -- intros r Hr. rewrite Rmin_left, Rmax_right in Hr by lra.
           evar_last; [apply (is_derive_opp (V := R_NormedModule)); apply (is_derive_comp f (fun r => N i j + r) r); [apply Df; lra|auto_derive; [exact I|reflexivity]]|].
           unfold scal, opp. cbn. unfold mult. cbn. ring.
        -- intros r _. apply (continuous_mult (K := R_AbsRing)); [apply continuous_const|].
           apply (continuous_comp (fun r => N i j + r) h); [|apply Ch]. apply (@ex_derive_continuous R_AbsRing R_NormedModule). auto_derive. exact I.
      * unfold minus, plus, opp. cbn. ring.
  - intros i j Hi Hj. specialize (P i j Hi Hj). evar_last; [apply is_lim_seq_minus'; [apply m_head; apply Cf|apply m_tail; [exact Bf|exact P]]|]. cbn. f_equal. ring.
Qed.
Lemma cnd_shift n N r : cnd n N -> nonneg n N -> 0 < r -> cnd n (fun i j => N i j + r) /\ nonneg n (fun i j => N i j + r).
Proof. intros H P Hr. split; [apply cnd_plus; [exact H|apply cnd_const]|]. intros i j Hi Hj. specialize (P i j Hi Hj). lra. Qed.
Lemma psd_m1 n N : cnd n N -> nonneg n N -> psd n (fun i j => exp (- sqrt (N i j))).
Proof. intros H P. exact (cnd_exp n _ (cnd_sqrt n N H P)). Qed.
Lemma psd_m3 n N : cnd n N -> nonneg n N -> psd n (fun i j => m3 (N i j)).
Proof.
  intros H P. apply (psd_tail n N m3 (fun x => exp (- sqrt x)) (/ 2) P ltac:(lra) cont_m3 (fun x Hx => proj2 (tail_bound x Hx)) cont_exp_sqrt m3_derive).
  intros r Hr. destruct (cnd_shift n N r H P Hr). now apply (psd_m1 n (fun i j => N i j + r)).
Qed.
Lemma psd_m5 n N : cnd n N -> nonneg n N -> psd n (fun i j => m5 (N i j)).
Proof.
  intros H P. apply (psd_tail n N m5 m3 (/ 6) P ltac:(lra) cont_m5 (fun x Hx => proj1 (tail_bound x Hx)) cont_m3 m5_derive).
  intros r Hr. destruct (cnd_shift n N r H P Hr). now apply (psd_m3 n (fun i j => N i j + r)).
Qed.
(** Equality of labels *)
Lemma psd_same n (a : nat -> R) : psd n (fun i j => if Req_EM_T (a i) (a j) then 1 else 0).
Proof.
  apply (psd_lim n (fun k i j => exp (- (INR k * ((a i - a j) * (a i - a j)))))).
  - intro k. apply (cnd_exp n (fun i j => INR k * ((a i - a j) * (a i - a j)))). apply cnd_scal; [apply pos_INR|apply cnd_sqdiff].
  - intros i j _ _. destruct (Req_EM_T (a i) (a j)) as [E|E].
    + eapply is_lim_seq_ext; [|apply is_lim_seq_const]. intro k. rewrite E. replace (- (INR k * ((a j - a j) * (a j - a j)))) with 0 by ring. now rewrite exp_0.
    + apply exp_neg_scaled. nra.
Qed.
(** cos (a - b) *)
Lemma psd_cos n a : psd n (fun i j => cos (a i - a j)).
Proof.
  eapply psd_ext; [|exact (psd_plus n _ _ (psd_rank1 n (fun i => cos (a i))) (psd_rank1 n (fun i => sin (a i))))]. intros i j _ _. cbn beta. now rewrite cos_minus.
Qed.
