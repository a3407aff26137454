(** The Hamming kernel; where kernel gradients go wrong. *)
From Coq Require Import List ZArith Bool Reals Lra Lia.
From Coquelicot Require Import Coquelicot.
From Verif Require Import Base BaseLemmas Kernels KernelSpec AcqSpec GaussLemmas AcqLemmas KernelLemmas KernelProps.
Import ListNotations.
Open Scope R_scope.
Open Scope list_scope.

(** The number of features in which two rows differ. *)
Fixpoint differing (x t : list R) : nat :=
  match x, t with
  | a :: x', b :: t' => (if Req_EM_T a b then 0 else 1) + differing x' t'
  | _, _ => 0%nat
  end.
Definition positive_scale (l : scale) : Prop := match l with Iso l => 0 < l | Aniso ls => List.Forall (fun l => 0 < l) ls end.

Lemma scales_positive l d ls : scales l d = Ok ls -> positive_scale l -> List.Forall (fun l => 0 < l) ls.
Proof.
  destruct l as [l|[|l [|l' ls']]]; unfold scales; intros H N.
  - injection H as <-. now apply repeat_all.
  - destruct (Nat.eqb_spec (length (@nil R)) d); [|discriminate]. injection H as <-. constructor.
  - injection H as <-. apply repeat_all. now inversion N.
  - destruct (Nat.eqb_spec (length (l :: l' :: ls')) d); [|discriminate]. injection H as <-. exact N.
Qed.
Lemma hamming_inv l x t v : hamming l x t = Ok v -> length x = length t /\ exists ls, scales l (length x) = Ok ls /\
  v = exp (- sum (zip Rmult ls (zip mismatch x t))).
Proof.
  unfold hamming. destruct (Nat.eqb_spec (length x) (length t)) as [L|]; [|discriminate].
  destruct (scales l (length x)) as [ls|e] eqn:E; [|discriminate]. cbn [bind]. intro H. injection H as <-. split; [exact L|eauto].
Qed.
Lemma mismatch_range a b : 0 <= mismatch a b <= 1. Proof. unfold mismatch. destruct (Req_EM_T a b); lra. Qed.
Lemma mismatch_sym a b : mismatch a b = mismatch b a.
Proof. unfold mismatch. destruct (Req_EM_T a b), (Req_EM_T b a); congruence. Qed.
Lemma weights_nonneg : forall ls x t, List.Forall (fun l => 0 < l) ls -> 0 <= sum (zip Rmult ls (zip mismatch x t)).
Proof.
  induction ls as [|l ls IH]; intros x t F; [cbn; lra|]. destruct x as [|a x]; [cbn; lra|]. destruct t as [|b t]; [cbn; lra|].
  inversion F; subst. change (0 <= l * mismatch a b + sum (zip Rmult ls (zip mismatch x t))). specialize (IH x t H2).
  pose proof (mismatch_range a b). nra.
Qed.
Lemma weights_0 : forall ls x t, List.Forall (fun l => 0 < l) ls -> length x = length t -> length ls = length x ->
  sum (zip Rmult ls (zip mismatch x t)) = 0 -> x = t.
Proof.
  induction ls as [|l ls IH]; intros [|a x] [|b t] F L1 L2 H; try discriminate; [reflexivity|]. cbn in L1, L2. inversion F; subst.
  change (l * mismatch a b + sum (zip Rmult ls (zip mismatch x t)) = 0) in H. pose proof (weights_nonneg ls x t H3).
  pose proof (mismatch_range a b). assert (0 <= l * mismatch a b) by (apply Rmult_le_pos; lra).
  assert (Z : l * mismatch a b = 0) by lra. f_equal.
  - unfold mismatch in Z. destruct (Req_EM_T a b); [assumption|]. lra.
  - apply IH; auto. lra.
Qed.
Lemma weights_same : forall ls x, sum (zip Rmult ls (zip mismatch x x)) = 0.
Proof.
  induction ls as [|l ls IH]; intros [|a x]; try reflexivity.
  change (l * mismatch a a + sum (zip Rmult ls (zip mismatch x x)) = 0). rewrite IH. unfold mismatch. destruct (Req_EM_T a a); [ring|contradiction].
Qed.
Lemma mismatches_sym : forall x t, zip mismatch x t = zip mismatch t x.
Proof.
  induction x as [|a x IH]; intros [|b t]; try reflexivity.
  change (mismatch a b :: zip mismatch x t = mismatch b a :: zip mismatch t x). now rewrite IH, mismatch_sym.
Qed.

Lemma hamming_similarity l x t v : positive_scale l -> hamming l x t = Ok v ->
  0 < v <= 1 /\ (v = 1 <-> x = t) /\ hamming l t x = Ok v.
Proof.
  intros P H. destruct (hamming_inv _ _ _ _ H) as (L & ls & E & ->). pose proof (scales_positive _ _ _ E P) as F.
  pose proof (weights_nonneg ls x t F) as W. pose proof (scales_len _ _ _ E) as Ls.
  split; [|split].
  - split; [apply exp_pos|]. rewrite <- exp_0. destruct (Rle_lt_or_eq_dec _ _ W) as [Q|Q].
    + apply Rlt_le, exp_increasing. lra.
    + rewrite <- Q, Ropp_0. apply Rle_refl.
  - split.
    + intro Q. rewrite <- exp_0 in Q. apply exp_inv in Q. apply (weights_0 ls); auto. lra.
    + intros <-. rewrite weights_same, Ropp_0. apply exp_0.
  - unfold hamming. rewrite L, Nat.eqb_refl, <- L, E. cbn [bind]. now rewrite mismatches_sym.
Qed.
Lemma hamming_total l x t : length x = length t -> fits l (length x) -> exists v, hamming l x t = Ok v.
Proof.
  intros L F. destruct (fits_scales _ _ F) as [ls E]. unfold hamming. rewrite L, Nat.eqb_refl, <- L, E. eexists. reflexivity.
Qed.
Lemma weights_iso l : forall x t n, length x = n -> length x = length t ->
  sum (zip Rmult (repeat l n) (zip mismatch x t)) = l * INR (differing x t).
Proof.
  induction x as [|a x IH]; intros [|b t] [|n] L1 L2; try discriminate; [cbn; ring|]. cbn in L1, L2.
  change (l * mismatch a b + sum (zip Rmult (repeat l n) (zip mismatch x t)) = l * INR (differing (a :: x) (b :: t))).
  rewrite IH by congruence. cbn [differing]. unfold mismatch. destruct (Req_EM_T a b); [change (0 + differing x t)%nat with (differing x t); ring|]. change (1 + differing x t)%nat with (S (differing x t)). rewrite S_INR. ring.
Qed.
Lemma hamming_count l x t v x' t' v' : 0 < l -> hamming (Iso l) x t = Ok v -> hamming (Iso l) x' t' = Ok v' ->
  (differing x t < differing x' t')%nat -> v' < v.
Proof.
  intros P H H' C. destruct (hamming_inv _ _ _ _ H) as (L & ls & E & ->). destruct (hamming_inv _ _ _ _ H') as (L' & ls' & E' & ->).
  injection E as <-. injection E' as <-. rewrite !weights_iso by congruence. apply exp_increasing. apply lt_INR in C. nra.
Qed.
Lemma weights_mono : forall ls x t x' t', List.Forall (fun l => 0 < l) ls -> length x = length t -> length x = length x' -> length x = length t' -> length ls = length x ->
  (forall i a b, nth_error x' i = Some a -> nth_error t' i = Some b -> a = b -> nth_error x i = nth_error t i) ->
  sum (zip Rmult ls (zip mismatch x t)) <= sum (zip Rmult ls (zip mismatch x' t')).
Proof.
  induction ls as [|l ls IH]; intros [|a x] [|b t] [|a' x'] [|b' t'] F L1 L2 L3 L4 H; try discriminate; [cbn; lra|]. cbn in L1, L2, L3, L4. inversion F; subst.
  change (l * mismatch a b + sum (zip Rmult ls (zip mismatch x t)) <= l * mismatch a' b' + sum (zip Rmult ls (zip mismatch x' t'))).
  apply Rplus_le_compat.
  - specialize (H 0%nat a' b' eq_refl eq_refl). cbn in H. unfold mismatch. destruct (Req_EM_T a' b') as [Q|Q].
    + specialize (H Q). destruct (Req_EM_T a b); [lra|congruence].
    + destruct (Req_EM_T a b); lra.
  - apply IH; auto. intros i c d. exact (H (S i) c d).
Qed.
(** More mismatches, less similar, whatever the scales. *)
Lemma hamming_mono l x t v x' t' v' : positive_scale l -> length x = length x' -> hamming l x t = Ok v -> hamming l x' t' = Ok v' ->
  (forall i a b, nth_error x' i = Some a -> nth_error t' i = Some b -> a = b -> nth_error x i = nth_error t i) -> v' <= v.
Proof.
  intros P Lx H H' M. destruct (hamming_inv _ _ _ _ H) as (L & ls & E & ->). destruct (hamming_inv _ _ _ _ H') as (L' & ls' & E' & ->).
  rewrite <- Lx, E in E'. injection E' as <-. pose proof (scales_positive _ _ _ E P) as F. pose proof (scales_len _ _ _ E) as Ls.
  pose proof (weights_mono ls x t x' t' F L Lx ltac:(congruence) Ls M) as W.
  destruct (Rle_lt_or_eq_dec _ _ W) as [Q|Q]; [apply Rlt_le, exp_increasing; lra|rewrite Q; apply Rle_refl].
Qed.

(** The derivatives with respect to the logarithms of the scales *)
Lemma ind_sum : forall x t, length x = length t -> sum (zip mismatch x t) = INR (differing x t).
Proof.
  induction x as [|a x IH]; intros [|b t] L; try discriminate; [reflexivity|]. cbn in L.
  change (mismatch a b + sum (zip mismatch x t) = INR (differing (a :: x) (b :: t))). rewrite IH by congruence. cbn [differing].
  unfold mismatch. destruct (Req_EM_T a b); [change (0 + differing x t)%nat with (differing x t); ring|]. change (1 + differing x t)%nat with (S (differing x t)). rewrite S_INR. ring.
Qed.
Lemma hamming_grad_iso l x t : 0 < l -> length x = length t ->
  exists d, hamming_grad (Iso l) x t = Ok [d] /\ is_derive (fun th => value (hamming (Iso (exp th)) x t)) (ln l) d.
Proof.
  intros P L. unfold hamming_grad, hamming. rewrite L, Nat.eqb_refl. cbn [scales bind]. eexists. split; [reflexivity|].
  rewrite weights_iso by congruence. rewrite ind_sum by exact L.
  apply d_ext with (fun th => exp (- (exp th * INR (differing x t)))).
  { intro th. cbn [value]. now rewrite weights_iso by congruence. }
  auto_derive; [exact I|]. rewrite exp_ln by exact P. ring.
Qed.
Lemma weights_coordinate : forall ths ind i b, length ths = length ind -> nth_error ind i = Some b ->
  exists c, forall u, sum (zip Rmult (map exp (put ths i u)) ind) = c + exp u * b.
Proof.
  induction ths as [|h ths IH]; intros [|b0 ind] [|i] b L Hb; try discriminate; cbn in L, Hb.
  - injection Hb as <-. exists (sum (zip Rmult (map exp ths) ind)). intro u.
    change (exp u * b0 + sum (zip Rmult (map exp ths) ind) = sum (zip Rmult (map exp ths) ind) + exp u * b0). ring.
  - destruct (IH ind i b) as [c E]; auto. exists (exp h * b0 + c). intro u.
    change (exp h * b0 + sum (zip Rmult (map exp (put ths i u)) ind) = exp h * b0 + c + exp u * b). rewrite E. ring.
Qed.
Lemma exp_ln_map : forall ls, List.Forall (fun l => 0 < l) ls -> map exp (map ln ls) = ls.
Proof. induction ls as [|l ls IH]; intro F; [reflexivity|]. inversion F; subst. cbn. now rewrite exp_ln, IH by assumption. Qed.
Lemma hamming_many ls x t : (2 <= length ls)%nat -> length ls = length x -> length x = length t ->
  hamming (Aniso ls) x t = Ok (exp (- sum (zip Rmult ls (zip mismatch x t)))).
Proof.
  intros L1 L2 L3. unfold hamming. rewrite L3, Nat.eqb_refl, <- L3. unfold scales.
  destruct ls as [|l [|l' ls]]; cbn in L1; try lia. rewrite L2, Nat.eqb_refl. reflexivity.
Qed.
Lemma hamming_grad_aniso ls x t : (2 <= length ls)%nat -> List.Forall (fun l => 0 < l) ls -> length ls = length x -> length x = length t ->
  exists g, hamming_grad (Aniso ls) x t = Ok g /\ gradient (fun ths => value (hamming (Aniso (map exp ths)) x t)) (map ln ls) g.
Proof.
  intros L1 F L2 L3.
  assert (G : hamming_grad (Aniso ls) x t =
    Ok (zip Rmult (map (fun i => - exp (- sum (zip Rmult ls (zip mismatch x t))) * i) (zip mismatch x t)) ls)).
  { unfold hamming_grad. rewrite L3, Nat.eqb_refl, <- L3. unfold scales.
    destruct ls as [|l [|l' ls]]; cbn in L1; try lia. rewrite L2, Nat.eqb_refl. reflexivity. }
  eexists. split; [exact G|]. clear G.
  assert (Lm : length (zip mismatch x t) = length x) by (apply zip_len; congruence).
  split; [rewrite map_length, zip_len; rewrite map_length; congruence|].
  intros i a d Ha Hd. apply zip_nth_inv in Hd. destruct Hd as (q & l & Hq & Hl & ->).
  apply map_nth_inv in Hq. destruct Hq as (b & Hb & ->). apply map_nth_inv in Ha. destruct Ha as (l1 & Hl1 & ->).
  assert (l = l1) by congruence. subst l. destruct (weights_coordinate (map ln ls) (zip mismatch x t) i b) as [c E]; [rewrite map_length; congruence|exact Hb|].
  assert (Pl : 0 < l1) by (rewrite List.Forall_forall in F; apply F; now apply nth_error_In in Hl1).
  apply d_ext with (fun u => exp (- (c + exp u * b))).
  { intro u. rewrite hamming_many; [|rewrite map_length, put_len, map_length; assumption|rewrite map_length, put_len, map_length; assumption|exact L3].
    cbn [value]. now rewrite E. }
  specialize (E (ln l1)). rewrite put_same in E by (now apply map_nth_error). rewrite exp_ln_map in E by exact F. rewrite E.
  auto_derive; [exact I|]. rewrite exp_ln by exact Pl. ring.
Qed.

(** ** The kink of exp(-distance) *)
Lemma no_derivative (d : R) : ~ is_derive (fun u => exp (- Rabs u)) 0 d.
Proof.
  intro H. apply is_derive_Reals in H. destruct (H (/ 8) ltac:(lra)) as [delta Hd].
  set (s := Rmin (delta / 2) 1). pose proof (cond_pos delta) as Pd.
  assert (Hs : 0 < s /\ s < delta /\ s <= 1).
  { unfold s. pose proof (Rmin_l (delta / 2) 1). pose proof (Rmin_r (delta / 2) 1). split; [apply Rmin_pos; lra|lra]. }
  destruct Hs as (S0 & S1 & S2).
  pose proof (Hd s ltac:(lra) ltac:(rewrite Rabs_right; lra)) as Q1.
  pose proof (Hd (- s) ltac:(lra) ltac:(rewrite Rabs_Ropp, Rabs_right; lra)) as Q2.
  rewrite Rplus_0_l, Rabs_R0, Ropp_0, exp_0, (Rabs_right s) in Q1 by lra.
  rewrite Rplus_0_l, Rabs_R0, Ropp_0, exp_0, Rabs_Ropp, (Rabs_right s) in Q2 by lra.
  assert (Eb : exp (- s) <= 1 - s / 2).
  { rewrite exp_Ropp. assert (1 + s < exp s) by (apply exp_ineq1; lra).
    apply Rle_trans with (/ (1 + s)); [apply Rlt_le, Rinv_lt_contravar; [apply Rmult_lt_0_compat; lra|exact H0]|].
    apply (Rmult_le_reg_r (1 + s)); [lra|]. rewrite Rinv_l by lra. nra. }
  set (q := (exp (- s) - 1) / s) in *.
  assert (Hq : q <= - / 2) by (unfold q; apply (Rmult_le_reg_r s); [exact S0|]; unfold Rdiv; rewrite Rmult_assoc, Rinv_l by lra; lra).
  replace ((exp (- s) - 1) / - s) with (- q) in Q2 by (unfold q; field; lra).
  apply Rabs_def2 in Q1. apply Rabs_def2 in Q2. lra.
Qed.
Lemma matern_half_1 u : kcall (Matern NuHalf (Iso 1)) 2 [u] [0] = Ok (exp (- Rabs u)).
Proof.
  cbn -[Rplus Rdiv Rminus]. unfold norm, sq_norm. cbn -[Rplus Rdiv Rminus].
  replace (sqr ((u - 0) / 1) + 0) with (u * u) by (unfold sqr; field). rewrite <- (sqrt_Rsqr_abs u). reflexivity.
Qed.
Lemma kink : gradient_x (Matern NuHalf (Iso 1)) 1 [0] [0] = Ok [-1] /\
  forall g, ~ gradient (fun x => value (kcall (Matern NuHalf (Iso 1)) 2 x [0])) [0] g.
Proof.
  split.
  - cbn -[Rplus Rdiv Rminus Req_EM_T]. unfold norm, sq_norm. cbn -[Rplus Rdiv Rminus Req_EM_T].
    replace (sqr ((0 - 0) / 1) + 0) with 0 by (unfold sqr; field). rewrite sqrt_0. destruct (Req_EM_T 0 0); [|contradiction].
    cbn. do 2 f_equal. field.
  - intros [|d [|]] [L H]; try discriminate. specialize (H 0%nat 0 d eq_refl eq_refl). apply (no_derivative d).
    eapply d_ext; [|exact H]. intro u. cbn [put]. now rewrite matern_half_1.
Qed.
