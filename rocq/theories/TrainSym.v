(** The matrices that fit factorises are symmetric, whatever the kernel. *)
From Coq Require Import List ZArith Bool Reals Lra Lia.
From Verif Require Import Base BaseLemmas Kernels KernelPsdSpec Gpr GprSpec GprLemmas GprProps GprPosterior Psd KernelPsd GprCov.
Import ListNotations.
Open Scope R_scope.
Open Scope list_scope.

Lemma zip_neg : forall x t, zip Rminus t x = map Ropp (zip Rminus x t).
Proof.
  induction x as [|a x IH]; intros [|b t]; try reflexivity.
  change (zip Rminus (b :: t) (a :: x)) with ((b - a) :: zip Rminus t x). change (zip Rminus (a :: x) (b :: t)) with ((a - b) :: zip Rminus x t).
  cbn [map]. rewrite IH. f_equal. ring.
Qed.
Lemma zip_div_neg : forall v ls, zip Rdiv (map Ropp v) ls = map Ropp (zip Rdiv v ls).
Proof.
  induction v as [|a v IH]; intros [|b ls]; try reflexivity. cbn [map].
  change (zip Rdiv (- a :: map Ropp v) (b :: ls)) with (- a / b :: zip Rdiv (map Ropp v) ls). change (zip Rdiv (a :: v) (b :: ls)) with (a / b :: zip Rdiv v ls).
  cbn [map]. rewrite IH. f_equal. unfold Rdiv. ring.
Qed.
Lemma sq_norm_neg v : sq_norm (map Ropp v) = sq_norm v.
Proof. unfold sq_norm. rewrite map_map. f_equal. apply map_ext. intro a. unfold sqr. ring. Qed.
Lemma minus_sym x t : minus t x = rmap (map Ropp) (minus x t).
Proof. unfold minus. rewrite (Nat.eqb_sym (length t)). destruct (Nat.eqb (length x) (length t)); [|reflexivity]. cbn [rmap]. now rewrite zip_neg. Qed.
Lemma diffs_sym l x t : diffs l t x = rmap (map Ropp) (diffs l x t).
Proof.
  unfold diffs. rewrite minus_sym. unfold minus. destruct (Nat.eqb_spec (length x) (length t)) as [E|]; [|reflexivity]. cbn [rmap bind]. rewrite <- E.
  destruct (scales l (length x)) as [ls|]; [|reflexivity]. cbn [bind rmap]. now rewrite zip_div_neg.
Qed.
Lemma mismatch_sym a b : mismatch a b = mismatch b a.
Proof. unfold mismatch. destruct (Req_EM_T a b), (Req_EM_T b a); congruence. Qed.
Lemma zip_sym (f : R -> R -> R) : (forall a b, f a b = f b a) -> forall x t, zip f x t = zip f t x.
Proof.
  intros Hf. induction x as [|a x IH]; intros [|b t]; try reflexivity.
  change (zip f (a :: x) (b :: t)) with (f a b :: zip f x t). change (zip f (b :: t) (a :: x)) with (f b a :: zip f t x). now rewrite Hf, IH.
Qed.
Lemma kcall_sym : forall k nd x t, kcall k nd x t = kcall k nd t x.
Proof.
  induction k; intros nd x t; cbn [kcall]; try reflexivity.
  - destruct (Nat.leb nd 2); [|reflexivity]. rewrite (diffs_sym l x t). destruct (diffs l x t); [|reflexivity]. cbn [rmap bind]. now rewrite sq_norm_neg.
  - destruct (Nat.leb nd 2); [|reflexivity]. rewrite (diffs_sym l x t). destruct (diffs l x t); [|reflexivity]. cbn [rmap bind]. unfold norm. now rewrite sq_norm_neg.
  - destruct (Nat.leb nd 2); [|reflexivity]. rewrite (minus_sym x t). destruct (minus x t); [|reflexivity]. cbn [rmap bind]. now rewrite sq_norm_neg.
  - destruct (Nat.leb nd 2); [|reflexivity]. rewrite (minus_sym x t). destruct (minus x t); [|reflexivity]. cbn [rmap bind]. unfold norm. now rewrite sq_norm_neg.
  - destruct (Nat.leb nd 2); [|reflexivity]. rewrite (Nat.eqb_sym (length x)). destruct (Nat.eqb (length t) (length x)); [|reflexivity]. now rewrite (zip_sym Rmult Rmult_comm x t).
  - now rewrite IHk.
  - now rewrite IHk1, IHk2.
  - now rewrite IHk1, IHk2.
  - destruct (Nat.leb nd 2); [|reflexivity]. unfold hamming. destruct (Nat.eqb_spec (length x) (length t)) as [E|E], (Nat.eqb_spec (length t) (length x)); try congruence.
    rewrite E. destruct (scales l (length t)); [|reflexivity]. cbn [bind]. now rewrite (zip_sym mismatch mismatch_sym x t).
Qed.
Lemma ktrain_sym : forall k same x t, ktrain k same x t = ktrain k same t x.
Proof.
  induction k; intros same x t; cbn [ktrain]; try reflexivity; try apply kcall_sym; [now rewrite IHk|now rewrite IHk1, IHk2|now rewrite IHk1, IHk2].
Qed.
Lemma train_symmetric k alpha X K : train_matrix k alpha X = Ok K -> symmetric K.
Proof.
  intro H. destruct (train_entries _ _ _ _ H) as (LK & FK & HK). split; [now rewrite LK|]. intros i j.
  destruct (Nat.lt_ge_cases i (length X)) as [Hi|Hi], (Nat.lt_ge_cases j (length X)) as [Hj|Hj]; [| | |]; try (rewrite !(entry_out K (length X)) by (auto; lia); reflexivity).
  destruct (HK i j Hi Hj) as (v & Ev & ->). destruct (HK j i Hj Hi) as (w & Ew & ->). rewrite ktrain_sym, (Nat.eqb_sym j i), Ev in Ew. injection Ew as <-. now rewrite Nat.eqb_sym.
Qed.
