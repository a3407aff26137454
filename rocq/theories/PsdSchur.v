(** The Schur complement of a block of a positive semi-definite matrix. *)
From Coq Require Import List ZArith Bool Reals Lra Lia.
From Verif Require Import Psd.
Import ListNotations.
Open Scope R_scope.

Section Schur.
  Context (N n : nat) (J K B : mx) (e : R) (HJ : psd (N + n) J) (HB : symm N B) (He : 0 <= e).
  Context (HK : forall a b, (a < N)%nat -> (b < N)%nat -> K a b = J a b + (if Nat.eqb a b then e else 0)).
  Context (HI : forall a b, (a < N)%nat -> (b < N)%nat -> sm N (fun c => K a c * B c b) = if Nat.eqb a b then 1 else 0).
  Definition bil (u v : nat -> R) : R := sm N (fun a => u a * sm N (fun b => v b * B a b)).
  Context (c : nat -> R).
  Let b (a : nat) : R := sm n (fun i => c i * J a (N + i)%nat).
  Let w (a : nat) : R := - sm N (fun b' => b b' * B a b').
  Let z (i : nat) : R := if Nat.ltb i N then w i else c (i - N)%nat.
  Lemma z_lt a : (a < N)%nat -> z a = w a.
  Proof. intro H. unfold z. apply Nat.ltb_lt in H. now rewrite H. Qed.
  Lemma z_ge i : z (N + i) = c i.
  Proof. unfold z. destruct (Nat.ltb_spec (N + i) N); [lia|]. f_equal. lia. Qed.
  Lemma qf_joint : qf (N + n) J z = qf N J w + 2 * sm N (fun a => w a * b a) + qf n (fun i j => J (N + i)%nat (N + j)%nat) c.
  Proof.
    unfold qf. rewrite sm_split.
    rewrite (sm_ext N _ (fun a => sm N (fun a' => w a * w a' * J a a') + w a * b a)).
    2: { intros a Ha. rewrite sm_split. f_equal.
         - apply sm_ext. intros a' Ha'. now rewrite !z_lt.
         - unfold b. rewrite <- sm_scal. apply sm_ext. intros i _. rewrite z_lt, z_ge by exact Ha. ring. }
    rewrite (sm_ext n _ (fun i => sm N (fun a => w a * (c i * J a (N + i)%nat)) + sm n (fun j => c i * c j * J (N + i)%nat (N + j)%nat))).
    2: { intros i Hi. rewrite sm_split. f_equal.
         - apply sm_ext. intros a Ha. rewrite z_ge, (z_lt a Ha). rewrite (proj1 HJ (N + i)%nat a) by lia. ring.
         - apply sm_ext. intros j _. now rewrite !z_ge. }
    rewrite !sm_plus. rewrite (sm_swap n N).
    rewrite (sm_ext N (fun j => sm n (fun i => w j * (c i * J j (N + i)%nat))) (fun a => w a * b a)).
    2: { intros a _. unfold b. now rewrite sm_scal. }
    ring.
  Qed.
  Lemma kw a : (a < N)%nat -> sm N (fun a' => w a' * K a a') = - b a.
  Proof.
    intro Ha. rewrite (sm_ext N _ (fun a' => (-1) * sm N (fun b' => b b' * (K a a' * B a' b')))).
    2: { intros a' _. unfold w. rewrite (sm_ext N (fun b' => b b' * (K a a' * B a' b')) (fun b' => K a a' * (b b' * B a' b'))) by (intros; ring). rewrite sm_scal. ring. }
    rewrite sm_scal, sm_swap. rewrite (sm_ext N _ (fun b' => if Nat.eqb b' a then b b' else 0)).
    - rewrite sm_delta. apply Nat.ltb_lt in Ha. rewrite Ha. ring.
    - intros b' Hb. rewrite sm_scal, HI by assumption. rewrite Nat.eqb_sym. destruct (Nat.eqb b' a); ring.
  Qed.
  Lemma wb : sm N (fun a => w a * b a) = - bil b b.
  Proof.
    unfold bil. replace (- sm N (fun a => b a * sm N (fun b' => b b' * B a b'))) with ((-1) * sm N (fun a => b a * sm N (fun b' => b b' * B a b'))) by ring. rewrite <- sm_scal. apply sm_ext. intros a _. unfold w. ring.
  Qed.
  Lemma qf_kw : qf N K w = bil b b.
  Proof.
    unfold qf. rewrite (sm_ext N _ (fun a => (-1) * (w a * b a))).
    - rewrite sm_scal, wb. ring.
    - intros a Ha. rewrite (sm_ext N _ (fun a' => w a * (w a' * K a a'))) by (intros; ring). rewrite sm_scal, kw by exact Ha. ring.
  Qed.
  Lemma qf_jw : qf N J w <= bil b b.
  Proof.
    rewrite <- qf_kw. rewrite (qf_ext N K (fun i j => J i j + (if Nat.eqb i j then e else 0)) w HK). rewrite qf_plus. pose proof (proj2 (psd_id N e He) w). lra.
  Qed.
  Lemma schur : bil b b <= qf n (fun i j => J (N + i)%nat (N + j)%nat) c.
  Proof. pose proof (proj2 HJ z) as H. rewrite qf_joint, wb in H. pose proof qf_jw. lra. Qed.
  Lemma bil_sum : qf n (fun i j => bil (fun a => J a (N + i)%nat) (fun a => J a (N + j)%nat)) c = bil b b.
  Proof.
    unfold qf, bil.
    transitivity (sm n (fun i => sm N (fun a => c i * J a (N + i)%nat * sm N (fun b' => b b' * B a b')))).
    - apply sm_ext. intros i _. transitivity (sm n (fun j => sm N (fun a => c i * J a (N + i)%nat * (c j * sm N (fun b' => J b' (N + j)%nat * B a b'))))).
      + apply sm_ext. intros j _. rewrite <- sm_scal. apply sm_ext. intros. ring.
      + rewrite sm_swap. apply sm_ext. intros a _. rewrite sm_scal. f_equal.
        transitivity (sm n (fun j => sm N (fun b' => c j * J b' (N + j)%nat * B a b'))).
        * apply sm_ext. intros j _. rewrite <- sm_scal. apply sm_ext. intros. ring.
        * rewrite sm_swap. apply sm_ext. intros b' _. unfold b. rewrite (Rmult_comm _ (B a b')), <- sm_scal. apply sm_ext. intros. ring.
    - rewrite sm_swap. apply sm_ext. intros a _. unfold b at 2. rewrite (Rmult_comm (sm n _)), <- sm_scal. apply sm_ext. intros. ring.
  Qed.
End Schur.
Lemma bil_sym N B u v : symm N B -> bil N B u v = bil N B v u.
Proof.
  intro HB. unfold bil. rewrite (sm_ext N _ (fun a => sm N (fun b => u a * (v b * B a b)))) by (intros; now rewrite sm_scal).
  rewrite sm_swap. apply sm_ext. intros b Hb. rewrite <- sm_scal. apply sm_ext. intros a Ha. rewrite (HB a b) by assumption. ring.
Qed.
Lemma psd_schur N n J K B e : psd (N + n) J -> symm N B -> 0 <= e ->
  (forall a b, (a < N)%nat -> (b < N)%nat -> K a b = J a b + (if Nat.eqb a b then e else 0)) ->
  (forall a b, (a < N)%nat -> (b < N)%nat -> sm N (fun c => K a c * B c b) = if Nat.eqb a b then 1 else 0) ->
  psd n (fun i j => J (N + i)%nat (N + j)%nat - bil N B (fun a => J a (N + i)%nat) (fun a => J a (N + j)%nat)).
Proof.
  intros HJ HB He HK HI. split.
  - intros i j Hi Hj. rewrite (proj1 HJ (N + i)%nat (N + j)%nat) by lia. f_equal. now rewrite bil_sym.
  - intro c. rewrite (qf_ext n _ (fun i j => J (N + i)%nat (N + j)%nat + (-1) * bil N B (fun a => J a (N + i)%nat) (fun a => J a (N + j)%nat))) by (intros; ring).
    rewrite qf_plus, qf_scal, bil_sum. pose proof (schur N n J K B e HJ He HK HI c). lra.
Qed.
