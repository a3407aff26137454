(** The posterior at and away from the training points. *)
From Coq Require Import List ZArith Bool Reals Lra Lia.
From Coquelicot Require Import Coquelicot.
From Verif Require Import Base BaseLemmas Kernels KernelSpec AcqSpec GaussLemmas AcqLemmas KernelLemmas KernelProps Gpr GprSpec GprLemmas GprProps.
Import ListNotations.
Open Scope R_scope.
Open Scope list_scope.

Lemma Forall2_nth_ok {A B} (Q : A -> B -> Prop) : forall l m, Forall2 Q l m -> forall i a, nth_error l i = Some a -> exists b, nth_error m i = Some b /\ Q a b.
Proof. induction 1 as [|a b l m H F IH]; intros [|i] c E; try discriminate; cbn in *; [injection E as <-; eauto|eauto]. Qed.

(** ** Values on the diagonal *)
Lemma zip_self (f : R -> R -> R) c : (forall a, f a a = c) -> forall x, zip f x x = map (fun _ => c) x.
Proof. intro H. induction x as [|a x IH]; [reflexivity|]. change (f a a :: zip f x x = c :: map (fun _ => c) x). now rewrite H, IH. Qed.
Lemma zip_0 (f : R -> R -> R) {A} : (forall a, f 0 a = 0) -> forall (x : list A) ls, List.Forall (fun a => a = 0) (zip f (map (fun _ => 0) x) ls).
Proof. intro H. induction x as [|a x IH]; intros [|l ls]; cbn; constructor; [apply H|apply IH]. Qed.
Lemma sq_norm_0 v : List.Forall (fun a => a = 0) v -> sq_norm v = 0.
Proof. induction 1 as [|a v -> F IH]; [reflexivity|]. unfold sq_norm in *. cbn [map sum fold_right]. fold (sum (map sqr v)). rewrite IH. unfold sqr. ring. Qed.
Lemma diffs_self l x v : diffs l x x = Ok v -> sq_norm v = 0.
Proof.
  unfold diffs, minus. rewrite Nat.eqb_refl. cbn [bind]. destruct (scales l (length x)) as [ls|]; [|discriminate]. cbn [bind]. intro H. injection H as <-.
  apply sq_norm_0. rewrite (zip_self Rminus 0) by (intro; ring). apply zip_0. intro. unfold Rdiv. ring.
Qed.
Lemma minus_self x v : minus x x = Ok v -> sq_norm v = 0.
Proof.
  unfold minus. rewrite Nat.eqb_refl. intro H. injection H as <-. apply sq_norm_0. rewrite (zip_self Rminus 0) by (intro; ring).
  induction x; constructor; auto.
Qed.
Lemma mismatch_self a : mismatch a a = 0. Proof. unfold mismatch. destruct (Req_EM_T a a); congruence. Qed.

Lemma kdiag_self : forall k x v, no_white k -> kcall k 2 x x = Ok v -> kdiag k x = Ok v.
Proof.
  induction k; intros x v N H; cbn [kcall kdiag no_white Nat.leb] in *; try contradiction.
  - destruct (diffs l x x) as [w|] eqn:E; [|discriminate]. injection H as <-. rewrite (diffs_self _ _ _ E), Rmult_0_r, exp_0. reflexivity.
  - destruct (diffs l x x) as [w|] eqn:E; [|discriminate]. injection H as <-. unfold norm. rewrite (diffs_self _ _ _ E), sqrt_0.
    destruct n; unfold matern, sqr; rewrite ?Rmult_0_r, Ropp_0, exp_0; f_equal; field.
  - destruct (minus x x) as [w|] eqn:E; [|discriminate]. injection H as <-. rewrite (minus_self _ _ E). unfold Rdiv at 1. rewrite Rmult_0_l, Rplus_0_r.
    unfold Rpower. rewrite ln_1, Rmult_0_r, exp_0. reflexivity.
  - destruct (minus x x) as [w|] eqn:E; [|discriminate]. injection H as <-. unfold norm. rewrite (minus_self _ _ E), sqrt_0, Rmult_0_r.
    unfold Rdiv. rewrite Rmult_0_l, sin_0, Rmult_0_l. unfold sqr. rewrite !Rmult_0_r, exp_0. reflexivity.
  - exact H.
  - rewrite Nat.eqb_refl in H. exact H.
  - destruct (kcall k 2 x x) as [b|] eqn:E; [|discriminate]. now rewrite (IHk x b N E).
  - destruct N as [N1 N2]. destruct (kcall k1 2 x x) as [a|] eqn:E1; [|discriminate]. destruct (kcall k2 2 x x) as [b|] eqn:E2; [|discriminate].
    now rewrite (IHk1 x a N1 E1), (IHk2 x b N2 E2).
  - destruct N as [N1 N2]. destruct (kcall k1 2 x x) as [a|] eqn:E1; [|discriminate]. destruct (kcall k2 2 x x) as [b|] eqn:E2; [|discriminate].
    now rewrite (IHk1 x a N1 E1), (IHk2 x b N2 E2).
  - unfold hamming in H. rewrite Nat.eqb_refl in H. destruct (scales l (length x)) as [ls|]; [|discriminate]. injection H as <-.
    rewrite (zip_self mismatch 0 mismatch_self).
    assert (Z : forall (ls : list R) (x : list R), sum (zip Rmult ls (map (fun _ => 0) x)) = 0).
    { clear. induction ls as [|a ls IH]; intros [|b x]; try reflexivity. change (a * 0 + sum (zip Rmult ls (map (fun _ => 0) x)) = 0). rewrite IH. ring. }
    rewrite Z, Ropp_0, exp_0. reflexivity.
Qed.
Lemma ktrain_kcall : forall k same x t, no_white k -> ktrain k same x t = kcall k 2 x t.
Proof.
  induction k; intros same x t N; cbn [no_white] in N; try reflexivity; try contradiction.
  - cbn [ktrain kcall]. now rewrite IHk.
  - destruct N as [N1 N2]. cbn [ktrain kcall]. now rewrite IHk1, IHk2.
  - destruct N as [N1 N2]. cbn [ktrain kcall]. now rewrite IHk1, IHk2.
Qed.

(** ** Linear algebra *)
Lemma dot_shift (s : R) : forall kt Ki b i, length kt = length Ki -> length b = length Ki -> (i < length Ki)%nat ->
  (forall j, (j < length Ki)%nat -> nth j kt 0 = nth j Ki 0 - (if Nat.eqb i j then s else 0)) ->
  dot kt b = dot Ki b - s * nth i b 0.
Proof.
  induction kt as [|x kt IH]; intros [|z Ki] [|y b] i L1 L2 Hi H; cbn [length] in *; try discriminate; try lia.
  rewrite !dot_cons. pose proof (H 0%nat ltac:(lia)) as H0. cbn [nth] in H0. destruct i as [|i].
  - cbn [Nat.eqb nth] in *. assert (E : kt = Ki).
    { apply nth_ext with 0 0; [lia|]. intros n Hn. specialize (H (S n) ltac:(lia)). cbn [nth] in H. rewrite H. ring. }
    rewrite E, H0. ring.
  - cbn [Nat.eqb nth] in *. rewrite (IH Ki b i) by (try lia; intros j Hj; apply (H (S j)); lia). rewrite H0. ring.
Qed.
Lemma nth_map {A} (f : A -> R) l d i : (i < length l)%nat -> nth i (map f l) 0 = f (nth i l d).
Proof. intro H. rewrite (nth_indep _ 0 (f d)) by now rewrite map_length. apply map_nth. Qed.

Lemma kinv_len (A : mat) : @length (list R) (kinv A) = @length (list R) A.
Proof. exact (map_length _ _). Qed.

Section Inverse.
  Context (K A : mat) (HA : inverse_factor K A) (Hsq : forall r, In r K -> length r = length K).
  Let M i := map (dot (nth i A [])) A.
  Lemma inv_row i j : (i < length K)%nat -> (j < length K)%nat -> dot (nth i K []) (M j) = if Nat.eqb i j then 1 else 0.
  Proof.
    intros Hi Hj. destruct HA as [LA E]. rewrite <- (E i j Hi Hj). unfold M. apply dot_ext. intro r. apply dot_comm.
  Qed.
  Lemma form_shift kt i s : (i < length K)%nat -> length kt = length K ->
    (forall j, (j < length K)%nat -> nth j kt 0 = nth j (nth i K []) 0 - (if Nat.eqb i j then s else 0)) ->
    form A kt kt = nth i (nth i K []) 0 - 2 * s + s * s * dot (nth i A []) (nth i A []).
  Proof.
    intros Hi Lk Hk. destruct HA as [LA _]. pose proof (Hsq (nth i K []) (nth_In _ _ Hi)) as LKi.
    assert (LM : forall j, length (M j) = length K) by (intro; unfold M; now rewrite map_length).
    assert (W : forall j, (j < length K)%nat -> dot kt (M j) = (if Nat.eqb i j then 1 else 0) - s * nth i (M j) 0).
    { intros j Hj. rewrite <- (inv_row i j Hi Hj). apply dot_shift; rewrite ?LKi; auto. }
    assert (MM : forall j, (j < length K)%nat -> nth i (M j) 0 = nth j (M i) 0).
    { intros j Hj. unfold M. rewrite !(nth_map _ A []) by lia. apply dot_comm. }
    unfold form. set (w := map (dot kt) (kinv A)).
    assert (Lw : length w = length K) by (unfold w; rewrite map_length; exact (eq_trans (kinv_len A) LA)).
    assert (Nw : forall j, (j < length K)%nat -> nth j w 0 = (if Nat.eqb i j then 1 else 0) - s * nth j (M i) 0).
    { intros j Hj. rewrite <- MM, <- W by exact Hj. unfold w. rewrite (nth_map _ (kinv A) []) by (rewrite kinv_len, LA; exact Hj). f_equal.
      unfold M. rewrite (nth_indep _ [] (map (dot []) A)) by (rewrite kinv_len, LA; exact Hj).
      exact (map_nth (fun r => map (dot r) A) A [] j). }
    rewrite (dot_shift s kt (nth i K []) w i) by (rewrite ?LKi; auto).
    rewrite (Nw i Hi), Nat.eqb_refl. rewrite (dot_comm (nth i K [])).
    rewrite (dot_shift (- 1) w (map (fun r : list R => - s * dot (nth i A []) r) A) (nth i K []) i); rewrite ?map_length; try lia.
    - rewrite (dot_comm (map _ _)), dot_scal. change (dot (nth i K []) (map _ A)) with (dot (nth i K []) (M i)). rewrite (inv_row i i Hi Hi), Nat.eqb_refl.
      replace (nth i (M i) 0) with (dot (nth i A []) (nth i A [])) by (unfold M; now rewrite (nth_map _ A []) by lia). ring.
    - intros j Hj. rewrite Nw by lia. rewrite (nth_map _ A []) by lia. unfold M. rewrite (nth_map _ A []) by lia. destruct (Nat.eqb i j); ring.
  Qed.
End Inverse.

(** ** The prior bounds the posterior *)
Lemma var_nonneg_le d q : 0 <= q -> (if Rlt_dec (d - q) 0 then 0 else d - q) <= Rmax d 0.
Proof. intro H. unfold Rmax. destruct (Rlt_dec (d - q) 0), (Rle_dec d 0); lra. Qed.
Lemma sqrt_max d : sqrt (Rmax d 0) = sqrt d.
Proof. unfold Rmax. destruct (Rle_dec d 0); [|reflexivity]. rewrite sqrt_0. symmetry. now apply sqrt_neg_0. Qed.
Lemma std_prior g x s d : post_std g x = Ok s -> kdiag (g_kernel g) x = Ok d -> s <= Rabs (g_ystd g) * sqrt d.
Proof.
  unfold post_std. intros H Hd. destruct (mapM (kcall (g_kernel g) 2 x) (g_X g)) as [kt|]; [|discriminate]. cbn [bind] in H. rewrite Hd in H. cbn [bind] in H.
  injection H as <-. change (dot kt (map (dot kt) (kinv (g_Linv g)))) with (form (g_Linv g) kt kt).
  pose proof (var_nonneg_le d _ (form_nonneg (g_Linv g) kt)) as B. set (v := if Rlt_dec _ _ then _ else _) in *.
  assert (0 <= v) by (unfold v; destruct (Rlt_dec _ _); lra). unfold sqr. rewrite sqrt_mult by nra. change (g_ystd g * g_ystd g) with (Rsqr (g_ystd g)). rewrite sqrt_Rsqr_abs, Rmult_comm.
  apply Rmult_le_compat_l; [apply Rabs_pos|]. rewrite <- (sqrt_max d). now apply sqrt_le_1_alt.
Qed.

(** ** At the training points *)
Section Training.
  Context (k1 : kernel) (N : no_white k1) (v alpha : R) (X K : mat).
  (** [noisy]: with the white noise term that fit appends *)
  Definition with_white (noisy : bool) (w : R) : kernel := if noisy then Sum k1 (White w) else k1.
  Context (noisy : bool) (HK : train_matrix (with_white noisy v) alpha X = Ok K).
  Definition extra : R := alpha + if noisy then v else 0.

  Lemma train_row i x : nth_error X i = Some x ->
    exists r, nth_error K i = Some r /\ length r = length X /\
    exists kt, mapM (kcall (with_white noisy 0) 2 x) X = Ok kt /\ length kt = length X /\
      (forall j, (j < length X)%nat -> nth j kt 0 = nth j r 0 - (if Nat.eqb i j then extra else 0)).
  Proof.
    intro Hi. unfold train_matrix in HK. apply mapM_ok in HK.
    assert (E : nth_error (enumerate X) i = Some (i, x)) by (unfold enumerate; rewrite enumerate_from_nth, Hi; reflexivity).
    destruct (Forall2_nth_ok _ _ _ HK _ _ E) as (r & Hr & F). cbn [fst snd] in F. exists r. split; [exact Hr|].
    apply mapM_ok in F. assert (Lr : length r = length X) by (apply Forall2_len in F; unfold enumerate in F; rewrite enumerate_from_length in F; lia).
    split; [exact Lr|].
    assert (T : forall j t, nth_error X j = Some t -> exists a b, nth_error r j = Some a /\ kcall (with_white noisy 0) 2 x t = Ok b /\ b = a - (if Nat.eqb i j then extra else 0)).
    { intros j t Hj. assert (Ej : nth_error (enumerate X) j = Some (j, t)) by (unfold enumerate; rewrite enumerate_from_nth, Hj; reflexivity).
      destruct (Forall2_nth_ok _ _ _ F _ _ Ej) as (a & Ha & Fa). cbn [fst snd] in Fa.
      unfold with_white, extra in *. destruct noisy; cbn [ktrain kcall] in *; rewrite ktrain_kcall in Fa by exact N;
        destruct (kcall k1 2 x t) as [c|]; try discriminate; cbn [bind] in *; injection Fa as <-; eexists; eexists; (split; [exact Ha|]); (split; [reflexivity|]);
        destruct (Nat.eqb i j); ring. }
    destruct (mapM_total (kcall (with_white noisy 0) 2 x) X) as [kt Ek].
    { apply List.Forall_forall. intros t It. apply In_nth_error in It. destruct It as [j Hj]. destruct (T j t Hj) as (a & b & _ & Hb & _). eauto. }
    exists kt. split; [exact Ek|]. assert (Lk : length kt = length X) by now apply mapM_length in Ek. split; [exact Lk|].
    intros j Hj. apply mapM_ok in Ek. destruct (nth_error X j) as [t|] eqn:Ht; [|apply nth_error_None in Ht; lia].
    destruct (Forall2_nth_ok _ _ _ Ek _ _ Ht) as (b & Hb & Eb). destruct (T j t Ht) as (a & b' & Ha & Hb' & ->).
    rewrite (nth_error_nth _ _ _ Hb), (nth_error_nth _ _ _ Ha). congruence.
  Qed.
  Lemma train_square : length K = length X /\ forall r, In r K -> length r = length K.
  Proof.
    assert (L : length K = length X) by (unfold train_matrix in HK; apply mapM_length in HK; unfold enumerate in HK; now rewrite enumerate_from_length in HK).
    split; [exact L|]. intros r Hr. apply In_nth_error in Hr. destruct Hr as [i Hi]. assert (i < length X)%nat by (rewrite <- L; apply nth_error_Some; congruence).
    destruct (nth_error X i) as [x|] eqn:Hx; [|apply nth_error_None in Hx; lia]. destruct (train_row i x Hx) as (r' & Hr' & Lr & _). congruence.
  Qed.
  Lemma diag_entry i x r d : nth_error X i = Some x -> nth_error K i = Some r -> kdiag (with_white noisy 0) x = Ok d -> d = nth i r 0 - extra.
  Proof.
    intros Hx Hr Hd. destruct (train_row i x Hx) as (r' & Hr' & Lr & kt & Ek & Lk & Hk). assert (r' = r) by congruence; subst r'.
    assert (Hi : (i < length X)%nat) by (apply nth_error_Some; congruence). specialize (Hk i Hi). rewrite Nat.eqb_refl in Hk. rewrite <- Hk.
    apply mapM_ok in Ek. destruct (Forall2_nth_ok _ _ _ Ek _ _ Hx) as (b & Hb & Eb). rewrite (nth_error_nth _ _ _ Hb).
    unfold with_white in *. destruct noisy; cbn [kcall kdiag] in *.
    - destruct (kcall k1 2 x x) as [c|] eqn:Ec; [|discriminate]. rewrite (kdiag_self _ _ _ N Ec) in Hd. cbn [bind] in *. congruence.
    - rewrite (kdiag_self _ _ _ N Eb) in Hd. congruence.
  Qed.

  Context (A : mat) (a yn : vec) (HA : inverse_factor K A) (Ha : solves K yn a).
  Context (m sd : R) (nz : option R).
  Let g := mkGp X (with_white noisy 0) a A m sd nz.
  Lemma at_training i x : nth_error X i = Some x ->
    post_mean g x = Ok (sd * (nth i yn 0 - extra * nth i a 0) + m) /\
    exists q, 0 <= q /\ post_std g x = Ok (sqrt (Rmax (extra - extra * extra * q) 0 * sqr sd)).
  Proof.
    intro Hx. destruct (train_row i x Hx) as (r & Hr & Lr & kt & Ek & Lk & Hk). destruct train_square as [LK SK].
    assert (Hi : (i < length X)%nat) by (apply nth_error_Some; congruence). assert (Er : nth i K [] = r) by now apply nth_error_nth.
    destruct Ha as [La Sa]. split.
    - unfold post_mean. cbn [g g_kernel g_X g_ystd g_ymean g_alpha]. rewrite Ek. cbn [bind]. f_equal. f_equal. f_equal.
      rewrite (dot_shift extra kt r a i) by (rewrite ?Lr; auto; lia). specialize (Sa i ltac:(lia)). rewrite Er in Sa. now rewrite Sa.
    - exists (dot (nth i A []) (nth i A [])). split.
      + clear. generalize (nth i A []). intro l. induction l as [|c l IH]; [rewrite dot_nil_l; lra|]. rewrite dot_cons. nra.
      + unfold post_std. cbn [g g_kernel g_X g_ystd g_ymean g_alpha g_Linv]. rewrite Ek. cbn [bind].
        assert (D : exists d, kdiag (with_white noisy 0) x = Ok d).
        { apply mapM_ok in Ek. destruct (Forall2_nth_ok _ _ _ Ek _ _ Hx) as (b & Hb & Eb). clear - Eb N. unfold with_white in *. destruct noisy; cbn [kcall kdiag] in *.
          - destruct (kcall k1 2 x x) as [c|] eqn:Ec; [|discriminate]. rewrite (kdiag_self _ _ _ N Ec). cbn [bind]. eauto.
          - rewrite (kdiag_self _ _ _ N Eb). eauto. }
        destruct D as [d D]. rewrite D. cbn [bind]. rewrite (diag_entry i x r d Hx Hr D).
        change (dot kt (map (dot kt) (kinv A))) with (form A kt kt).
        rewrite (form_shift K A HA SK kt i extra) by (rewrite ?Er, ?LK; auto). rewrite Er. do 3 f_equal.
        set (q := dot _ _). replace (nth i r 0 - extra - (nth i r 0 - 2 * extra + extra * extra * q)) with (extra - extra * extra * q) by ring.
        unfold Rmax. destruct (Rlt_dec _ _), (Rle_dec _ _); lra.
  Qed.
End Training.
