(** The predicted covariance of several points. *)
From Coq Require Import List ZArith Bool Reals Lra Lia.
From Verif Require Import Base BaseLemmas Kernels KernelPsdSpec Gpr GprSpec GprLemmas GprProps GprPosterior Psd PsdSchur KernelPsd GprCov.
From Verif Require TrainSym.
Import ListNotations.
Open Scope R_scope.
Open Scope list_scope.

Lemma zip_nth_g {A B C} (f : A -> B -> C) da db dc : forall a b i, (i < length a)%nat -> (i < length b)%nat -> nth i (zip f a b) dc = f (nth i a da) (nth i b db).
Proof.
  induction a as [|x a IH]; intros [|y b] i Ha Hb; cbn [length] in *; try lia. destruct i as [|i]; [reflexivity|].
  change (nth i (zip f a b) dc = f (nth i a da) (nth i b db)). apply IH; lia.
Qed.
Lemma mapM_vals {A} (f : A -> res R) d l (V : nat -> R) : (forall i, (i < length l)%nat -> f (nth i l d) = Ok (V i)) ->
  exists r, mapM f l = Ok r /\ length r = length l /\ forall i, (i < length l)%nat -> nth i r 0 = V i.
Proof.
  intro H. destruct (GprProps.mapM_total f l) as [r E].
  { apply Forall_forall. intros a Ia. apply (In_nth _ _ d) in Ia. destruct Ia as (i & Hi & <-). eauto. }
  exists r. split; [exact E|]. split; [exact (@mapM_length _ _ _ _ _ E)|]. intros i Hi. apply mapM_ok in E.
  destruct (Forall2_nth_ok _ _ _ E _ _ (nth_err l d i Hi)) as (b & Hb & Eb). rewrite (nth_error_nth _ _ _ Hb). rewrite (H i Hi) in Eb. now injection Eb.
Qed.
Lemma mapM_table (f : list R -> list R -> res R) (X' X : mat) (V : mx) :
  (forall i a, (i < length X')%nat -> (a < length X)%nat -> f (nth i X' []) (nth a X []) = Ok (V i a)) ->
  exists T, mapM (fun x => mapM (f x) X) X' = Ok T /\ length T = length X' /\
    forall i, (i < length X')%nat -> length (nth i T []) = length X /\ mapM (f (nth i X' [])) X = Ok (nth i T []) /\ forall a, (a < length X)%nat -> nth a (nth i T []) 0 = V i a.
Proof.
  intro H. assert (Row : forall i, (i < length X')%nat -> exists r, mapM (f (nth i X' [])) X = Ok r /\ length r = length X /\ forall a, (a < length X)%nat -> nth a r 0 = V i a).
  { intros i Hi. apply (mapM_vals (f (nth i X' [])) [] X (V i)). intros a Ha. now apply H. }
  destruct (GprProps.mapM_total (fun x => mapM (f x) X) X') as [T E].
  { apply Forall_forall. intros x Ix. apply (In_nth _ _ []) in Ix. destruct Ix as (i & Hi & <-). destruct (Row i Hi) as (r & Er & _). eauto. }
  exists T. split; [exact E|]. split; [exact (@mapM_length _ _ _ _ _ E)|]. intros i Hi. apply mapM_ok in E.
  destruct (Forall2_nth_ok _ _ _ E _ _ (nth_err X' [] i Hi)) as (b & Hb & Eb). rewrite (nth_error_nth _ _ _ Hb). destruct (Row i Hi) as (r & Er & Lr & Vr).
  rewrite Er in Eb. injection Eb as <-. auto.
Qed.
Lemma kdiag_train : forall k x v, ktrain k true x x = Ok v -> kdiag k x = Ok v.
Proof.
  induction k; intros x v H; try (match goal with |- kdiag ?k _ = _ => exact (kdiag_self k x v I H) end).
  - exact H.
  - cbn [ktrain kdiag] in *. destruct (ktrain k true x x) as [b|] eqn:E; [|discriminate]. now rewrite (IHk x b E).
  - cbn [ktrain kdiag] in *. destruct (ktrain k1 true x x) as [a|] eqn:E1; [|discriminate]. destruct (ktrain k2 true x x) as [b|] eqn:E2; [|discriminate].
    now rewrite (IHk1 x a E1), (IHk2 x b E2).
  - cbn [ktrain kdiag] in *. destruct (ktrain k1 true x x) as [a|] eqn:E1; [|discriminate]. destruct (ktrain k2 true x x) as [b|] eqn:E2; [|discriminate].
    now rewrite (IHk1 x a E1), (IHk2 x b E2).
Qed.

Section Posterior.
  Context (d : nat) (e : gpr) (g : gp) (Hg : e_fitted e = Some g) (V : valid (g_kernel g) d) (FX : Forall (fun x => length x = d) (g_X g)).
  Context (K : mat) (LK : length K = length (g_X g)) (RK : Forall (fun r => length r = length (g_X g)) K) (HA : inverse_factor K (g_Linv g)) (ex : R) (Hex : 0 <= ex).
  Context (HK : forall a b, (a < length (g_X g))%nat -> (b < length (g_X g))%nat -> exists v, ktrain (g_kernel g) (Nat.eqb a b) (nth a (g_X g) []) (nth b (g_X g) []) = Ok v /\
    entry K a b = v + (if Nat.eqb a b then ex else 0)).
  Context (X' : mat) (FX' : Forall (fun x => length x = d) X') (NE : X' <> []).
  Let N := length (g_X g).
  Let n := length X'.
  Let A := g_Linv g.
  Let B : mx := fun a b => dot (nth a A []) (nth b A []).
  Lemma B_symm : symm N B. Proof. intros a b _ _. apply dot_comm. Qed.
  Lemma LA : @length (list R) A = N.
  Proof. destruct HA as [L _]. unfold A, N. unfold mat, vec in *. lia. Qed.
  Lemma LA_lt a : (a < N)%nat -> (a < @length (list R) A)%nat. Proof. now rewrite LA. Qed.
  Lemma LI_lt a : (a < N)%nat -> (a < @length (list R) (kinv A))%nat. Proof. now rewrite kinv_len, LA. Qed.
  Lemma form_bil u v : length u = N -> length v = N -> form A u v = bil N B (fun a => nth a u 0) (fun a => nth a v 0).
  Proof.
    intros Lu Lv. unfold form, bil. rewrite (dot_sm u _ N Lu) by (rewrite map_length; exact (eq_trans (kinv_len A) LA)). apply sm_ext. intros a Ha. f_equal.
    assert (Er : nth a (kinv A) [] = map (dot (nth a A [])) A).
    { rewrite (nth_indep _ [] (map (dot []) A)) by exact (LI_lt a Ha). exact (map_nth (fun r => map (dot r) A) A [] a). }
    rewrite (nth_map (dot v) (kinv A) []) by exact (LI_lt a Ha). transitivity (dot v (map (dot (nth a A [])) A)); [exact (f_equal (dot v) Er)|]. rewrite (dot_sm v _ N Lv) by (rewrite map_length; exact LA).
    apply sm_ext. intros b Hb. f_equal. rewrite (nth_map (dot (nth a A [])) A []) by exact (LA_lt b Hb). reflexivity.
  Qed.
  Lemma KB a b : (a < N)%nat -> (b < N)%nat -> sm N (fun c => entry K a c * B c b) = if Nat.eqb a b then 1 else 0.
  Proof.
    intros Ha Hb. destruct HA as [_ I]. assert (LK' : @length (list R) K = N) by exact LK. specialize (I a b). unfold mat, vec in *. rewrite LK' in I. rewrite <- (I Ha Hb).
    rewrite (dot_sm _ _ N); [|rewrite Forall_forall in RK; apply RK; apply nth_In; rewrite LK'; exact Ha|rewrite map_length; exact LA].
    apply sm_ext. intros c Hc. unfold entry. f_equal. rewrite (nth_map (fun r => dot r (nth b (g_Linv g) [])) A []) by exact (LA_lt c Hc). reflexivity.
  Qed.

  Lemma posterior : exists m s C P, predict_cov e X' false false = Ok (m, C) /\
    predict e X' true false false false = Ok (mkAnswer m (Some s) None None) /\ predict_cov (prior e (g_kernel g)) X' false false = Ok (map (fun _ => 0) X', P) /\
    length C = n /\ length s = n /\ covariance C /\
    (forall i, (i < n)%nat -> 0 <= nth i s 0 /\ nth i s 0 * nth i s 0 = entry C i i) /\
    (forall c, length c = n -> dot c (map (dot c) C) <= g_ystd g * g_ystd g * dot c (map (dot c) P)).
  Proof.
    assert (FZ : Forall (fun x => length x = d) (g_X g ++ X')) by (apply Forall_app; auto).
    destruct (kernel_psd d (g_X g ++ X') FZ (g_kernel g) V) as (J & RJ & PJ). rewrite app_length in PJ. fold N in PJ. fold n in PJ.
    assert (RJ' : forall i j, (i < N + n)%nat -> (j < N + n)%nat -> ktrain (g_kernel g) (Nat.eqb i j) (nth i (g_X g ++ X') []) (nth j (g_X g ++ X') []) = Ok (J i j)).
    { intros i j Hi Hj. apply RJ; rewrite app_length; assumption. }
    assert (Z1 : forall a, (a < N)%nat -> nth a (g_X g ++ X') [] = nth a (g_X g) []) by (intros a Ha; now apply app_nth1).
    assert (Z2 : forall i, nth (N + i) (g_X g ++ X') [] = nth i X' []) by (intro i; unfold N; apply app_nth2_plus).
    assert (Tt : forall i j, (i < n)%nat -> (j < n)%nat -> ktrain (g_kernel g) (Nat.eqb i j) (nth i X' []) (nth j X' []) = Ok (J (N + i)%nat (N + j)%nat)).
    { intros i j Hi Hj. rewrite <- !Z2. rewrite <- (RJ' (N + i)%nat (N + j)%nat) by lia. f_equal. destruct (Nat.eqb_spec i j), (Nat.eqb_spec (N + i) (N + j)); lia || reflexivity. }
    assert (Tc : forall i a, (i < n)%nat -> (a < N)%nat -> kcall (g_kernel g) 2 (nth i X' []) (nth a (g_X g) []) = Ok (J (N + i)%nat a)).
    { intros i a Hi Ha. rewrite <- ktrain_false, <- Z2, <- Z1 by exact Ha. rewrite <- (RJ' (N + i)%nat a) by lia. f_equal. destruct (Nat.eqb_spec (N + i) a); lia || reflexivity. }
    assert (Tk : forall a b, (a < N)%nat -> (b < N)%nat -> entry K a b = J a b + (if Nat.eqb a b then ex else 0)).
    { intros a b Ha Hb. destruct (HK a b Ha Hb) as (v & Ev & ->). rewrite <- (Z1 a Ha), <- (Z1 b Hb), RJ' in Ev by lia. now injection Ev as <-. }
    destruct (mapM_table (kcall (g_kernel g) 2) X' (g_X g) (fun i a => J (N + i)%nat a) Tc) as (kts & Ekts & Lkts & Hkts).
    destruct (train_total (g_kernel g) 0 X' (fun i j => J (N + i)%nat (N + j)%nat) Tt) as [P EP].
    destruct (train_entries _ _ _ _ EP) as (LP & FP & HP).
    assert (EntP : forall i j, (i < n)%nat -> (j < n)%nat -> entry P i j = J (N + i)%nat (N + j)%nat).
    { intros i j Hi Hj. destruct (HP i j Hi Hj) as (v & Ev & ->). rewrite (Tt i j Hi Hj) in Ev. injection Ev as <-. destruct (Nat.eqb i j); ring. }
    set (kt := fun i => nth i kts []).
    assert (Hform : forall i j, (i < n)%nat -> (j < n)%nat -> dot (kt i) (map (dot (kt j)) (kinv A)) = bil N B (fun a => J a (N + i)%nat) (fun a => J a (N + j)%nat)).
    { intros i j Hi Hj. change (dot (kt i) (map (dot (kt j)) (kinv A))) with (form A (kt i) (kt j)). rewrite form_bil by (apply Hkts; assumption).
      unfold bil. apply sm_ext. intros a Ha. unfold kt. destruct (Hkts i Hi) as (_ & _ & Vi). destruct (Hkts j Hj) as (_ & _ & Vj). rewrite (Vi a Ha), (proj1 PJ (N + i)%nat a) by lia. f_equal.
      apply sm_ext. intros b Hb. rewrite (Vj b Hb), (proj1 PJ (N + j)%nat b) by lia. reflexivity. }
    set (y2 := sqr (g_ystd g)). assert (Hy2 : 0 <= y2) by (unfold y2, sqr; nra).
    set (W := fun i j => J (N + i)%nat (N + j)%nat - bil N B (fun a => J a (N + i)%nat) (fun a => J a (N + j)%nat)).
    assert (PW : psd n W) by exact (psd_schur N n J (entry K) B ex PJ B_symm Hex Tk KB).
    assert (Em : exists m, mapM (post_mean g) X' = Ok m).
    { apply GprProps.mapM_total. apply Forall_forall. intros x Ix. apply (In_nth _ _ []) in Ix. destruct Ix as (i & Hi & <-). unfold post_mean. destruct (Hkts i Hi) as (_ & Ei & _). rewrite Ei. cbn [bind]. eauto. }
    destruct Em as [m Em].
    assert (Es : forall i, (i < length X')%nat -> post_std g (nth i X' []) = Ok (sqrt (W i i * y2))).
    { intros i Hi. unfold post_std. destruct (Hkts i Hi) as (_ & Ei & _). rewrite Ei. cbn [bind]. pose proof (Tt i i Hi Hi) as Td. rewrite Nat.eqb_refl in Td. rewrite (kdiag_train _ _ _ Td). cbn [bind].
      fold (kt i). fold A. rewrite (Hform i i Hi Hi). fold (W i i). pose proof (psd_diag n W i PW Hi) as Wp. destruct (Rlt_dec (W i i) 0); [lra|reflexivity]. }
    destruct (mapM_vals (post_std g) [] X' (fun i => sqrt (W i i * y2)) Es) as (s & Emap & Ls & Vs).
    set (C := zip (fun kt row => zip (fun kt' p => (p - dot kt (map (dot kt') (kinv A))) * y2) kts row) kts P).
    assert (LP' : @length (list R) P = n) by exact LP. assert (Lkts' : @length (list R) kts = n) by exact Lkts.
    assert (LC : @length (list R) C = n) by (unfold C; rewrite zip_len; transitivity (Nat.min n n); [exact (f_equal2 Nat.min Lkts LP)|apply Nat.min_id]).
    assert (lk : forall i, (i < n)%nat -> (i < @length (list R) kts)%nat) by (intros; lia). assert (lp : forall i, (i < n)%nat -> (i < @length (list R) P)%nat) by (intros; lia).
    assert (Hrow : forall i, (i < n)%nat -> nth i C [] = zip (fun kt' p => (p - dot (kt i) (map (dot kt') (kinv A))) * y2) kts (nth i P [])).
    { intros i Hi. unfold C. exact (zip_nth_g (fun kt row => zip (fun kt' p => (p - dot kt (map (dot kt') (kinv A))) * y2) kts row) [] [] [] kts P i (lk i Hi) (lp i Hi)). }
    assert (RP : forall i, (i < n)%nat -> length (nth i P []) = n) by (intros i Hi; rewrite Forall_forall in FP; apply FP; apply nth_In; rewrite LP'; exact Hi).
    assert (FC : Forall (fun r => length r = n) C).
    { apply Forall_forall. intros r Ir. apply (In_nth _ _ []) in Ir. destruct Ir as (i & Hi & <-). rewrite LC in Hi. rewrite Hrow by exact Hi. rewrite zip_len. transitivity (Nat.min n n); [exact (f_equal2 Nat.min Lkts (RP i Hi))|apply Nat.min_id]. }
    assert (EntC : forall i j, (i < n)%nat -> (j < n)%nat -> entry C i j = y2 * W i j).
    { intros i j Hi Hj. unfold entry. rewrite Hrow by exact Hi. assert (lr : (j < length (nth i P []))%nat) by (rewrite RP by exact Hi; exact Hj).
      transitivity ((nth j (nth i P []) 0 - dot (kt i) (map (dot (kt j)) (kinv A))) * y2); [exact (zip_nth_g (fun kt' p => (p - dot (kt i) (map (dot kt') (kinv A))) * y2) [] 0 0 kts (nth i P []) j (lk j Hj) lr)|]. rewrite (Hform i j Hi Hj).
      change (nth j (nth i P []) 0) with (entry P i j). rewrite (EntP i j Hi Hj). unfold W. ring. }
    exists m, s, C, P. split; [|split; [|split; [|split; [exact LC|split; [exact Ls|split; [|split]]]]]].
    - unfold predict_cov. rewrite Hg. destruct X' as [|x0 X0] eqn:EX; [contradiction|]. rewrite <- EX in *. rewrite andb_false_r. rewrite Ekts. cbn [bind]. rewrite Em. cbn [bind]. rewrite EP. reflexivity.
    - unfold predict. rewrite Hg. destruct X' as [|x0 X0] eqn:EX; [contradiction|]. rewrite <- EX in *. cbn [negb andb orb]. rewrite andb_false_r. rewrite Em. cbn [bind]. rewrite Emap. reflexivity.
    - unfold predict_cov, prior. cbn [e_fitted e_kernel]. destruct X' as [|x0 X0] eqn:EX; [contradiction|]. rewrite <- EX in *. rewrite andb_false_r. rewrite EP. reflexivity.
    - apply (psd_covariance C n LC FC). eapply psd_ext; [|exact (psd_scal n y2 W Hy2 PW)]. intros i j Hi Hj. now rewrite EntC.
    - intros i Hi. rewrite (Vs i Hi), (EntC i i Hi Hi). split; [apply sqrt_pos|]. pose proof (psd_diag n W i PW Hi). rewrite sqrt_sqrt by nra. ring.
    - intros c Lc. rewrite (quad_sm C c n LC FC Lc), (quad_sm P c n LP' FP Lc).
      rewrite (qf_ext n (entry C) (fun i j => y2 * (J (N + i)%nat (N + j)%nat + (-1) * bil N B (fun a => J a (N + i)%nat) (fun a => J a (N + j)%nat)))) by (intros i j Hi Hj; rewrite (EntC i j Hi Hj); unfold W; ring).
      rewrite qf_scal, qf_plus, qf_scal, bil_sum, (qf_ext n (entry P) (fun i j => J (N + i)%nat (N + j)%nat)) by exact EntP.
      set (b := fun a => sm n (fun i => nth i c 0 * J a (N + i)%nat)).
      assert (Bp : 0 <= bil N B b b).
      { pose proof (form_nonneg A (map b (seq 0 N))) as Fp. rewrite form_bil in Fp by (rewrite map_length; apply seq_length). eapply Rle_trans; [exact Fp|]. right.
        assert (Nb : forall a, (a < N)%nat -> nth a (map b (seq 0 N)) 0 = b a).
        { intros a Ha. rewrite (nth_map b _ 0%nat) by now rewrite seq_length. now rewrite seq_nth. }
        unfold bil. apply sm_ext. intros a Ha. rewrite Nb by exact Ha. f_equal. apply sm_ext. intros a' Ha'. now rewrite Nb. }
      fold b. change (g_ystd g * g_ystd g) with y2. nra.
  Qed.
End Posterior.

Section Fit.
  Context (tune : kernel -> mat -> vec -> kernel) (linv : mat -> option mat) (solve : mat -> vec -> vec) (d : nat).
  Context (Ht : forall k X y, valid k d -> valid (tune k X y) d) (Hl : lin_ok linv solve).
  Definition noise_ok (nz : noise) : Prop := match nz with NoiseLevel v => 0 <= v | _ => True end.
  Lemma c79 e X y e' X' : fit tune linv solve e X y = Ok e' -> valid (user_kernel e) d -> noise_ok (e_noise e) -> 0 <= e_alpha e ->
    Forall (fun x => length x = d) X -> Forall (fun x => length x = d) X' -> X' <> [] ->
    exists g m s C P, e_fitted e' = Some g /\ predict_cov e' X' false false = Ok (m, C) /\
    predict e' X' true false false false = Ok (mkAnswer m (Some s) None None) /\ predict_cov (prior e' (g_kernel g)) X' false false = Ok (map (fun _ => 0) X', P) /\
    length C = length X' /\ length s = length X' /\ covariance C /\
    (forall i, (i < length X')%nat -> 0 <= nth i s 0 /\ nth i s 0 * nth i s 0 = entry C i i) /\
    (forall c, length c = length X' -> dot c (map (dot c) C) <= g_ystd g * g_ystd g * dot c (map (dot c) P)).
  Proof.
    intros H Vu Vn Ha FX FX' NE. destruct (fit_inv _ _ _ _ _ _ _ H) as (k & mm & ss & K & A & g & Ek & Zs & _ & EK & EA & Eg & _ & _ & _ & _ & GX & Ga & Gl & Gm & Gs & Gk).
    assert (Vk : valid k d).
    { unfold fit_kernel in Ek. fold (user_kernel e) in Ek. destruct (e_noise e) as [| | |v]; try discriminate; injection Ek as <-; [exact Vu| |]; (split; [exact Vu|]); [cbn; lra|exact Vn]. }
    set (yn := map (fun v => (v - mm) / ss) y) in *. pose proof (Ht k X yn Vk) as Vt. set (k' := tune k X yn) in *. cbv zeta in Gk.
    assert (D : exists v, 0 <= v /\ valid (g_kernel g) d /\ forall same x t a, ktrain k' same x t = Ok a -> ktrain (g_kernel g) same x t = Ok (a - if same then v else 0)).
    { assert (Q0 : forall q, g_kernel g = q -> q = k' -> exists v, 0 <= v /\ valid (g_kernel g) d /\ forall same x t a, ktrain k' same x t = Ok a -> ktrain (g_kernel g) same x t = Ok (a - if same then v else 0)).
      { intros q Eq1 Eq2. exists 0. rewrite Eq1, Eq2. split; [lra|]. split; [exact Vt|]. intros same x t a Ea. rewrite Ea. f_equal. destruct same; ring. }
      destruct (e_noise e) as [| | |nv]; [injection Gk as G1 G2; now apply (Q0 k')| | |].
      all: assert (Qw : forall v, k' = White v -> g_kernel g = White 0 -> exists v, 0 <= v /\ valid (g_kernel g) d /\ forall same x t a, ktrain k' same x t = Ok a -> ktrain (g_kernel g) same x t = Ok (a - if same then v else 0))
        by (intros v0 E1 E2; exists v0; rewrite E1 in *; rewrite E2; split; [exact Vt|]; split; [cbn; lra|]; intros same x t a Ea; cbn [ktrain] in *; injection Ea as <-; f_equal; destruct same; ring).
      all: assert (Qp : (forall v, k' <> White v) -> (g_kernel g, g_noise g) = match white_path k' with Some p => (zero_at k' p, level_at k' p) | None => (k', None) end ->
          exists v, 0 <= v /\ valid (g_kernel g) d /\ forall same x t a, ktrain k' same x t = Ok a -> ktrain (g_kernel g) same x t = Ok (a - if same then v else 0))
        by (intros _ G; destruct (white_path k') as [p|] eqn:Ep; [|injection G as G1 G2; now apply (Q0 k')]; injection G as G1 G2; destruct (path_level k' p Ep) as [v Hv]; exists v; rewrite G1;
            split; [exact (level_valid p k' d v Vt Hv)|]; split; [now apply zero_valid|]; intros same x t a Ea; now apply zero_train).
      all: destruct k'; try (apply Qp; [discriminate|exact Gk]); injection Gk as G1 G2; now apply (Qw noise). }
    destruct D as (v & Hv & Vg & Hz). destruct (train_entries _ _ _ _ EK) as (LK & FK & HK). rewrite <- GX in *. rewrite <- Gl in EA. destruct (Hl K _ (TrainSym.train_symmetric _ _ _ _ EK) EA) as [HA _].
    destruct (posterior d e' g Eg Vg FX K LK FK HA (v + e_alpha e) ltac:(lra)) with (X' := X') as (m & s & C & P & R); auto.
    - intros a b La Lb. destruct (HK a b La Lb) as (w & Ew & Ee). exists (w - if Nat.eqb a b then v else 0). split; [now apply Hz|]. rewrite Ee. destruct (Nat.eqb a b); ring.
    - exists g, m, s, C, P. split; [exact Eg|exact R].
  Qed.
End Fit.
