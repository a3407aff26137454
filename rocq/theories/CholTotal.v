(** When the Cholesky factor exists, and that fit therefore succeeds. *)
From Coq Require Import List ZArith Bool Reals Lra Lia.
From Verif Require Import Base BaseLemmas Kernels KernelPsdSpec Gpr GprSpec GprLemmas GprProps GprPosterior Psd KernelPsd GprCov GprCov2 Cholesky CholProps.
Import ListNotations.
Open Scope R_scope.
Open Scope list_scope.

Lemma qf_factor n K l (b : nat -> R) c : K 0%nat 0%nat = l * l -> (forall i, (i < n)%nat -> K (S i) 0%nat = b i * l /\ K 0%nat (S i) = b i * l) ->
  qf (S n) K c = (l * c 0%nat + sm n (fun i => b i * c (S i))) * (l * c 0%nat + sm n (fun i => b i * c (S i))) + qf n (fun i j => K (S i) (S j) - b i * b j) (fun i => c (S i)).
Proof.
  intros H0 Hb. set (q := sm n (fun i => b i * c (S i))). unfold qf. rewrite !sm_first, H0.
  rewrite (sm_ext n (fun j => c 0%nat * c (S j) * K 0%nat (S j)) (fun j => c 0%nat * l * (b j * c (S j)))) by (intros j Hj; rewrite (proj2 (Hb j Hj)); ring).
  rewrite sm_scal. fold q.
  rewrite (sm_ext n (fun i => sm (S n) _) (fun i => c 0%nat * l * (b i * c (S i)) + (sm n (fun j => c (S i) * c (S j) * (K (S i) (S j) - b i * b j)) + q * (b i * c (S i))))).
  - rewrite !sm_plus, !sm_scal. fold q. ring.
  - intros i Hi. rewrite sm_first, (proj1 (Hb i Hi)). f_equal; [ring|]. unfold q. rewrite (Rmult_comm (sm n _)), <- sm_scal, <- sm_plus. apply sm_ext. intros. ring.
Qed.
Lemma sm_zero n f : (forall i, (i < n)%nat -> f i = 0) -> sm n f = 0.
Proof. intro H. rewrite (sm_ext n f (fun _ => 0) H). apply sm_0. Qed.
Lemma factor_pos : forall n K L c, factor n K L -> 0 <= qf n K c /\ ((exists i, (i < n)%nat /\ c i <> 0) -> 0 < qf n K c).
Proof.
  induction n as [|n IH]; intros K [|[l b] L] c; cbn [factor]; try tauto; [intros _; split; [unfold qf; cbn; lra|intros (i & Hi & _); lia]|].
  intros (Pl & Lb & H0 & Hb & HF). rewrite (qf_factor n K l (fun i => nth i b 0) c H0 Hb). destruct (IH _ L (fun i => c (S i)) HF) as [N P].
  set (s := l * c 0%nat + sm n (fun i => nth i b 0 * c (S i))). pose proof (Rle_0_sqr s) as Sq. unfold Rsqr in Sq. split; [lra|]. intros (i & Hi & Hc).
  assert (D : (exists j, (j < n)%nat /\ c (S j) <> 0) \/ forall j, (j < n)%nat -> c (S j) = 0).
  { clear. induction n as [|n IH]; [right; intros; lia|]. destruct IH as [(j & Hj & Hc)|IH]; [left; exists j; split; [lia|exact Hc]|].
    destruct (Req_dec (c (S n)) 0) as [E|E]; [right|left; exists n; split; [lia|exact E]]. intros j Hj. destruct (Nat.eq_dec j n) as [->|]; [exact E|]. apply IH. lia. }
  destruct D as [D|D]; [specialize (P D); lra|]. destruct i as [|i]; [|exfalso; apply Hc, D; lia].
  assert (Es : s = l * c 0%nat) by (unfold s; rewrite sm_zero; [ring|intros j Hj; rewrite (D j Hj); ring]).
  assert (s <> 0) by (rewrite Es; apply Rmult_integral_contrapositive_currified; [lra|exact Hc]). pose proof (Rlt_0_sqr s H) as Q. unfold Rsqr in Q. lra.
Qed.
Lemma symmetric_symm K : symmetric K -> square (length K) K /\ symm (length K) (entry K).
Proof. intros [F S]. split; [split; [reflexivity|exact F]|]. intros i j _ _. apply S. Qed.
Lemma cho_ok : lin_ok cho_inv cho_weights.
Proof. intros K A HK H. destruct (symmetric_symm K HK) as [S1 S2]. now apply cho_lin. Qed.
Lemma cho_iff K : symmetric K -> ((exists A, cho_inv K = Some A) <-> positive_definite K).
Proof.
  intros HK. split; [|apply cho_exists]. intros [A H]. destruct (symmetric_symm K HK) as [S1 S2]. unfold cho_inv, cholesky in H.
  destruct (chol (length K) K) as [L|] eqn:E; [|discriminate]. pose proof (chol_factor _ _ _ S1 S2 E) as HF. destruct HK as [F Sy].
  split; [split; [exact F|split; [exact Sy|]]|].
  - intros c Lc. rewrite (quad_sm K c (length K) eq_refl F Lc). apply (factor_pos _ _ _ _ HF).
  - intros c Lc Hc. rewrite (quad_sm K c (length K) eq_refl F Lc). apply (factor_pos _ _ _ _ HF).
    apply Exists_exists in Hc. destruct Hc as (a & Ia & Na). apply (In_nth _ _ 0) in Ia. destruct Ia as (i & Hi & <-). exists i. split; [ln|exact Na].
Qed.

(** ** fit succeeds *)
Lemma sum_nonneg l : Forall (fun v => 0 <= v) l -> 0 <= sum l.
Proof. induction 1 as [|a l Ha _ IH]; cbn; [lra|]. unfold sum in IH. lra. Qed.
Lemma sum_pos l : Forall (fun v => 0 <= v) l -> Exists (fun v => 0 < v) l -> 0 < sum l.
Proof.
  intros F E. induction E as [a l Ha|a l E IH]; inversion F as [|? ? Pa Fl]; subst.
  - pose proof (sum_nonneg l Fl). cbn. unfold sum in *. lra.
  - specialize (IH Fl). cbn. unfold sum in *. lra.
Qed.
Lemma std_pos y a b : In a y -> In b y -> a <> b -> 0 < std y.
Proof.
  intros Ha Hb N. unfold std. apply sqrt_lt_R0. set (m := mean y). unfold mean. rewrite map_length.
  assert (Ly : 0 < INR (length y)) by (apply lt_0_INR; destruct y; [contradiction|cbn; lia]).
  apply Rdiv_lt_0_compat; [|exact Ly]. apply sum_pos.
  - apply Forall_forall. intros v Iv. apply in_map_iff in Iv. destruct Iv as (w & <- & _). apply Rle_0_sqr.
  - apply Exists_exists. assert (D : a - m <> 0 \/ b - m <> 0) by (destruct (Req_dec (a - m) 0); [right; lra|now left]).
    destruct D as [D|D]; [exists (sqr (a - m))|exists (sqr (b - m))]; (split; [apply in_map_iff; eauto|apply Rlt_0_sqr in D; exact D]).
Qed.
Section Total.
  Context (tune : kernel -> mat -> vec -> kernel) (d : nat).
  Context (Ht : forall k X y, valid k d -> valid (tune k X y) d).
  Definition noise_fits (nz : noise) : Prop := match nz with NoiseOther => False | NoiseLevel v => 0 <= v | _ => True end.
  Lemma c81_fit e X y : valid (user_kernel e) d -> noise_fits (e_noise e) -> 0 < e_alpha e -> Forall (fun x => length x = d) X ->
    (e_normalize e = true -> exists a b, In a y /\ In b y /\ a <> b) -> exists e', fit tune cho_inv cho_weights e X y = Ok e'.
  Proof.
    intros Vu Vn Pa FX Hy. unfold fit.
    assert (Dk : exists k, fit_kernel e = Ok k /\ valid k d).
    { unfold fit_kernel. fold (user_kernel e). destruct (e_noise e) as [| | |v]; cbn in Vn; try contradiction; eexists; (split; [reflexivity|]); [exact Vu|split; [exact Vu|cbn; lra]|split; [exact Vu|exact Vn]]. }
    destruct Dk as (k & -> & Vk). cbn [bind].
    assert (Ds : exists m s, (if e_normalize e then (mean y, std y) else (0, 1)) = (m, s) /\ s <> 0).
    { destruct (e_normalize e); [|exists 0, 1; split; [reflexivity|lra]]. destruct (Hy eq_refl) as (a & b & Ia & Ib & N). exists (mean y), (std y). split; [reflexivity|].
      pose proof (std_pos y a b Ia Ib N). lra. }
    destruct Ds as (m & s & -> & Zs). destruct (Req_EM_T s 0); [contradiction|]. set (yn := map (fun v => (v - m) / s) y). cbv zeta.
    destruct (c78 (tune k X yn) d X (e_alpha e) (Ht _ _ _ Vk) FX ltac:(lra)) as (K & EK & _ & _ & PK). rewrite EK. cbn [bind].
    destruct (cho_exists K (PK Pa)) as [A EA]. rewrite EA.
    destruct (match e_noise e with NoNoise => _ | _ => _ end) as [k'' nz]. eauto.
  Qed.
  Lemma c81_use e X y e' : fit tune cho_inv cho_weights e X y = Ok e' -> valid (user_kernel e) d -> noise_fits (e_noise e) -> 0 < e_alpha e -> Forall (fun x => length x = d) X ->
    forall X', Forall (fun x => length x = d) X' -> X' <> [] -> exists m s C, predict e' X' true false false false = Ok (mkAnswer m (Some s) None None) /\
      predict_cov e' X' false false = Ok (m, C) /\ length m = length X' /\ length s = length X' /\ length C = length X'.
  Proof.
    intros He Vu Vn Pa FX X' FX' NE.
    assert (Vo : noise_ok (e_noise e)) by (destruct (e_noise e); cbn in *; tauto).
    destruct (c79 tune cho_inv cho_weights d Ht cho_ok e X y e' X' He Vu Vo ltac:(lra) FX FX' NE) as (g & m & s & C & P & Eg & E1 & E2 & _ & LC & Ls & _).
    exists m, s, C. split; [exact E2|]. split; [exact E1|]. split; [|split; [exact Ls|exact LC]].
    unfold predict_cov in E1. destruct X' as [|x0 X0] eqn:EX; [contradiction|]. rewrite <- EX in *. rewrite andb_false_r, Eg in E1.
    destruct (mapM (fun x => mapM (kcall (g_kernel g) 2 x) (g_X g)) X'); [|discriminate]. cbn [bind] in E1.
    destruct (mapM (post_mean g) X') as [m'|] eqn:Em; [|discriminate]. cbn [bind] in E1. destruct (train_matrix (g_kernel g) 0 X'); [|discriminate]. cbn [bind] in E1.
    injection E1 as <- _. exact (@mapM_length _ _ _ _ _ Em).
  Qed.
  Lemma c81 e X y : valid (user_kernel e) d -> noise_fits (e_noise e) -> 0 < e_alpha e -> Forall (fun x => length x = d) X ->
    (e_normalize e = true -> exists a b, In a y /\ In b y /\ a <> b) -> exists e', fit tune cho_inv cho_weights e X y = Ok e' /\
    forall X', Forall (fun x => length x = d) X' -> X' <> [] -> exists m s C, predict e' X' true false false false = Ok (mkAnswer m (Some s) None None) /\
      predict_cov e' X' false false = Ok (m, C) /\ length m = length X' /\ length s = length X' /\ length C = length X'.
  Proof.
    intros Vu Vn Pa FX Hy. destruct (c81_fit e X y Vu Vn Pa FX Hy) as [e' He]. exists e'. split; [exact He|]. exact (c81_use e X y e' He Vu Vn Pa FX).
  Qed.
End Total.

(** Two equal rows without anything on the diagonal: no factor *)
Lemma repeated_rows : forall r rows K, K = r :: r :: rows -> symmetric K -> cho_inv K = None.
Proof.
  intros r rows K EK HK. destruct (cho_inv K) as [A|] eqn:E; [|reflexivity]. exfalso.
  assert (P : positive_definite K) by (apply cho_iff; eauto). destruct P as [_ P].
  set (c := 1 :: -1 :: repeat 0 (length rows)). assert (Lc : length c = length K) by (rewrite EK; cbn; now rewrite repeat_length).
  assert (Hc : Exists (fun a => a <> 0) c) by (left; lra). specialize (P c Lc Hc). destruct HK as [F S].
  rewrite (quad_sm K c (length K) eq_refl F Lc) in P.
  assert (Z : qf (length K) (entry K) (fun i => nth i c 0) = 0); [|lra].
  unfold qf. replace (length K) with (2 + length rows)%nat by (rewrite EK; reflexivity).
  rewrite (sm_ext _ _ (fun i => nth i c 0 * sm (2 + length rows) (fun j => nth j c 0 * entry K i j))) by (intros i _; rewrite <- sm_scal; apply sm_ext; intros; ring).
  apply sm_zero. intros i Hi.
  assert (I0 : sm (2 + length rows) (fun j => nth j c 0 * entry K i j) = 0); [|rewrite I0; ring].
  rewrite sm_split, (sm_zero (length rows)).
  - cbn [sm nth c]. rewrite (S i 0%nat), (S i 1%nat). rewrite EK. unfold entry. cbn [nth]. ring.
  - intros j Hj. unfold c. cbn [plus nth]. rewrite nth_repeat. ring.
Qed.
Lemma c81_repeated tune : (forall k X y, tune k X y = k) -> exists e X y, valid (user_kernel e) 1 /\ noise_fits (e_noise e) /\ e_alpha e = 0 /\
  Forall (fun x => length x = 1%nat) X /\ e_normalize e = false /\ fit tune cho_inv cho_weights e X y = Raise LinAlgError.
Proof.
  intros Ht. exists (mkGpr (Some (RBF (Iso 1))) NoNoise 0 false None), [[0]; [0]], [1; 2].
  split; [cbn; lra|]. split; [exact I|]. split; [reflexivity|]. split; [repeat constructor|]. split; [reflexivity|].
  unfold fit. cbn [fit_kernel e_kernel e_noise e_normalize e_alpha bind]. destruct (Req_EM_T 1 0) as [Z|_]; [lra|]. cbv zeta. rewrite Ht.
  destruct (c78 (RBF (Iso 1)) 1 [[0]; [0]] 0 ltac:(cbn; lra) ltac:(repeat constructor) ltac:(lra)) as (K & EK & LK & CK & _). rewrite EK. cbn [bind].
  destruct (train_entries _ _ _ _ EK) as (_ & FK & HK).
  assert (N : cho_inv K = None); [|now rewrite N].
  assert (E01 : forall i j, (i < 2)%nat -> (j < 2)%nat -> entry K i j = entry K 0 0).
  { intros i j Hi Hj. destruct (HK i j Hi Hj) as (v & Ev & ->). destruct (HK 0%nat 0%nat ltac:(cbn; lia) ltac:(cbn; lia)) as (w & Ew & ->).
    assert (Sx : forall i, (i < 2)%nat -> nth i [[0]; [0]] [] = [0]) by (intros [|[|k]] Hk; [reflexivity|reflexivity|lia]). rewrite !Sx in Ev by assumption. rewrite !Sx in Ew by lia.
    cbn [ktrain] in Ev, Ew. rewrite Ev in Ew. injection Ew as <-. destruct (Nat.eqb i j); cbn [Nat.eqb]; ring. }
  destruct K as [|r0 [|r1 [|? ?]]]; try discriminate. apply (repeated_rows r0 [] _); [|destruct CK as (F & S & _); split; [exact F|exact S]].
  do 2 f_equal. inversion FK as [|? ? L0 FK']; subst. inversion FK' as [|? ? L1 _]; subst. cbn [length] in L0, L1.
  destruct r0 as [|a [|b [|]]]; try discriminate. destruct r1 as [|c [|d' [|]]]; try discriminate.
  pose proof (E01 0%nat 1%nat ltac:(lia) ltac:(lia)) as Q1. pose proof (E01 1%nat 0%nat ltac:(lia) ltac:(lia)) as Q2. pose proof (E01 1%nat 1%nat ltac:(lia) ltac:(lia)) as Q3.
  unfold entry in *. cbn in Q1, Q2, Q3. congruence.
Qed.
