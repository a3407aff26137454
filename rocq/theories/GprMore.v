(** What further observations do to the predicted deviations, over the reals. *)
From Coq Require Import List ZArith Bool Reals Lra Lia.
From Verif Require Import Base BaseLemmas Kernels KernelPsdSpec Gpr GprSpec GprLemmas GprProps GprPosterior Psd PsdSchur KernelPsd GprCov GprCov2.
From Verif Require TrainSym.
Import ListNotations.
Open Scope R_scope.
Open Scope list_scope.

Lemma bil_qf N B c : bil N B c c = qf N B c.
Proof. unfold bil, qf. apply sm_ext. intros a _. rewrite <- sm_scal. apply sm_ext. intros b _. ring. Qed.
Lemma bil_minus_l N B u u' v : bil N B (fun a => u a - u' a) v = bil N B u v - bil N B u' v.
Proof.
  unfold bil. replace (sm N (fun a => u a * sm N (fun b => v b * B a b)) - sm N (fun a => u' a * sm N (fun b => v b * B a b)))
    with (sm N (fun a => u a * sm N (fun b => v b * B a b)) + (-1) * sm N (fun a => u' a * sm N (fun b => v b * B a b))) by ring.
  rewrite <- sm_scal, <- sm_plus. apply sm_ext. intros. ring.
Qed.

Section Bound.
  Context (N : nat) (K B : mx) (SK : symm N K) (SB : symm N B) (PB : forall c, 0 <= qf N B c).
  Context (KB : forall a b, (a < N)%nat -> (b < N)%nat -> sm N (fun c => K a c * B c b) = if Nat.eqb a b then 1 else 0).
  Let q (w : nat -> R) a := sm N (fun c => K a c * w c).
  Lemma bil_q v w : bil N B v (q w) = sm N (fun a => v a * w a).
  Proof.
    unfold bil. apply sm_ext. intros a Ha. f_equal. unfold q.
    rewrite (sm_ext N _ (fun b => sm N (fun c => w c * (K c b * B b a)))).
    2: { intros b Hb. rewrite Rmult_comm, <- sm_scal. apply sm_ext. intros c Hc. rewrite (SK b c), (SB a b) by assumption. ring. }
    rewrite sm_swap. rewrite (sm_ext N _ (fun c => if Nat.eqb c a then w c else 0)).
    2: { intros c Hc. rewrite sm_scal, KB by assumption. destruct (Nat.eqb c a); ring. }
    rewrite sm_delta. destruct (Nat.ltb_spec a N); [reflexivity|lia].
  Qed.
  Lemma best_weights k w : 2 * sm N (fun a => w a * k a) - qf N K w <= bil N B k k.
  Proof.
    pose proof (PB (fun a => k a - q w a)) as P. rewrite <- bil_qf, bil_minus_l in P.
    rewrite (bil_sym N B k), (bil_sym N B (q w)), !bil_minus_l in P by exact SB.
    rewrite (bil_sym N B (q w) k), !bil_q in P by exact SB.
    assert (E : sm N (fun a => q w a * w a) = qf N K w).
    { unfold q, qf. apply sm_ext. intros a _. rewrite Rmult_comm, <- sm_scal. apply sm_ext. intros c _. ring. }
    rewrite E in P. rewrite (sm_ext N (fun a => w a * k a) (fun a => k a * w a)) by (intros; ring). lra.
  Qed.
  Lemma best_reached k : exists w, 2 * sm N (fun a => w a * k a) - qf N K w = bil N B k k.
  Proof.
    set (w := fun a => sm N (fun b => k b * B a b)). exists w.
    assert (Q : forall a, (a < N)%nat -> q w a = k a).
    { intros a Ha. unfold q, w. rewrite (sm_ext N _ (fun c => sm N (fun b => k b * (K a c * B c b)))) by (intros c _; change (K a c * sm N (fun b => k b * B c b) = sm N (fun b => k b * (K a c * B c b))); rewrite <- sm_scal; apply sm_ext; intros; ring).
      rewrite sm_swap. rewrite (sm_ext N _ (fun b => if Nat.eqb b a then k b else 0)).
      2: { intros b Hb. rewrite sm_scal, KB by assumption. rewrite Nat.eqb_sym. destruct (Nat.eqb b a); ring. }
      rewrite sm_delta. destruct (Nat.ltb_spec a N); [reflexivity|lia]. }
    assert (E1 : sm N (fun a => w a * k a) = bil N B k k) by (unfold bil, w; apply sm_ext; intros; ring).
    assert (E2 : qf N K w = sm N (fun a => w a * k a)).
    { unfold qf. apply sm_ext. intros a Ha. rewrite <- (Q a Ha). unfold q. rewrite <- sm_scal. apply sm_ext. intros; ring. }
    rewrite E2, E1. ring.
  Qed.
End Bound.

Lemma more_bil N n K B K' B' k k' :
  symm N K -> symm N B -> (forall c, 0 <= qf N B c) -> (forall a b, (a < N)%nat -> (b < N)%nat -> sm N (fun c => K a c * B c b) = if Nat.eqb a b then 1 else 0) ->
  symm (N + n) K' -> symm (N + n) B' -> (forall c, 0 <= qf (N + n) B' c) ->
  (forall a b, (a < N + n)%nat -> (b < N + n)%nat -> sm (N + n) (fun c => K' a c * B' c b) = if Nat.eqb a b then 1 else 0) ->
  (forall a b, (a < N)%nat -> (b < N)%nat -> K' a b = K a b) -> (forall a, (a < N)%nat -> k' a = k a) ->
  bil N B k k <= bil (N + n) B' k' k'.
Proof.
  intros SK SB PB KB SK' SB' PB' KB' EK Ek. destruct (best_reached N K B KB k) as [w <-].
  set (w' := fun a => if Nat.ltb a N then w a else 0).
  assert (W1 : forall a, (a < N)%nat -> w' a = w a) by (intros a Ha; unfold w'; destruct (Nat.ltb_spec a N); [reflexivity|lia]).
  assert (W2 : forall a, w' (N + a)%nat = 0) by (intro a; unfold w'; destruct (Nat.ltb_spec (N + a) N); [lia|reflexivity]).
  eapply Rle_trans; [|exact (best_weights (N + n) K' B' SK' SB' PB' KB' k' w')]. right. f_equal; [f_equal|].
  - rewrite sm_split, (sm_ext n _ (fun _ => 0)), sm_0 by (intros i _; rewrite W2; ring). rewrite Rplus_0_r. apply sm_ext. intros a Ha. now rewrite W1, Ek.
  - unfold qf. rewrite sm_split, (sm_ext n _ (fun _ => 0)), sm_0.
    2: { intros i _. rewrite (sm_ext (N + n) _ (fun _ => 0)), sm_0; [reflexivity|]. intros j _. rewrite W2. ring. }
    rewrite Rplus_0_r. apply sm_ext. intros a Ha. cbv beta. rewrite sm_split, (sm_ext n _ (fun _ => 0)), sm_0 by (intros i _; rewrite W2; ring).
    rewrite Rplus_0_r. apply sm_ext. intros b Hb. now rewrite !W1, EK.
Qed.

Definition Bof (A : mat) : mx := fun a b => dot (nth a A []) (nth b A []).
Lemma Bof_nonneg g K : length K = length (g_X g) -> inverse_factor K (g_Linv g) -> forall c, 0 <= qf (length (g_X g)) (Bof (g_Linv g)) c.
Proof.
  intros LK HA c. set (N := length (g_X g)). pose proof (form_nonneg (g_Linv g) (map c (seq 0 N))) as Fp.
  rewrite (form_bil g K LK HA []) in Fp by (rewrite map_length; apply seq_length). eapply Rle_trans; [exact Fp|]. right. rewrite <- bil_qf.
  assert (Nb : forall a, (a < N)%nat -> nth a (map c (seq 0 N)) 0 = c a).
  { intros a Ha. rewrite (nth_map c _ 0%nat) by now rewrite seq_length. now rewrite seq_nth. }
  unfold bil. apply sm_ext. intros a Ha. rewrite Nb by exact Ha. f_equal. apply sm_ext. intros b Hb. now rewrite Nb.
Qed.

Lemma inv_facts k alpha g K : train_matrix k alpha (g_X g) = Ok K -> inverse_factor K (g_Linv g) ->
  symm (length (g_X g)) (entry K) /\ symm (length (g_X g)) (Bof (g_Linv g)) /\ (forall c, 0 <= qf (length (g_X g)) (Bof (g_Linv g)) c) /\
  (forall a b, (a < length (g_X g))%nat -> (b < length (g_X g))%nat -> sm (length (g_X g)) (fun c => entry K a c * Bof (g_Linv g) c b) = if Nat.eqb a b then 1 else 0) /\
  (forall u, length u = length (g_X g) -> form (g_Linv g) u u = bil (length (g_X g)) (Bof (g_Linv g)) (fun a => nth a u 0) (fun a => nth a u 0)).
Proof.
  intros EK HA. destruct (train_entries _ _ _ _ EK) as (LK & FK & _). destruct (TrainSym.train_symmetric _ _ _ _ EK) as [_ S].
  split; [intros a b _ _; apply S|]. split; [intros a b _ _; apply dot_comm|]. split; [exact (Bof_nonneg g K LK HA)|]. split.
  - exact (KB g K LK FK HA []).
  - intros u Lu. exact (form_bil g K LK HA [] u u Lu Lu).
Qed.

(** The unit the deviations are given in: the spread of the observations with normalize_y (gpr.py 107-111 and 161-164, applied by sklearn) *)
Definition unit_of (e : gpr) (y : vec) : R := if e_normalize e then std y else 1.

Section More.
  Context (tune : kernel -> mat -> vec -> kernel) (linv : mat -> option mat) (solve : mat -> vec -> vec).
  Context (Ht : forall k X y X' y', tune k X y = tune k X' y') (Hl : lin_ok linv solve).
  Lemma more_certain e X y X2 y' e1 e2 x m1 s1 m2 s2 : fit tune linv solve e X y = Ok e1 -> fit tune linv solve e (X ++ X2) y' = Ok e2 ->
    predict e1 [x] true false false false = Ok (mkAnswer [m1] (Some [s1]) None None) ->
    predict e2 [x] true false false false = Ok (mkAnswer [m2] (Some [s2]) None None) ->
    s2 * Rabs (unit_of e y) <= s1 * Rabs (unit_of e y').
  Proof.
    intros F1 F2 P1 P2.
    destruct (fit_inv _ _ _ _ _ _ _ F1) as (k & mm & ss & K & A & g & Ek & Zs & Es & EK & EA & Eg & _ & _ & _ & _ & GX & _ & Gl & _ & Gs & Gk).
    destruct (fit_inv _ _ _ _ _ _ _ F2) as (k' & mm' & ss' & K' & A' & g' & Ek' & Zs' & Es' & EK' & EA' & Eg' & _ & _ & _ & _ & GX' & _ & Gl' & _ & Gs' & Gk').
    rewrite Ek in Ek'. injection Ek' as <-.
    assert (U : unit_of e y = ss) by (unfold unit_of; destruct (e_normalize e); now injection Es). assert (U' : unit_of e y' = ss') by (unfold unit_of; destruct (e_normalize e); now injection Es').
    rewrite U, U'. clear U U' Es Es'. cbv zeta in Gk, Gk'.
    set (t := tune k X (map (fun v => (v - mm) / ss) y)) in *. rewrite (Ht k (X ++ X2) _ X (map (fun v => (v - mm) / ss) y)) in EK', Gk'. fold t in EK', Gk'.
    assert (Egk : g_kernel g' = g_kernel g) by (rewrite <- Gk in Gk'; now injection Gk'). clear Gk Gk'. set (kk := g_kernel g) in *.
    rewrite <- GX in EK. rewrite <- GX' in EK'. rewrite <- Gl in EA. rewrite <- Gl' in EA'.
    destruct (Hl K _ (TrainSym.train_symmetric _ _ _ _ EK) EA) as [HA _]. destruct (Hl K' _ (TrainSym.train_symmetric _ _ _ _ EK') EA') as [HA' _].
    destruct (inv_facts _ _ g K EK HA) as (SK & SB & PB & KBe & FB). destruct (inv_facts _ _ g' K' EK' HA') as (SK' & SB' & PB' & KBe' & FB').
    destruct (train_entries _ _ _ _ EK) as (_ & _ & TK). destruct (train_entries _ _ _ _ EK') as (_ & _ & TK').
    unfold predict in P1, P2. cbn -[post_mean post_std] in P1, P2. rewrite Eg in P1. rewrite Eg' in P2.
    destruct (post_mean g x) as [a1|]; [|discriminate]. destruct (post_mean g' x) as [a2|]; [|discriminate]. cbn [bind] in P1, P2.
    destruct (post_std g x) as [b1|] eqn:S1; [|discriminate]. destruct (post_std g' x) as [b2|] eqn:S2; [|discriminate]. cbn [bind] in P1, P2.
    injection P1 as _ <-. injection P2 as _ <-. unfold post_std in S1, S2. rewrite Egk in S2. fold kk in S1, S2.
    destruct (mapM (kcall kk 2 x) (g_X g)) as [kt|] eqn:M1; [|discriminate]. destruct (mapM (kcall kk 2 x) (g_X g')) as [kt'|] eqn:M2; [|discriminate].
    cbn [bind] in S1, S2. destruct (kdiag kk x) as [d|]; [|discriminate]. cbn [bind] in S1, S2. injection S1 as <-. injection S2 as <-.
    change (dot kt (map (dot kt) (kinv (g_Linv g)))) with (form (g_Linv g) kt kt). change (dot kt' (map (dot kt') (kinv (g_Linv g')))) with (form (g_Linv g') kt' kt').
    rewrite Gs, Gs'. pose proof (@mapM_length _ _ _ _ _ M1) as L1. pose proof (@mapM_length _ _ _ _ _ M2) as L2.
    assert (Q : form (g_Linv g) kt kt <= form (g_Linv g') kt' kt').
    { rewrite (FB kt L1), (FB' kt' L2). assert (LX : length (g_X g') = (length (g_X g) + length X2)%nat) by (rewrite GX', GX; apply app_length).
      assert (NX : forall a, (a < length (g_X g))%nat -> nth a (g_X g') [] = nth a (g_X g) []) by (intros a Ha; rewrite GX', GX in *; now apply app_nth1).
      rewrite LX in *. apply (more_bil _ _ (entry K) _ (entry K')); auto.
      - intros a b Ha Hb. destruct (TK a b Ha Hb) as (v & Ev & ->). destruct (TK' a b) as (v' & Ev' & ->); [lia|lia|]. rewrite !NX, Ev in Ev' by assumption. now injection Ev' as <-.
      - intros a Ha. apply mapM_ok in M1. apply mapM_ok in M2.
        destruct (Forall2_nth_ok _ _ _ M1 _ _ (nth_err (g_X g) [] a Ha)) as (v & Hv & Ev).
        destruct (Forall2_nth_ok _ _ _ M2 _ _ (nth_err (g_X g') [] a ltac:(lia))) as (v' & Hv' & Ev').
        rewrite (nth_error_nth _ _ _ Hv), (nth_error_nth _ _ _ Hv'). rewrite NX, Ev in Ev' by exact Ha. now injection Ev'. }
    set (v1 := if Rlt_dec (d - form (g_Linv g) kt kt) 0 then _ else _). set (v2 := if Rlt_dec (d - form (g_Linv g') kt' kt') 0 then _ else _).
    assert (V : 0 <= v2 <= v1) by (unfold v1, v2; destruct (Rlt_dec (d - form (g_Linv g) kt kt) 0), (Rlt_dec (d - form (g_Linv g') kt' kt') 0); lra).
    unfold sqr. assert (0 <= ss * ss) by nra. assert (0 <= ss' * ss') by nra. rewrite (sqrt_mult v2), (sqrt_mult v1) by lra. change (ss * ss) with (Rsqr ss). change (ss' * ss') with (Rsqr ss'). rewrite !sqrt_Rsqr_abs.
    assert (sqrt v2 <= sqrt v1) by (apply sqrt_le_1_alt; lra). pose proof (Rmult_le_pos _ _ (Rabs_pos ss) (Rabs_pos ss')).
    replace (sqrt v2 * Rabs ss' * Rabs ss) with (sqrt v2 * (Rabs ss * Rabs ss')) by ring. replace (sqrt v1 * Rabs ss * Rabs ss') with (sqrt v1 * (Rabs ss * Rabs ss')) by ring. now apply Rmult_le_compat_r.
  Qed.
  Lemma c101 e X y X2 y' e1 e2 x m1 s1 m2 s2 : fit tune linv solve e X y = Ok e1 -> fit tune linv solve e (X ++ X2) y' = Ok e2 ->
    predict e1 [x] true false false false = Ok (mkAnswer [m1] (Some [s1]) None None) ->
    predict e2 [x] true false false false = Ok (mkAnswer [m2] (Some [s2]) None None) ->
    if e_normalize e then s2 * std y <= s1 * std y' else s2 <= s1.
  Proof.
    intros F1 F2 P1 P2. pose proof (more_certain e X y X2 y' e1 e2 x m1 s1 m2 s2 F1 F2 P1 P2) as M. unfold unit_of in M. destruct (e_normalize e).
    - now rewrite !Rabs_pos_eq in M by apply sqrt_pos.
    - rewrite Rabs_R1 in M. lra.
  Qed.
  Lemma c101_values e X y y' e1 e2 x m1 s1 m2 s2 : fit tune linv solve e X y = Ok e1 -> fit tune linv solve e X y' = Ok e2 ->
    predict e1 [x] true false false false = Ok (mkAnswer [m1] (Some [s1]) None None) ->
    predict e2 [x] true false false false = Ok (mkAnswer [m2] (Some [s2]) None None) ->
    if e_normalize e then s2 * std y = s1 * std y' else s2 = s1.
  Proof.
    intros F1 F2 P1 P2. rewrite <- (app_nil_r X) in F2. pose proof (c101 e X y [] y' e1 e2 x m1 s1 m2 s2 F1 F2 P1 P2) as A1. rewrite app_nil_r in F2.
    rewrite <- (app_nil_r X) in F1. pose proof (c101 e X y' [] y e2 e1 x m2 s2 m1 s1 F2 F1 P2 P1) as A2. destruct (e_normalize e); lra.
  Qed.
End More.
