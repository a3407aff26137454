(** Gaussian process regressor: gradients, noise, and what the posterior knows. *)
From Coq Require Import List ZArith Bool Reals Lra Lia.
From Coquelicot Require Import Coquelicot.
From Verif Require Import Base BaseLemmas Kernels KernelSpec AcqSpec GaussLemmas AcqLemmas KernelLemmas KernelProps Gpr GprSpec GprLemmas.
Import ListNotations.
Open Scope R_scope.
Open Scope list_scope.

(** ** Gradients *)
Section Gradients.
  Context (e : gpr) (g : gp) (Hg : e_fitted e = Some g).
  Lemma predict_mean x : first (means (predict e [x] false false false false)) = value (post_mean g x).
  Proof. unfold predict. cbn. rewrite Hg. destruct (post_mean g x); reflexivity. Qed.
  Lemma predict_std x : first (stds (predict e [x] true false false false)) = value (post_std g x).
  Proof.
    unfold predict. cbn. rewrite Hg. unfold post_mean, post_std. destruct (mapM (kcall (g_kernel g) 2 x) (g_X g)) as [kt|]; [|reflexivity].
    cbn [bind]. destruct (kdiag (g_kernel g) x); reflexivity.
  Qed.
  Lemma predict_all x ans : predict e [x] true false true true = Ok ans ->
    exists m s gm gs, ans = mkAnswer [m] (Some [s]) (Some gm) (Some gs) /\
      post_mean g x = Ok m /\ post_std g x = Ok s /\ post_mean_grad g x = Ok gm /\ post_std_grad g x = Ok gs.
  Proof.
    unfold predict. cbn -[post_mean post_std post_mean_grad post_std_grad]. rewrite Hg.
    destruct (post_mean g x) as [m|]; [|discriminate]. cbn [bind].
    destruct (post_std g x) as [s|]; [|discriminate]. cbn [bind].
    destruct (post_mean_grad g x) as [gm|]; [|discriminate]. cbn [bind].
    destruct (post_std_grad g x) as [gs|]; [|discriminate]. cbn [bind].
    intro H. injection H as <-. exists m, s, gm, gs. auto.
  Qed.
  Lemma c54 x ans : predict e [x] true false true true = Ok ans ->
    List.Forall (fun t => length x = length t /\ smooth (g_kernel g) x t) (g_X g) ->
    exists m s gm gs, ans = mkAnswer [m] (Some [s]) (Some gm) (Some gs) /\
      gradient (fun x => first (means (predict e [x] false false false false))) x gm /\
      (no_dot (g_kernel g) -> / 100000000 < s -> gradient (fun x => first (stds (predict e [x] true false false false))) x gs).
  Proof.
    intros H F. destruct (predict_all x ans H) as (m & s & gm & gs & -> & Em & Es & Egm & Egs). exists m, s, gm, gs. split; [reflexivity|]. split.
    - destruct (mean_gradient g x gm F Egm) as [L G]. split; [exact L|]. intros i a d Ha Hd.
      eapply d_ext; [intro u; symmetry; apply predict_mean|now apply G].
    - intros N P. destruct (std_gradient g x gs s F N Es P Egs) as [L G]. split; [exact L|]. intros i a d Ha Hd.
      eapply d_ext; [intro u; symmetry; apply predict_std|now apply G].
  Qed.
End Gradients.

Lemma mapM_total {A B} (f : A -> res B) : forall l, List.Forall (fun a => exists b, f a = Ok b) l -> exists r, mapM f l = Ok r.
Proof.
  induction l as [|a l IH]; intro F; [eexists; reflexivity|]. inversion F as [|? ? [b E] F']; subst. destruct (IH F') as [r E'].
  cbn [mapM]. rewrite E. cbn [bind]. rewrite E'. eexists. reflexivity.
Qed.
Lemma kdiag_total : forall k x d, factor k d -> exists v, kdiag k x = Ok v.
Proof.
  induction k; intros x d F; cbn in *; try (eexists; reflexivity); try contradiction.
  destruct F as [F1 F2]. destruct (IHk1 x d F1) as [a ->]. destruct (IHk2 x d F2) as [b ->]. eexists; reflexivity.
Qed.
Lemma kdiag_total' : forall k x d, computable k d -> exists v, kdiag k x = Ok v.
Proof.
  induction k; intros x d F; cbn in *; try (eexists; reflexivity); try contradiction.
  - destruct F as [F [n ->]]. destruct (IHk x d F) as [a ->]. eexists; reflexivity.
  - destruct F as [F1 F2]. destruct (IHk1 x d F1) as [a ->]. destruct (IHk2 x d F2) as [b ->]. eexists; reflexivity.
  - destruct F as [F1 F2]. destruct (kdiag_total k1 x d F1) as [a ->]. destruct (kdiag_total k2 x d F2) as [b ->]. eexists; reflexivity.
Qed.
(** With such kernels predict answers. *)
Lemma c54_total e g x : e_fitted e = Some g -> computable (g_kernel g) (length x) ->
  List.Forall (fun t => length x = length t) (g_X g) -> exists ans, predict e [x] true false true true = Ok ans.
Proof.
  intros Hg C F.
  assert (E1 : exists kt, mapM (kcall (g_kernel g) 2 x) (g_X g) = Ok kt).
  { apply mapM_total. revert F. apply List.Forall_impl. intros t L. apply (computable_total _ _ _ L C). }
  assert (E2 : exists G, mapM (gradient_x (g_kernel g) 1 x) (g_X g) = Ok G).
  { apply mapM_total. revert F. apply List.Forall_impl. intros t L. apply (computable_total _ _ _ L C). }
  destruct E1 as [kt E1], E2 as [G E2]. destruct (kdiag_total' _ x _ C) as [d Ed].
  unfold predict. cbn -[post_mean post_std post_mean_grad post_std_grad]. rewrite Hg. unfold post_mean, post_mean_grad, post_std_grad, post_std.
  rewrite E1, E2, Ed. cbn [bind]. eexists. reflexivity.
Qed.

(** ** Noise *)
Lemma shape_sum k1 k2 k' : same_shape (Sum k1 k2) k' -> exists k1' k2', k' = Sum k1' k2' /\ same_shape k1 k1' /\ same_shape k2 k2'.
Proof. destruct k'; cbn; try contradiction. intros [H1 H2]. eauto. Qed.
Lemma shape_white v k' : same_shape (White v) k' -> exists w, k' = White w.
Proof. destruct k'; cbn; try contradiction. eauto. Qed.
Lemma shape_no_white : forall k k', same_shape k k' -> no_white k -> no_white k'.
Proof.
  induction k; intros k' H N; destruct k'; cbn in *; try contradiction; try exact I.
  - destruct H. now apply IHk.
  - destruct H, N. split; auto.
  - destruct H, N. split; auto.
Qed.
Lemma no_white_path : forall k, no_white k -> white_path k = None.
Proof.
  induction k; cbn [white_path no_white]; intro N; try reflexivity. destruct N as [N1 N2]. rewrite IHk1, IHk2 by assumption.
  destruct k1; try contradiction; destruct k2; try contradiction; reflexivity.
Qed.

Section Fit.
  Context (tune : kernel -> mat -> vec -> kernel) (linv : mat -> option mat) (solve : mat -> vec -> vec).
  Context (Ht : forall k X y, same_shape k (tune k X y)) (Hl : lin_ok linv solve).
  Notation fit := (fit tune linv solve).

  (** What a fit leaves behind. *)
  Lemma fit_inv e X y e' : fit e X y = Ok e' -> exists k m s K A g,
    fit_kernel e = Ok k /\ s <> 0 /\ (m, s) = (if e_normalize e then (mean y, std y) else (0, 1)) /\
    train_matrix (tune k X (map (fun v => (v - m) / s) y)) (e_alpha e) X = Ok K /\ linv K = Some A /\
    e_fitted e' = Some g /\ e_kernel e' = Some k /\ e_noise e' = e_noise e /\ e_alpha e' = e_alpha e /\ e_normalize e' = e_normalize e /\
    g_X g = X /\ g_alpha g = solve K (map (fun v => (v - m) / s) y) /\ g_Linv g = A /\ g_ymean g = m /\ g_ystd g = s /\
    (g_kernel g, g_noise g) =
      (let k' := tune k X (map (fun v => (v - m) / s) y) in
       match e_noise e with
       | NoNoise => (k', None)
       | _ => match k' with
              | White _ => (White 0, None)
              | _ => match white_path k' with Some p => (zero_at k' p, level_at k' p) | None => (k', None) end
              end
       end).
  Proof.
    unfold fit. destruct (fit_kernel e) as [k|] eqn:Ek; [|discriminate]. cbn [bind].
    destruct (if e_normalize e then (mean y, std y) else (0, 1)) as [m s] eqn:Ems.
    destruct (Req_EM_T s 0) as [Z|Z]; [discriminate|]. cbv zeta. set (yn := map (fun v => (v - m) / s) y).
    destruct (train_matrix (tune k X yn) (e_alpha e) X) as [K|] eqn:EK; [|discriminate]. cbn [bind].
    destruct (linv K) as [A|] eqn:EA; [|discriminate].
    match goal with |- (let '(a, b) := ?p in _) = _ -> _ => set (pr := p); destruct pr as [k'' nz] eqn:Ep end.
    intro H. injection H as <-. exists k, m, s, K, A. eexists. fold yn. repeat (split; [first [reflexivity|assumption]|]).
    cbn [g_kernel g_noise]. symmetry. exact Ep.
  Qed.

  (** The kernel after a first fit of a kernel without noise term: the tuned kernel plus a white noise of level 0; the
      level found is reported as noise_. *)
  Lemma fit_noise e X y e' : fit e X y = Ok e' -> e_noise e <> NoNoise -> no_white (user_kernel e) ->
    exists g k1 v, e_fitted e' = Some g /\ same_shape (user_kernel e) k1 /\ g_kernel g = Sum k1 (White 0) /\ g_noise g = Some v /\
      exists K, train_matrix (Sum k1 (White v)) (e_alpha e) X = Ok K /\ linv K = Some (g_Linv g) /\
        (g_alpha g = solve K (map (fun w => (w - g_ymean g) / g_ystd g) y)).
  Proof.
    intros H Hn W. destruct (fit_inv _ _ _ _ H) as (k & m & s & K & A & g & Ek & Zs & _ & EK & EA & Eg & _ & _ & _ & _ & _ & Ga & Gl & Gm & Gs & Gk).
    assert (Q : exists v0, k = Sum (user_kernel e) (White v0)).
    { unfold fit_kernel in Ek. fold (user_kernel e) in Ek. destruct (e_noise e) as [| | |v]; try congruence; injection Ek as <-; eauto. }
    destruct Q as [v0 ->]. set (yn := map (fun v => (v - m) / s) y) in *. cbv zeta in Gk.
    destruct (shape_sum _ _ _ (Ht (Sum (user_kernel e) (White v0)) X yn)) as (k1 & k2 & Et & S1 & S2).
    destruct (shape_white _ _ S2) as [v ->]. pose proof (shape_no_white _ _ S1 W) as W1. rewrite Et in *.
    assert (P : white_path (Sum k1 (White v)) = Some [K2]).
    { cbn [white_path]. rewrite (no_white_path k1 W1). destruct k1; try contradiction; reflexivity. }
    rewrite P in Gk. cbn [zero_at level_at] in Gk.
    assert (Gk' : (g_kernel g, g_noise g) = (Sum k1 (White 0), Some v)) by (destruct (e_noise e); [congruence|exact Gk..]).
    injection Gk' as G1 G2. exists g, k1, v. split; [exact Eg|]. split; [exact S1|]. split; [exact G1|]. split; [exact G2|].
    exists K. rewrite Gl, Gm, Gs. auto.
  Qed.
  Lemma fit_plain e X y e' : fit e X y = Ok e' -> e_noise e = NoNoise ->
    exists g k1, e_fitted e' = Some g /\ same_shape (user_kernel e) k1 /\ g_kernel g = k1 /\ g_noise g = None /\
      exists K, train_matrix k1 (e_alpha e) X = Ok K /\ linv K = Some (g_Linv g) /\
        (g_alpha g = solve K (map (fun w => (w - g_ymean g) / g_ystd g) y)).
  Proof.
    intros H Hn. destruct (fit_inv _ _ _ _ H) as (k & m & s & K & A & g & Ek & Zs & _ & EK & EA & Eg & _ & _ & _ & _ & _ & Ga & Gl & Gm & Gs & Gk).
    unfold fit_kernel in Ek. fold (user_kernel e) in Ek. rewrite Hn in *. injection Ek as <-. cbv zeta in Gk. injection Gk as G1 G2.
    exists g. eexists. split; [exact Eg|]. split; [apply Ht|]. split; [exact G1|]. split; [exact G2|]. exists K. rewrite Gl, Gm, Gs. auto.
  Qed.
End Fit.

(** Gradients are given for a single point only. *)
Lemma c54_single e X rs rc mg sg : length X <> 1%nat -> mg = true \/ sg = true ->
  predict e X rs rc mg sg = Raise (if rs && rc then RuntimeError else ValueError).
Proof.
  intros L H. unfold predict. destruct (rs && rc); [reflexivity|]. destruct (sg && negb rs); [reflexivity|].
  destruct X as [|x X]; [reflexivity|]. apply PeanoNat.Nat.eqb_neq in L. rewrite L. destruct H as [-> | ->]; rewrite ?orb_true_r; reflexivity.
Qed.
