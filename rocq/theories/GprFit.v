(** What a fitted regressor predicts: noise, training points, prior. *)
From Coq Require Import List ZArith Bool Reals Lra Lia.
From Coquelicot Require Import Coquelicot.
From Verif Require TrainSym.
From Verif Require Import Base BaseLemmas Kernels KernelSpec AcqSpec GaussLemmas AcqLemmas KernelLemmas KernelProps Gpr GprSpec GprLemmas GprProps GprPosterior.
Import ListNotations.
Open Scope R_scope.
Open Scope list_scope.

Lemma kcall_white0 k v nd x t : kcall (Sum k (White v)) nd x t = kcall k nd x t.
Proof. cbn [kcall]. destruct (kcall k nd x t); [|reflexivity]. cbn [bind]. f_equal. ring. Qed.
Lemma kdiag_white0 k x : kdiag (Sum k (White 0)) x = kdiag k x.
Proof. cbn [kdiag]. destruct (kdiag k x); [|reflexivity]. cbn [bind]. f_equal. ring. Qed.
Lemma predict_white0 e g k1 X rs : e_fitted e = Some g -> g_kernel g = Sum k1 (White 0) ->
  predict e X rs false false false = predict (with_kernel e k1) X rs false false false.
Proof.
  intros Hg Hk. unfold predict, with_kernel. cbn [e_fitted e_kernel]. rewrite Hg. destruct X as [|x X]; [reflexivity|].
  set (g' := mkGp (g_X g) k1 (g_alpha g) (g_Linv g) (g_ymean g) (g_ystd g) (g_noise g)).
  assert (K : forall x, mapM (kcall (g_kernel g) 2 x) (g_X g) = mapM (kcall k1 2 x) (g_X g)).
  { intro x'. apply mapM_ext. intros t _. rewrite Hk. apply kcall_white0. }
  assert (M : forall x, post_mean g x = post_mean g' x).
  { intro x'. unfold post_mean. cbn [g' g_kernel g_X g_alpha g_ystd g_ymean]. now rewrite K. }
  assert (S : forall x, post_std g x = post_std g' x).
  { intro x'. unfold post_std. cbn [g' g_kernel g_X g_Linv g_ystd]. now rewrite K, Hk, kdiag_white0. }
  rewrite (mapM_ext (post_mean g) (post_mean g') (x :: X)) by (intros; apply M).
  rewrite (mapM_ext (post_std g) (post_std g') (x :: X)) by (intros; apply S). reflexivity.
Qed.

Section Fit.
  Context (tune : kernel -> mat -> vec -> kernel) (linv : mat -> option mat) (solve : mat -> vec -> vec).
  Context (Ht : forall k X y, same_shape k (tune k X y)).
  Notation fit := (fit tune linv solve).

  Lemma c55 e X y e' : fit e X y = Ok e' -> e_noise e <> NoNoise -> no_white (user_kernel e) ->
    exists g k1 v K, e_fitted e' = Some g /\ same_shape (user_kernel e) k1 /\ g_noise g = Some v /\ linv K = Some (g_Linv g) /\
      g_alpha g = solve K (map (fun w => (w - g_ymean g) / g_ystd g) y) /\
      (forall i j x t, nth_error X i = Some x -> nth_error X j = Some t -> exists c, kcall k1 2 x t = Ok c /\
        entry K i j = c + (if Nat.eqb i j then v + e_alpha e else 0)) /\
      (forall X' rs, predict e' X' rs false false false = predict (with_kernel e' k1) X' rs false false false).
  Proof.
    intros H Hn W. destruct (fit_noise tune linv solve Ht e X y e' H Hn W) as (g & k1 & v & Eg & S & Gk & Gn & K & EK & EA & Ga).
    exists g, k1, v, K. repeat (split; [assumption|]). split; [|intros; now apply (predict_white0 e' g)].
    intros i j x t Hx Hj. pose proof (shape_no_white _ _ S W) as W1.
    destruct (train_row k1 W1 v (e_alpha e) X K true EK i x Hx) as (r & Hr & Lr & kt & Ek & Lk & Hk).
    apply mapM_ok in Ek. destruct (Forall2_nth_ok _ _ _ Ek _ _ Hj) as (c & Hc & Ec). unfold with_white in Ec. rewrite kcall_white0 in Ec.
    exists c. split; [exact Ec|]. assert (j < length X)%nat by (apply nth_error_Some; congruence). specialize (Hk j ltac:(assumption)).
    rewrite (nth_error_nth _ _ _ Hc) in Hk. unfold entry. rewrite (nth_error_nth _ _ _ Hr). unfold extra in Hk. destruct (Nat.eqb i j); lra.
  Qed.
  Lemma c55_none e X y e' : fit e X y = Ok e' -> e_noise e = NoNoise ->
    exists g, e_fitted e' = Some g /\ same_shape (user_kernel e) (g_kernel g) /\ g_noise g = None.
  Proof.
    intros H Hn. destruct (fit_plain tune linv solve Ht e X y e' H Hn) as (g & k1 & Eg & S & Gk & Gn & _). exists g. rewrite Gk. auto.
  Qed.

  Context (Hl : lin_ok linv solve).
  Lemma c67_training e X y e' i x yi : fit e X y = Ok e' -> no_white (user_kernel e) -> length y = length X ->
    nth_error X i = Some x -> nth_error y i = Some yi ->
    exists g m s, e_fitted e' = Some g /\ predict e' [x] true false false false = Ok (mkAnswer [m] (Some [s]) None None) /\
      let sigma2 := e_alpha e + match g_noise g with Some v => v | None => 0 end in
      m = yi - g_ystd g * sigma2 * nth i (g_alpha g) 0 /\
      (0 <= sigma2 -> 0 <= s <= Rabs (g_ystd g) * sqrt sigma2) /\ (sigma2 = 0 -> m = yi /\ s = 0).
  Proof.
    intros H W L Hx Hy.
    assert (Q : exists g k1 v noisy K, e_fitted e' = Some g /\ no_white k1 /\ g_kernel g = with_white k1 noisy 0 /\
      train_matrix (with_white k1 noisy v) (e_alpha e) X = Ok K /\ linv K = Some (g_Linv g) /\ g_X g = X /\ g_ystd g <> 0 /\
      g_alpha g = solve K (map (fun w => (w - g_ymean g) / g_ystd g) y) /\ extra v (e_alpha e) noisy = e_alpha e + match g_noise g with Some v => v | None => 0 end).
    { destruct (fit_inv _ _ _ _ _ _ _ H) as (_ & _ & s0 & _ & _ & g0 & _ & Zs & _ & _ & _ & Eg0 & _ & _ & _ & _ & GX & _ & _ & _ & Gs & _).
      assert (D : e_noise e = NoNoise \/ e_noise e <> NoNoise) by (destruct (e_noise e); [now left|right; congruence..]). destruct D as [D|D].
      - destruct (fit_plain tune linv solve Ht e X y e' H D) as (g & k1 & Eg & S & Gk & Gn & K & EK & EA & Ga). assert (g0 = g) by congruence; subst g0.
        exists g, k1, 0, false, K. unfold with_white, extra. rewrite Gn. repeat (split; [first [assumption|congruence|exact (shape_no_white _ _ S W)]|]). reflexivity.
      - destruct (fit_noise tune linv solve Ht e X y e' H D W) as (g & k1 & v & Eg & S & Gk & Gn & K & EK & EA & Ga). assert (g0 = g) by congruence; subst g0.
        exists g, k1, v, true, K. unfold with_white, extra. rewrite Gn. repeat (split; [first [assumption|congruence|exact (shape_no_white _ _ S W)]|]). reflexivity. }
    destruct Q as (g & k1 & v & noisy & K & Eg & W1 & Gk & EK & EA & GX & Zs & Ga & Ex). exists g. rewrite <- Ex.
    destruct (train_square k1 W1 v (e_alpha e) X K noisy EK) as [LK SK]. destruct (Hl K _ (TrainSym.train_symmetric _ _ _ _ EK) EA) as [HA HS].
    set (yn := map (fun w => (w - g_ymean g) / g_ystd g) y) in *. specialize (HS yn). rewrite <- Ga in HS.
    assert (Ly : length yn = length K) by (unfold yn; rewrite map_length; lia). specialize (HS Ly).
    destruct (at_training k1 W1 v (e_alpha e) X K noisy EK (g_Linv g) (g_alpha g) yn HA HS (g_ymean g) (g_ystd g) (g_noise g) i x Hx) as (Em & q & Pq & Es).
    assert (Egg : mkGp X (with_white k1 noisy 0) (g_alpha g) (g_Linv g) (g_ymean g) (g_ystd g) (g_noise g) = g) by (rewrite <- Gk, <- GX; now destruct g).
    rewrite Egg in Em, Es. eexists; eexists. split; [exact Eg|]. split.
    { unfold predict. cbn -[post_mean post_std]. rewrite Eg, Em, Es. cbn [bind]. reflexivity. }
    cbv zeta. set (sg := extra v (e_alpha e) noisy) in *.
    assert (Yi : nth i yn 0 = (yi - g_ymean g) / g_ystd g) by (apply nth_error_nth; unfold yn; rewrite nth_error_map, Hy; reflexivity).
    rewrite Yi.
    assert (E1 : g_ystd g * ((yi - g_ymean g) / g_ystd g - sg * nth i (g_alpha g) 0) + g_ymean g = yi - g_ystd g * sg * nth i (g_alpha g) 0) by (field; exact Zs).
    rewrite E1. split; [reflexivity|]. split.
    - intro P. split; [apply sqrt_pos|].
      assert (B : Rmax (sg - sg * sg * q) 0 <= sg) by (unfold Rmax; destruct (Rle_dec _ _); nra).
      assert (0 <= Rmax (sg - sg * sg * q) 0) by apply Rmax_r. unfold sqr. rewrite sqrt_mult by nra. change (g_ystd g * g_ystd g) with (Rsqr (g_ystd g)).
      rewrite sqrt_Rsqr_abs, Rmult_comm. apply Rmult_le_compat_l; [apply Rabs_pos|]. now apply sqrt_le_1_alt.
    - intro Z. rewrite Z. split; [ring|]. replace (0 - 0 * 0 * q) with 0 by ring. rewrite (Rmax_left 0 0) by lra. rewrite Rmult_0_l. apply sqrt_0.
  Qed.
End Fit.

Lemma c67_prior e g x ans : e_fitted e = Some g -> predict e [x] true false false false = Ok ans ->
  exists m s p, ans = mkAnswer [m] (Some [s]) None None /\
    predict (prior e (g_kernel g)) [x] true false false false = Ok (mkAnswer [0] (Some [p]) None None) /\ 0 <= s <= Rabs (g_ystd g) * p.
Proof.
  intros Hg H. unfold predict in H. cbn -[post_mean post_std] in H. rewrite Hg in H.
  destruct (post_mean g x) as [m|]; [|discriminate]. cbn [bind] in H. destruct (post_std g x) as [s|] eqn:Es; [|discriminate]. cbn [bind] in H. injection H as <-.
  assert (D : exists d, kdiag (g_kernel g) x = Ok d).
  { unfold post_std in Es. destruct (mapM (kcall (g_kernel g) 2 x) (g_X g)); [|discriminate]. cbn [bind] in Es. destruct (kdiag (g_kernel g) x); [eauto|discriminate]. }
  destruct D as [d Ed]. exists m, s, (sqrt d). split; [reflexivity|]. split.
  - unfold predict, prior. cbn -[kdiag]. rewrite Ed. reflexivity.
  - split; [|exact (std_prior g x s d Es Ed)]. unfold post_std in Es. destruct (mapM (kcall (g_kernel g) 2 x) (g_X g)); [|discriminate]. cbn [bind] in Es.
    rewrite Ed in Es. cbn [bind] in Es. injection Es as <-. apply sqrt_pos.
Qed.
