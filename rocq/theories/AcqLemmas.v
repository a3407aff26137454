(** Values of the acquisition functions. *)
From Coq Require Import String List ZArith Bool Reals Lra Lia FunctionalExtensionality.
From Coquelicot Require Import Coquelicot.
From Verif Require Import Base BaseLemmas Num NumLaws Acquisition AcqSpec GaussLemmas.
Import ListNotations.
Open Scope R_scope.

(** ** The distribution *)
Lemma density_phi m s y : 0 < s -> density m s y = phi ((y - m) / s) / s.
Proof. intro Hs. unfold density, phi. pose proof s2pi_pos. field. lra. Qed.
Lemma density_std x : density 0 1 x = phi x.
Proof. rewrite density_phi by lra. unfold Rdiv. rewrite Rinv_1, !Rmult_1_r. f_equal. ring. Qed.
Lemma std_normal_unique cdf pdf : std_normal cdf pdf -> cdf = Phi /\ pdf = phi.
Proof.
  intros [H1 H2]. split; apply functional_extensionality; intro x.
  - specialize (H2 x). assert (P : is_RInt_gen phi (Rbar_locally m_infty) (at_point x) (cdf x)).
    { apply is_RInt_gen_ext with (density 0 1); [|exact H2]. apply filter_forall. intros ab y _. apply density_std. }
    pose proof (is_RInt_gen_unique (V:=R_CompleteNormedModule) _ _ P) as U1.
    pose proof (is_RInt_gen_unique (V:=R_CompleteNormedModule) _ _ (Phi_is_integral x)) as U2. congruence.
  - rewrite H1. apply density_std.
Qed.
Lemma std_normal_exists : std_normal Phi phi.
Proof.
  split; [intro; now rewrite density_std|]. intro x. apply is_RInt_gen_ext with phi; [|apply Phi_is_integral].
  apply filter_forall. intros ab y _. symmetry. apply density_std.
Qed.

(** ** Expected improvement *)
Definition EI (c mu s : R) : R := (c - mu) * Phi ((c - mu) / s) + s * phi ((c - mu) / s).
Lemma EI_psi c mu s : 0 < s -> EI c mu s = s * psi ((c - mu) / s).
Proof. intro Hs. unfold EI, psi. field. lra. Qed.
Lemma EI_pos c mu s : 0 < s -> 0 < EI c mu s.
Proof. intro Hs. rewrite EI_psi by exact Hs. apply Rmult_lt_0_compat; [exact Hs|apply psi_pos]. Qed.
Lemma psi_opp t : psi t - psi (- t) = t.
Proof. unfold psi. rewrite Phi_opp, phi_even. ring. Qed.
Lemma EI_above c mu s : 0 < s -> c - mu < EI c mu s.
Proof.
  intro Hs. rewrite EI_psi by exact Hs. pose proof (psi_opp ((c - mu) / s)) as H. pose proof (psi_pos (- ((c - mu) / s))) as P.
  assert (E : s * psi ((c - mu) / s) = (c - mu) + s * psi (- ((c - mu) / s))).
  { replace (psi ((c - mu) / s)) with ((c - mu) / s + psi (- ((c - mu) / s))) by lra. field. lra. }
  rewrite E. assert (0 < s * psi (- ((c - mu) / s))) by (now apply Rmult_lt_0_compat). lra.
Qed.
Lemma EI_mean c mu1 mu2 s : 0 < s -> mu1 < mu2 -> EI c mu2 s < EI c mu1 s.
Proof.
  intros Hs H. rewrite !EI_psi by exact Hs. apply Rmult_lt_compat_l; [exact Hs|]. apply psi_incr.
  apply Rmult_lt_compat_r; [now apply Rinv_0_lt_compat|lra].
Qed.
Lemma Phi_comp (f : R -> R) (x d : R) : is_derive f x d -> is_derive (fun t => Phi (f t)) x (d * phi (f x)).
Proof. intro H. apply (is_derive_comp Phi f x (phi (f x)) d); [apply Phi_derive|exact H]. Qed.
Lemma phi_comp (f : R -> R) (x d : R) : is_derive f x d -> is_derive (fun t => phi (f t)) x (d * (- f x * phi (f x))).
Proof. intro H. apply (is_derive_comp phi f x (- f x * phi (f x)) d); [apply phi_derive|exact H]. Qed.
Lemma d_mult (f g : R -> R) (x df dg : R) : is_derive f x df -> is_derive g x dg -> is_derive (fun t => f t * g t) x (df * g x + f x * dg).
Proof. intros Hf Hg. exact (is_derive_mult f g x df dg Hf Hg Rmult_comm). Qed.
Lemma d_plus (f g : R -> R) (x df dg : R) : is_derive f x df -> is_derive g x dg -> is_derive (fun t => f t + g t) x (df + dg).
Proof. intros Hf Hg. exact (is_derive_plus f g x df dg Hf Hg). Qed.
Lemma d_minus (f g : R -> R) (x df dg : R) : is_derive f x df -> is_derive g x dg -> is_derive (fun t => f t - g t) x (df - dg).
Proof. intros Hf Hg. exact (is_derive_minus f g x df dg Hf Hg). Qed.
Lemma d_const (c : R) x : is_derive (fun _ => c) x 0.
Proof. exact (@is_derive_const R_AbsRing R_NormedModule c x). Qed.
Lemma d_scal (f : R -> R) (x c df : R) : is_derive f x df -> is_derive (fun t => c * f t) x (c * df).
Proof. intro Hf. exact (is_derive_scal f x c df Hf). Qed.
Lemma d_eq (f : R -> R) (x d d' : R) : is_derive f x d -> d = d' -> is_derive f x d'.
Proof. now intros H <-. Qed.
Lemma d_ext (f g : R -> R) (x d : R) : (forall t, f t = g t) -> is_derive f x d -> is_derive g x d.
Proof. intros E H. now apply (is_derive_ext f). Qed.
Lemma d_div (f g : R -> R) (x df dg : R) : is_derive f x df -> is_derive g x dg -> g x <> 0 ->
  is_derive (fun t => f t / g t) x ((df * g x - dg * f x) / (g x * g x)).
Proof.
  intros Hf Hg H0. apply d_eq with ((df * g x - f x * dg) / (g x) ^ 2); [exact (is_derive_div f g x df dg Hf Hg H0)|].
  simpl. field. exact H0.
Qed.

(** The derivative of the expected improvement along a curve. *)
Lemma EI_curve c (m s : R -> R) (x dm ds : R) : is_derive m x dm -> is_derive s x ds -> 0 < s x ->
  is_derive (fun t => EI c (m t) (s t)) x (- dm * Phi ((c - m x) / s x) + ds * phi ((c - m x) / s x)).
Proof.
  intros Hm Hs P. unfold EI.
  assert (D1 : is_derive (fun t => c - m t) x (- dm)) by (eapply d_eq; [apply d_minus; [apply d_const|exact Hm]|ring]).
  pose proof (d_div _ _ x _ _ D1 Hs ltac:(lra)) as D2. cbn beta in D2.
  eapply d_eq.
  - apply d_plus; apply d_mult.
    + exact D1.
    + apply Phi_comp. exact D2.
    + exact Hs.
    + apply phi_comp. exact D2.
  - cbn beta. field. lra.
Qed.
Lemma EI_std c mu s1 s2 : 0 < s1 -> s1 < s2 -> EI c mu s1 < EI c mu s2.
Proof.
  intros H1 H2.
  apply (incr_function (fun s => EI c mu s) 0 p_infty (fun s => phi ((c - mu) / s))); try exact I; try assumption.
  - intros s Hs _. cbn in Hs. eapply d_eq; [apply (EI_curve c (fun _ => mu) (fun s => s)); [apply d_const|apply is_derive_id|exact Hs]|].
    cbn. unfold one. cbn. ring.
  - intros s _ _. apply phi_pos.
Qed.

Section Integral.
  Context (c mu s : R) (Hs : 0 < s).
  Let z (y : R) := (y - mu) / s.
  Let G (y : R) := (c - mu) * Phi (z y) + s * phi (z y).
  Lemma z_derive y : is_derive z y (/ s).
  Proof. unfold z. auto_derive; [exact I|]. field. lra. Qed.
  Lemma G_derive y : is_derive G y ((c - y) * density mu s y).
  Proof.
    unfold G. eapply d_eq.
    - apply d_plus; apply d_scal; [apply Phi_comp, z_derive|apply phi_comp, z_derive].
    - rewrite density_phi by exact Hs. fold (z y). unfold z at 2. field. lra.
  Qed.
  Lemma z_lim : is_lim z m_infty m_infty.
  Proof.
    unfold z. apply is_lim_ext with (fun y => / s * (y - mu)); [intro; field; lra|].
    replace m_infty with (Rbar_mult (/ s) m_infty) at 2.
    - apply is_lim_scal_l. apply (is_lim_minus _ _ m_infty m_infty mu); [apply is_lim_id|apply is_lim_const|reflexivity].
    - pose proof (Rinv_0_lt_compat _ Hs). cbn. destruct (Rle_dec 0 (/ s)) as [r|r]; [|exfalso; lra].
      destruct (Rle_lt_or_eq_dec 0 (/ s) r); [reflexivity|exfalso; lra].
  Qed.
  Lemma phi_lim_m : is_lim phi m_infty 0.
  Proof.
    apply is_lim_ext with (fun t => / sqrt (2 * PI) * gau (- t)).
    - intro t. rewrite <- phi_even. symmetry. apply phi_gau.
    - replace (Finite 0) with (Rbar_mult (/ sqrt (2 * PI)) 0) by (cbn; f_equal; ring).
      apply is_lim_scal_l, (lim_opp gau 0), gau_lim.
  Qed.
  Lemma Phi_z_lim : is_lim (fun y => Phi (z y)) m_infty 0.
  Proof. apply (is_lim_comp Phi z m_infty 0 m_infty Phi_lim_m z_lim). exists 0. intros. discriminate. Qed.
  Lemma phi_z_lim : is_lim (fun y => phi (z y)) m_infty 0.
  Proof. apply (is_lim_comp phi z m_infty 0 m_infty phi_lim_m z_lim). exists 0. intros. discriminate. Qed.
  Lemma G_lim : is_lim G m_infty 0.
  Proof.
    unfold G. replace (Finite 0) with (Finite ((c - mu) * 0 + s * 0)) by (f_equal; ring).
    apply (is_lim_plus _ _ m_infty ((c - mu) * 0) (s * 0)); [| |reflexivity].
    - apply (is_lim_scal_l _ (c - mu) m_infty 0), Phi_z_lim.
    - apply (is_lim_scal_l _ s m_infty 0), phi_z_lim.
  Qed.
  Lemma density_cont y : continuous (density mu s) y.
  Proof.
    apply ed_cont. exists (/ s * (- z y * phi (z y)) / s).
    apply d_ext with (fun y => phi (z y) / s); [intro t; symmetry; now apply density_phi|].
    eapply d_eq; [apply d_div; [apply phi_comp, z_derive|apply d_const|lra]|]. cbn beta. fold (z y). field. lra.
  Qed.
  Lemma below_c : is_RInt_gen (fun y => (c - y) * density mu s y) (Rbar_locally m_infty) (at_point c) (EI c mu s).
  Proof.
    apply is_RInt_gen_ext with (Derive G).
    { apply filter_forall. intros ab y _. apply is_derive_unique, G_derive. }
    replace (EI c mu s) with (G c - 0) by (unfold G, EI, z; ring). apply is_RInt_gen_Derive.
    - apply filter_forall. intros ab y _. eexists. apply G_derive.
    - apply filter_forall. intros ab y _.
      apply continuous_ext with (fun y => (c - y) * density mu s y); [intro; symmetry; apply is_derive_unique, G_derive|].
      apply (continuous_mult (fun y => c - y) (density mu s)); [|apply density_cont].
      apply ed_cont. auto_derive. exact I.
    - exact G_lim.
    - intros P HP. exact (locally_singleton _ _ HP).
  Qed.
  Lemma zero_above : is_RInt_gen (fun _ : R => 0) (at_point c) (Rbar_locally p_infty) 0.
  Proof.
    apply is_RInt_gen_ext with (Derive (fun _ : R => 0)).
    { apply filter_forall. intros ab y _. apply Derive_const. }
    match goal with |- is_RInt_gen ?f ?a ?b _ => assert (H : is_RInt_gen f a b (0 - 0)); [|rewrite Rminus_0_r in H; exact H] end.
    apply is_RInt_gen_Derive.
    - apply filter_forall. intros ab y _. exists 0. apply d_const.
    - apply filter_forall. intros ab y _. apply continuous_ext with (fun _ : R => 0); [intro; symmetry; apply Derive_const|].
      apply continuous_const.
    - intros P HP. exact (locally_singleton _ _ HP).
    - apply filterlim_const.
  Qed.
  Lemma EI_expectation : expectation mu s (fun y => Rmax (c - y) 0) (EI c mu s).
  Proof.
    unfold expectation. replace (EI c mu s) with (EI c mu s + 0) by ring.
    apply (@is_RInt_gen_Chasles R_NormedModule _ _ _ _ (fun y => Rmax (c - y) 0 * density mu s y) c (EI c mu s) 0).
    - apply is_RInt_gen_ext with (fun y => (c - y) * density mu s y); [|exact below_c].
      apply Filter_prod with (fun a => a < c) (fun b => b = c); [now exists c|reflexivity|].
      intros a b Ha Hb y Hy. cbn [fst snd] in Hy. rewrite Hb in Hy. rewrite Rmin_left, Rmax_right in Hy by lra.
      rewrite Rmax_left by lra. reflexivity.
    - apply is_RInt_gen_ext with (fun _ => 0); [|exact zero_above].
      apply Filter_prod with (fun a => a = c) (fun b => c < b); [reflexivity|now exists c|].
      intros a b Ha Hb y Hy. cbn [fst snd] in Hy. rewrite Ha in Hy. rewrite Rmin_left, Rmax_right in Hy by lra.
      rewrite Rmax_right by lra. toR. ring.
  Qed.
  Lemma PI_probability : probability_below mu s c (Phi ((c - mu) / s)).
  Proof.
    unfold probability_below.
    assert (D : forall y, is_derive (fun y => Phi (z y)) y (density mu s y)).
    { intro y. eapply d_eq; [apply Phi_comp, z_derive|]. rewrite density_phi by exact Hs. fold (z y). field. lra. }
    apply is_RInt_gen_ext with (Derive (fun y => Phi (z y))).
    { apply filter_forall. intros ab y _. apply is_derive_unique, D. }
    replace (Phi ((c - mu) / s)) with (Phi (z c) - 0) by (unfold z; ring). apply (is_RInt_gen_Derive (fun y => Phi (z y))).
    - apply filter_forall. intros ab y _. eexists. apply D.
    - apply filter_forall. intros ab y _.
      apply continuous_ext with (density mu s); [intro; symmetry; apply is_derive_unique, D|apply density_cont].
    - exact Phi_z_lim.
    - intros P HP. exact (locally_singleton _ _ HP).
  Qed.
  Lemma z_lim_p : is_lim z p_infty p_infty.
  Proof.
    unfold z. apply is_lim_ext with (fun y => / s * (y - mu)); [intro; field; lra|].
    replace p_infty with (Rbar_mult (/ s) p_infty) at 2.
    - apply is_lim_scal_l. apply (is_lim_minus _ _ p_infty p_infty mu); [apply is_lim_id|apply is_lim_const|reflexivity].
    - pose proof (Rinv_0_lt_compat _ Hs). cbn. destruct (Rle_dec 0 (/ s)) as [r|r]; [|exfalso; lra].
      destruct (Rle_lt_or_eq_dec 0 (/ s) r); [reflexivity|exfalso; lra].
  Qed.
  Lemma density_total k : is_RInt_gen (fun y => k * density mu s y) (Rbar_locally m_infty) (Rbar_locally p_infty) k.
  Proof.
    assert (D : forall y, is_derive (fun y => k * Phi (z y)) y (k * density mu s y)).
    { intro y. eapply d_eq; [apply d_scal, Phi_comp, z_derive|]. rewrite density_phi by exact Hs. fold (z y). field. lra. }
    apply is_RInt_gen_ext with (Derive (fun y => k * Phi (z y))).
    { apply filter_forall. intros ab y _. apply is_derive_unique, D. }
    match goal with |- is_RInt_gen ?f ?a ?b _ => assert (H : is_RInt_gen f a b (k * 1 - k * 0));
      [|replace (k * 1 - k * 0) with k in H by ring; exact H] end.
    apply (is_RInt_gen_Derive (fun y => k * Phi (z y))).
    - apply filter_forall. intros ab y _. eexists. apply D.
    - apply filter_forall. intros ab y _.
      apply continuous_ext with (fun y => k * density mu s y); [intro; symmetry; apply is_derive_unique, D|].
      apply (continuous_scal_r k (density mu s)), density_cont.
    - apply (is_lim_scal_l _ k m_infty 0), Phi_z_lim.
    - apply (is_lim_scal_l _ k p_infty 1).
      apply (is_lim_comp Phi z p_infty 1 p_infty Phi_lim_p z_lim_p). exists 0. intros. discriminate.
  Qed.
End Integral.
(** The mean of exp(-Y). *)
Lemma exp_expectation mu s : 0 < s -> expectation mu s (fun y => exp (- y)) (exp (- mu + / 2 * (s * s))).
Proof.
  intro Hs. unfold expectation.
  apply is_RInt_gen_ext with (fun y => exp (- mu + / 2 * (s * s)) * density (mu - s * s) s y); [|now apply density_total].
  apply filter_forall. intros ab y _. unfold density, Rdiv. rewrite <- !Rmult_assoc, <- !exp_plus. f_equal. f_equal. field. lra.
Qed.
