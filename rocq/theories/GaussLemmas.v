(** The normal distribution. *)
From Coq Require Import Reals Lra Lia.
From Coquelicot Require Import Coquelicot.
Open Scope R_scope.
Ltac toR := match goal with |- @eq _ ?a ?b => change (@eq R a b) end.

(** Density and distribution function of the standard normal distribution. [Phi_is_integral] below shows that [Phi] is
    the integral of [phi] from minus infinity. *)
Definition phi (t : R) : R := exp (- (t * t) / 2) / sqrt (2 * PI).
Definition Phi (x : R) : R := / 2 + RInt phi 0 x.

Lemma ed_cont (f : R -> R) x : ex_derive f x -> continuous f x.
Proof. apply (@ex_derive_continuous R_AbsRing R_NormedModule). Qed.
Lemma int_cont (f : R -> R) a b : (forall z, Rmin a b <= z <= Rmax a b -> continuous f z) -> ex_RInt f a b.
Proof. apply (@ex_RInt_continuous R_CompleteNormedModule). Qed.
Lemma RInt_scal_R (f : R -> R) a b l : ex_RInt f a b -> RInt (fun x => l * f x) a b = l * RInt f a b.
Proof. exact (@RInt_scal R_CompleteNormedModule f a b l). Qed.
Lemma RInt_lin_R (f : R -> R) u v a b : ex_RInt f (u * a + v) (u * b + v) ->
  RInt (fun y => u * f (u * y + v)) a b = RInt f (u * a + v) (u * b + v).
Proof. exact (@RInt_comp_lin R_CompleteNormedModule f u v a b). Qed.
Lemma ex_RInt_lin_R (f : R -> R) u v a b : ex_RInt f (u * a + v) (u * b + v) -> ex_RInt (fun y => u * f (u * y + v)) a b.
Proof. exact (@ex_RInt_comp_lin R_NormedModule f u v a b). Qed.

(** ** The integral of exp (- t^2 / 2) *)
Definition gau (t : R) : R := exp (- (t * t) / 2).
Lemma gau_derive t : is_derive gau t (- t * gau t).
Proof. unfold gau. auto_derive; [exact I|]. unfold Rdiv. field. Qed.
Lemma gau_cont t : continuous gau t.
Proof. apply ed_cont. eexists. apply gau_derive. Qed.
Lemma gau_pos t : 0 < gau t. Proof. apply exp_pos. Qed.
Lemma gau_int a b : ex_RInt gau a b.
Proof. apply int_cont. intros. apply gau_cont. Qed.
Definition E (x : R) : R := RInt gau 0 x.
Lemma E_derive x : is_derive E x (gau x).
Proof.
  apply (is_derive_RInt gau E 0 x); [|apply gau_cont]. exists (mkposreal 1 Rlt_0_1). intros y _.
  apply (RInt_correct gau 0 y), gau_int.
Qed.

Definition fb (x t : R) : R := 2 * exp (- (x * x * (1 + t * t)) / 2) / (1 + t * t).
Definition B (x : R) : R := RInt (fb x) 0 1.
Lemma den_pos t : 0 < 1 + t * t. Proof. nra. Qed.
Lemma fb_derive_x x t : is_derive (fun u => fb u t) x (- 2 * x * exp (- (x * x * (1 + t * t)) / 2)).
Proof. unfold fb. pose proof (den_pos t). auto_derive; [exact I|]. unfold Rdiv. field. lra. Qed.
Lemma fb_cont x t : continuous (fb x) t.
Proof. apply ed_cont. unfold fb. pose proof (den_pos t). auto_derive. lra. Qed.
Lemma fb_int x a b : ex_RInt (fb x) a b.
Proof. apply int_cont. intros. apply fb_cont. Qed.
Lemma B_derive x : is_derive B x (- 2 * gau x * E x).
Proof.
  assert (D : forall u t, Derive (fun z => fb z t) u = - 2 * u * exp (- (u * u * (1 + t * t)) / 2)).
  { intros u t. apply is_derive_unique, fb_derive_x. }
  assert (H : is_derive B x (RInt (fun t => Derive (fun u => fb u t) x) 0 1)).
  { apply (is_derive_RInt_param fb 0 1 x).
    - exists (mkposreal 1 Rlt_0_1). intros y _ t _. eexists. apply fb_derive_x.
    - intros t _. apply continuity_2d_pt_ext with (fun u v => - 2 * u * exp (- (u * u * (1 + v * v)) / 2)); [intros; now rewrite D|].
      apply continuity_2d_pt_mult.
      + apply continuity_2d_pt_mult; [apply continuity_2d_pt_const|apply continuity_2d_pt_id1].
      + apply (continuity_1d_2d_pt_comp exp (fun u v => - (u * u * (1 + v * v)) / 2)).
        * apply derivable_continuous_pt, derivable_pt_exp.
        * unfold Rdiv. apply continuity_2d_pt_mult; [|apply continuity_2d_pt_const]. apply continuity_2d_pt_opp.
          apply continuity_2d_pt_mult.
          -- apply continuity_2d_pt_mult; apply continuity_2d_pt_id1.
          -- apply continuity_2d_pt_plus; [apply continuity_2d_pt_const|]. apply continuity_2d_pt_mult; apply continuity_2d_pt_id2.
    - exists (mkposreal 1 Rlt_0_1). intros y _. apply fb_int. }
  replace (- 2 * gau x * E x) with (RInt (fun t => Derive (fun u => fb u t) x) 0 1); [exact H|].
  transitivity (RInt (fun t => (- 2 * gau x) * (x * gau (x * t + 0))) 0 1).
  - apply RInt_ext. intros t _. rewrite D. unfold gau. toR.
    transitivity (- 2 * x * (exp (- (x * x) / 2) * exp (- ((x * t + 0) * (x * t + 0)) / 2))); [|ring].
    rewrite <- exp_plus. do 2 f_equal. field.
  - rewrite (RInt_scal_R (fun t => x * gau (x * t + 0)) 0 1 (- 2 * gau x)).
    + rewrite (RInt_lin_R gau x 0 0 1) by apply gau_int. unfold E. f_equal. f_equal; ring.
    + apply (ex_RInt_lin_R gau x 0 0 1), gau_int.
Qed.
Lemma B_0 : B 0 = PI / 2.
Proof.
  unfold B. rewrite (RInt_ext (fb 0) (fun t => 2 * / (1 + t ^ 2))).
  - assert (H : is_RInt (fun t => 2 * / (1 + t ^ 2)) 0 1 (minus (2 * atan 1) (2 * atan 0))).
    { apply (is_RInt_derive (fun t => 2 * atan t)).
      - intros t _. pose proof (den_pos t). auto_derive; [exact I|]. unfold Rsqr. field. nra.
      - intros t _. apply ed_cont. pose proof (den_pos t). auto_derive. simpl. lra. }
    rewrite (is_RInt_unique _ _ _ _ H), atan_1, atan_0. unfold minus, plus, opp. cbn. field.
  - intros t _. unfold fb. replace (- (0 * 0 * (1 + t * t)) / 2) with 0 by field. rewrite exp_0.
    toR. pose proof (den_pos t). field. simpl. lra.
Qed.
Lemma E_0 : E 0 = 0. Proof. apply (RInt_point 0 gau). Qed.
Lemma constant_of_zero_derivative f : (forall x, is_derive f x 0) -> forall x y, f x = f y.
Proof.
  intros H x y. destruct (MVT_gen f y x (fun _ => 0)) as (c & _ & Hc).
  - intros. apply H.
  - intros. apply derivable_continuous_pt. exists 0. apply is_derive_Reals, H.
  - lra.
Qed.
Lemma E_B x : E x * E x + B x = PI / 2.
Proof.
  transitivity (E 0 * E 0 + B 0); [|rewrite E_0, B_0; ring].
  apply (constant_of_zero_derivative (fun x => E x * E x + B x)). intro y.
  pose proof (is_derive_mult E E y _ _ (E_derive y) (E_derive y) Rmult_comm) as D1.
  pose proof (is_derive_plus (fun x => E x * E x) B y _ _ D1 (B_derive y)) as D2.
  replace 0 with (plus (plus (mult (gau y) (E y)) (mult (E y) (gau y))) (- 2 * gau y * E y)); [exact D2|].
  unfold plus, mult. cbn. ring.
Qed.
Lemma B_pos x : 0 < B x.
Proof.
  apply RInt_gt_0; [lra| |].
  - intros t _. unfold fb. pose proof (den_pos t). apply Rdiv_lt_0_compat; [|lra]. pose proof (exp_pos (- (x * x * (1 + t * t)) / 2)). lra.
  - intros t _. apply fb_cont.
Qed.
Lemma B_le x : B x <= 2 * gau x.
Proof.
  replace (2 * gau x) with (RInt (fun _ => 2 * gau x) 0 1) by (rewrite RInt_const; unfold scal; cbn; unfold mult; cbn; ring).
  apply RInt_le; [lra|apply fb_int|apply ex_RInt_const|]. intros t _. unfold fb, gau. pose proof (den_pos t) as P.
  assert (X : exp (- (x * x * (1 + t * t)) / 2) <= exp (- (x * x) / 2)).
  { destruct (Rle_lt_or_eq_dec (- (x * x * (1 + t * t)) / 2) (- (x * x) / 2)) as [L|Q]; [nra| |rewrite Q; lra].
    apply Rlt_le, exp_increasing, L. }
  pose proof (exp_pos (- (x * x * (1 + t * t)) / 2)). apply Rmult_le_reg_r with (1 + t * t); [exact P|].
  unfold Rdiv at 1. rewrite Rmult_assoc, Rinv_l by lra. nra.
Qed.

(** ** The distribution function *)
Lemma s2pi_pos : 0 < sqrt (2 * PI).
Proof. apply sqrt_lt_R0. pose proof PI_RGT_0. lra. Qed.
Lemma s2pi_sqr : sqrt (2 * PI) * sqrt (2 * PI) = 2 * PI.
Proof. apply sqrt_sqrt. pose proof PI_RGT_0. lra. Qed.
Lemma phi_gau t : phi t = / sqrt (2 * PI) * gau t.
Proof. unfold phi, gau, Rdiv. ring. Qed.
Lemma phi_pos t : 0 < phi t.
Proof. rewrite phi_gau. apply Rmult_lt_0_compat; [apply Rinv_0_lt_compat, s2pi_pos|apply gau_pos]. Qed.
Lemma phi_derive t : is_derive phi t (- t * phi t).
Proof. unfold phi. pose proof s2pi_pos. auto_derive; [exact I|]. unfold Rdiv. field. lra. Qed.
Lemma phi_cont t : continuous phi t.
Proof. apply ed_cont. eexists. apply phi_derive. Qed.
Lemma phi_int a b : ex_RInt phi a b.
Proof. apply int_cont. intros. apply phi_cont. Qed.
Lemma Phi_derive x : is_derive Phi x (phi x).
Proof.
  unfold Phi. replace (phi x) with (plus 0 (phi x)) by (unfold plus; cbn; ring).
  apply (is_derive_plus (fun _ => / 2) (fun x => RInt phi 0 x)); [apply (@is_derive_const R_AbsRing R_NormedModule)|].
  apply (is_derive_RInt phi (fun x => RInt phi 0 x) 0 x); [|apply phi_cont]. exists (mkposreal 1 Rlt_0_1). intros y _.
  apply (RInt_correct phi 0 y), phi_int.
Qed.
Lemma Phi_E x : Phi x = / 2 + / sqrt (2 * PI) * E x.
Proof.
  unfold Phi, E. f_equal. rewrite (RInt_ext phi (fun t => / sqrt (2 * PI) * gau t)) by (intros; apply phi_gau).
  now rewrite (RInt_scal_R gau 0 x) by apply gau_int.
Qed.
Lemma Phi_sqr x : (Phi x - / 2) * (Phi x - / 2) = / 4 - B x / (2 * PI).
Proof.
  rewrite Phi_E. pose proof s2pi_pos as P. pose proof PI_RGT_0 as Q.
  transitivity ((/ sqrt (2 * PI) * / sqrt (2 * PI)) * (E x * E x)); [ring|].
  rewrite <- Rinv_mult. rewrite s2pi_sqr. replace (E x * E x) with (PI / 2 - B x) by (pose proof (E_B x); lra).
  field. lra.
Qed.
Lemma Phi_range x : 0 < Phi x < 1.
Proof.
  pose proof (Phi_sqr x) as H. assert (P : 0 < B x / (2 * PI)).
  { apply Rdiv_lt_0_compat; [apply B_pos|]. pose proof PI_RGT_0. lra. } nra.
Qed.
Lemma phi_even t : phi (- t) = phi t.
Proof. unfold phi. do 3 f_equal. ring. Qed.
Lemma Phi_incr x y : x < y -> Phi x < Phi y.
Proof.
  intro H. apply (incr_function Phi m_infty p_infty phi); auto; try exact I.
  - intros. apply Phi_derive.
  - intros. apply phi_pos.
Qed.
Lemma Phi_0 : Phi 0 = / 2.
Proof. unfold Phi. rewrite RInt_point. unfold zero. cbn. ring. Qed.
Lemma Phi_opp x : Phi (- x) = 1 - Phi x.
Proof.
  assert (H : forall x y, Phi x + Phi (- x) = Phi y + Phi (- y)).
  { apply (constant_of_zero_derivative (fun x => Phi x + Phi (- x))). intro y.
    assert (D : is_derive (fun x => Phi (- x)) y (- phi y)).
    { replace (- phi y) with (scal (- 1) (phi (- y))) by (rewrite phi_even; unfold scal; cbn; unfold mult; cbn; ring).
      apply (is_derive_comp Phi Ropp); [apply Phi_derive|]. auto_derive; [exact I|ring]. }
    pose proof (is_derive_plus Phi (fun x => Phi (- x)) y _ _ (Phi_derive y) D) as D2.
    replace 0 with (plus (phi y) (- phi y)) by (unfold plus; cbn; ring). exact D2. }
  specialize (H x 0). rewrite Ropp_0, Phi_0 in H. lra.
Qed.
(** The tail. *)
Lemma Phi_tail x : 0 <= x -> 1 - Phi x <= 2 / PI * gau x.
Proof.
  intro Hx. pose proof (Phi_sqr x) as H. pose proof (B_le x) as L. pose proof PI_RGT_0 as Q.
  assert (P : / 2 <= Phi x). { destruct (Rle_lt_or_eq_dec 0 x Hx) as [l|e]; [|rewrite <- e, Phi_0; lra]. rewrite <- Phi_0. now apply Rlt_le, Phi_incr. }
  assert (X : (1 - Phi x) * Phi x = B x / (2 * PI)) by lra.
  assert (Y : B x / (2 * PI) <= gau x / PI).
  { apply Rmult_le_reg_r with (2 * PI); [lra|]. unfold Rdiv. rewrite Rmult_assoc, Rinv_l by lra.
    replace (gau x * / PI * (2 * PI)) with (2 * gau x) by (field; lra). lra. }
  assert (Z : 2 / PI * gau x = 2 * (gau x / PI)) by (field; lra). rewrite Z. pose proof (Phi_range x). nra.
Qed.
Lemma gau_lim : is_lim gau p_infty 0.
Proof.
  unfold gau. apply is_lim_comp with m_infty; [apply is_lim_exp_m| |].
  - apply is_lim_ext with (fun t => - / 2 * (t * t)); [intro; field|].
    replace m_infty with (Rbar_mult (- / 2) (Rbar_mult p_infty p_infty)).
    + apply is_lim_scal_l. apply is_lim_mult; [apply is_lim_id|apply is_lim_id|exact I].
    + cbn. destruct (Rle_dec 0 (- / 2)) as [r|r]; [exfalso; lra|reflexivity].
  - exists 0. intros y _. discriminate.
Qed.
Lemma Phi_lim_p : is_lim Phi p_infty 1.
Proof.
  apply is_lim_le_le_loc with (fun x => 1 - 2 / PI * gau x) (fun _ => 1).
  - exists 0. intros x Hx. pose proof (Phi_tail x ltac:(lra)). pose proof (Phi_range x). lra.
  - assert (H : is_lim (fun x => 1 - 2 / PI * gau x) p_infty (1 - 2 / PI * 0)).
    { apply (is_lim_minus _ _ p_infty 1 (2 / PI * 0)); [apply is_lim_const| |reflexivity].
      apply (is_lim_scal_l gau (2 / PI) p_infty 0), gau_lim. }
    rewrite Rmult_0_r, Rminus_0_r in H. exact H.
  - apply is_lim_const.
Qed.
Lemma lim_opp f l : is_lim f p_infty l -> is_lim (fun x => f (- x)) m_infty l.
Proof.
  intro H. apply (is_lim_comp f Ropp m_infty l p_infty H).
  - apply (is_lim_opp (fun y => y) m_infty m_infty), is_lim_id.
  - exists 0. intros y _. discriminate.
Qed.
Lemma Phi_lim_m : is_lim Phi m_infty 0.
Proof.
  apply is_lim_ext with (fun x => 1 - Phi (- x)); [intro x; rewrite Phi_opp; ring|].
  replace (Finite 0) with (Finite (1 - 1)) by (f_equal; ring). apply (is_lim_minus _ _ m_infty 1 1); [apply is_lim_const|apply (lim_opp Phi 1), Phi_lim_p|reflexivity].
Qed.
(** Phi is the distribution function of the density phi. *)
Lemma Phi_is_integral x : is_RInt_gen phi (Rbar_locally m_infty) (at_point x) (Phi x).
Proof.
  apply is_RInt_gen_ext with (Derive Phi).
  { apply filter_forall. intros ab y _. apply is_derive_unique, Phi_derive. }
  replace (Phi x) with (Phi x - 0) by ring. apply is_RInt_gen_Derive.
  - apply filter_forall. intros ab y _. eexists. apply Phi_derive.
  - apply filter_forall. intros ab y _. apply continuous_ext with phi; [intro; symmetry; apply is_derive_unique, Phi_derive|apply phi_cont].
  - exact Phi_lim_m.
  - intros P HP. exact (locally_singleton _ _ HP).
Qed.
Lemma phi_total : is_RInt_gen phi (Rbar_locally m_infty) (Rbar_locally p_infty) 1.
Proof.
  apply is_RInt_gen_ext with (Derive Phi).
  { apply filter_forall. intros ab y _. apply is_derive_unique, Phi_derive. }
  replace 1 with (1 - 0) by ring. apply is_RInt_gen_Derive.
  - apply filter_forall. intros ab y _. eexists. apply Phi_derive.
  - apply filter_forall. intros ab y _. apply continuous_ext with phi; [intro; symmetry; apply is_derive_unique, Phi_derive|apply phi_cont].
  - exact Phi_lim_m.
  - exact Phi_lim_p.
Qed.

(** ** t Phi(t) + phi(t) *)
Definition psi (t : R) : R := t * Phi t + phi t.
Lemma psi_derive t : is_derive psi t (Phi t).
Proof.
  unfold psi.
  pose proof (is_derive_mult (fun t => t) Phi t 1 (phi t) (is_derive_id t) (Phi_derive t) Rmult_comm) as D1.
  pose proof (is_derive_plus (fun t => t * Phi t) phi t _ _ D1 (phi_derive t)) as D2.
  replace (Phi t) with (plus (plus (mult 1 (Phi t)) (mult t (phi t))) (- t * phi t)) by (unfold plus, mult; cbn; ring). exact D2.
Qed.
Lemma mills_derive s x : is_derive (fun t => - phi t - s * Phi t) x (x * phi x - s * phi x).
Proof.
  assert (D1 : is_derive (fun t => - phi t) x (x * phi x)).
  { replace (x * phi x) with (opp (- x * phi x)) by (unfold opp; cbn; ring). apply (is_derive_opp phi), phi_derive. }
  assert (D2 : is_derive (fun t => s * Phi t) x (s * phi x)) by (apply (is_derive_scal Phi x s), Phi_derive).
  exact (is_derive_minus _ _ x _ _ D1 D2).
Qed.
Lemma mills s : 0 < s -> s * (1 - Phi s) <= phi s.
Proof.
  intro Hs.
  assert (H : forall M, s < M -> s * (Phi M - Phi s) <= phi s).
  { intros M HM. destruct (MVT_gen (fun t => - phi t - s * Phi t) s M (fun t => t * phi t - s * phi t)) as (c & Hc & Ec).
    - intros x _. apply mills_derive.
    - intros x _. apply continuity_pt_filterlim. apply (ed_cont (fun t => - phi t - s * Phi t) x). eexists. apply mills_derive.
    - rewrite Rmin_left, Rmax_right in Hc by lra. pose proof (phi_pos c). pose proof (phi_pos M).
      assert (0 <= (c * phi c - s * phi c) * (M - s)) by (apply Rmult_le_pos; nra). lra. }
  destruct (Rle_lt_dec (s * (1 - Phi s)) (phi s)) as [|L]; [assumption|]. exfalso.
  pose proof Phi_lim_p as LP. apply is_lim_spec in LP.
  assert (Pe : 0 < (s * (1 - Phi s) - phi s) / s) by (apply Rdiv_lt_0_compat; lra).
  destruct (LP (mkposreal _ Pe)) as [M0 HM0]. simpl in HM0. set (M := Rmax (M0 + 1) (s + 1)).
  assert (M0 < M) by (unfold M; pose proof (Rmax_l (M0 + 1) (s + 1)); lra).
  assert (sM : s < M) by (unfold M; pose proof (Rmax_r (M0 + 1) (s + 1)); lra).
  specialize (HM0 M H0). specialize (H M sM). pose proof (Phi_range M).
  rewrite Rabs_left in HM0 by lra.
  assert (s * (1 - Phi M) < s * ((s * (1 - Phi s) - phi s) / s)) by (apply Rmult_lt_compat_l; lra).
  replace (s * ((s * (1 - Phi s) - phi s) / s)) with (s * (1 - Phi s) - phi s) in H2 by (field; lra). nra.
Qed.
Lemma psi_nonneg t : 0 <= psi t.
Proof.
  unfold psi. pose proof (phi_pos t) as P. pose proof (Phi_range t) as Q. destruct (Rle_lt_dec 0 t) as [H|H]; [nra|].
  pose proof (mills (- t) ltac:(lra)) as M. rewrite Phi_opp, phi_even in M. lra.
Qed.
Lemma psi_incr x y : x < y -> psi x < psi y.
Proof.
  intro H. apply (incr_function psi m_infty p_infty Phi); auto; try exact I.
  - intros. apply psi_derive.
  - intros. apply Phi_range.
Qed.
Lemma psi_pos t : 0 < psi t.
Proof. pose proof (psi_nonneg (t - 1)). pose proof (psi_incr (t - 1) t ltac:(lra)). lra. Qed.
