(** A regressor with one training point, computed by hand. *)
From Coq Require Import List ZArith Bool Reals Lra Lia.
From Coquelicot Require Import Coquelicot.
From Verif Require Import Base BaseLemmas Kernels KernelSpec AcqSpec GaussLemmas AcqLemmas KernelLemmas KernelProps Gpr GprSpec GprLemmas GprProps GprPosterior GprFit.
Import ListNotations.
Open Scope R_scope.
Open Scope list_scope.

Definition keep (k : kernel) (_ : mat) (_ : vec) : kernel := k.
(** Matrices with one entry *)
Definition linv1 (K : mat) : option mat :=
  match K with
  | [[a]] => if Rlt_dec 0 a then Some [[/ sqrt a]] else None
  | _ => None
  end.
Definition solve1 (K : mat) (y : vec) : vec :=
  match K, y with
  | [[a]], [b] => [b / a]
  | _, _ => []
  end.

Lemma keep_shape k X y : same_shape k (keep k X y).
Proof. unfold keep. induction k; cbn; auto. Qed.
Lemma lin1 : lin_ok linv1 solve1.
Proof.
  intros K A _ H. destruct K as [|[|a [|]] [|]]; try discriminate. cbn in H. destruct (Rlt_dec 0 a) as [P|]; [|discriminate]. injection H as <-.
  assert (0 < sqrt a) by now apply sqrt_lt_R0. assert (S : sqrt a * sqrt a = a) by (apply sqrt_sqrt; lra). split.
  - split; [reflexivity|]. intros [|i] [|j] Hi Hj; cbn in Hi, Hj; try lia. unfold dot, sum, zip. cbn. rewrite <- S at 1. field. lra.
  - intros y L. destruct y as [|b [|]]; try discriminate. split; [reflexivity|]. intros [|i] Hi; cbn in Hi; try lia. unfold dot, sum, zip. cbn. field. lra.
Qed.

Lemma rbf_self a : kcall (RBF (Iso 1)) 2 [a] [a] = Ok 1.
Proof.
  destruct (diffs (Iso 1) [a] [a]) as [v|] eqn:E; [|discriminate]. cbn [kcall Nat.leb]. rewrite E. cbn [bind].
  rewrite (diffs_self _ _ _ E), Rmult_0_r, exp_0. reflexivity.
Qed.
Lemma rbf_1 : kcall (RBF (Iso 1)) 2 [1] [0] = Ok (exp (- / 2)).
Proof. cbn. unfold sq_norm, sqr, sum. cbn. do 2 f_equal. field. Qed.

(** One fit *)
Lemma fit_one k0 nz alpha a y k c k'' v :
  let e := mkGpr (Some k0) nz alpha false None in
  fit_kernel e = Ok k -> ktrain k true [a] [a] = Ok c -> 0 < c + alpha ->
  (k'', v) = (match nz with
              | NoNoise => (k, None)
              | _ => match k with
                     | White _ => (White 0, None)
                     | _ => match white_path k with Some p => (zero_at k p, level_at k p) | None => (k, None) end
                     end
              end) ->
  fit keep linv1 solve1 e [[a]] [y] =
  Ok (mkGpr (Some k) nz alpha false (Some (mkGp [[a]] k'' [(y - 0) / 1 / (c + alpha)] [[/ sqrt (c + alpha)]] 0 1 v))).
Proof.
  intros e Ek Ec P Q. unfold fit. rewrite Ek. cbn [bind e e_normalize e_alpha e_noise map]. destruct (Req_EM_T 1 0) as [Z|_]; [lra|]. cbv zeta.
  unfold train_matrix, keep. cbn [enumerate enumerate_from mapM fst snd Nat.eqb]. rewrite Ec. cbn [bind]. cbn [linv1 solve1].
  destruct (Rlt_dec 0 (c + alpha)) as [_|N]; [|contradiction]. rewrite <- Q. reflexivity.
Qed.
Lemma one_mean e g a x al m sd kt r : e_fitted e = Some g -> g_X g = [[a]] -> g_alpha g = [al] -> g_ymean g = m -> g_ystd g = sd -> g_Linv g = [[r]] ->
  kcall (g_kernel g) 2 x [a] = Ok kt -> post_mean g x = Ok (sd * (kt * al) + m).
Proof. intros _ E1 E2 E3 E4 _ Ek. unfold post_mean. rewrite E1, E2, E3, E4. cbn [mapM]. rewrite Ek. cbn [bind]. do 3 f_equal. unfold dot, sum, zip. cbn. ring. Qed.
Lemma one_std g a x kt r d : g_X g = [[a]] -> g_ystd g = 1 -> g_Linv g = [[r]] ->
  kcall (g_kernel g) 2 x [a] = Ok kt -> kdiag (g_kernel g) x = Ok d -> 0 <= d - kt * kt * (r * r) -> post_std g x = Ok (sqrt (d - kt * kt * (r * r))).
Proof.
  intros E1 E4 E5 Ek Ed P. unfold post_std. rewrite E1, E4, E5. cbn [mapM]. rewrite Ek. cbn [bind]. rewrite Ed. cbn [bind]. f_equal. f_equal.
  unfold dot, sum, zip, kinv, sqr. cbn. unfold dot, sum, zip. cbn.
  match goal with |- (if Rlt_dec ?v 0 then _ else _) * _ = _ => replace v with (d - kt * kt * (r * r)) by ring end.
  destruct (Rlt_dec _ _); lra.
Qed.

(** *** Noise, one fit *)
Definition rbf1 : kernel := RBF (Iso 1).
Definition noisy1 : gpr := mkGpr (Some rbf1) NoiseGaussian 0 false None.
Definition noisy1' : gpr := mkGpr (Some (Sum rbf1 (White 1))) NoiseGaussian 0 false
  (Some (mkGp [[0]] (Sum rbf1 (White 0)) [(3 - 0) / 1 / (1 + 1 + 0)] [[/ sqrt (1 + 1 + 0)]] 0 1 (Some 1))).
Lemma noisy_fit : fit keep linv1 solve1 noisy1 [[0]] [3] = Ok noisy1'.
Proof.
  unfold noisy1, noisy1'. apply (fit_one rbf1 NoiseGaussian 0 0 3 (Sum rbf1 (White 1)) (1 + 1)); [reflexivity| |lra|reflexivity].
  cbn [ktrain rbf1]. rewrite rbf_self. reflexivity.
Qed.
(** *** and two *)
Definition noisy2' : gpr := mkGpr (Some (Sum (Sum rbf1 (White 1)) (White 1))) NoiseGaussian 0 false
  (Some (mkGp [[0]] (Sum (Sum rbf1 (White 0)) (White 1)) [(3 - 0) / 1 / (1 + 1 + 1 + 0)] [[/ sqrt (1 + 1 + 1 + 0)]] 0 1 (Some 1))).
Lemma fit_forgets tune linv solve e f X y : fit tune linv solve (mkGpr (e_kernel e) (e_noise e) (e_alpha e) (e_normalize e) f) X y = fit tune linv solve e X y.
Proof. reflexivity. Qed.
Lemma noisy_refit : fit keep linv1 solve1 noisy1' [[0]] [3] = Ok noisy2'.
Proof.
  unfold noisy1'. rewrite <- (fit_forgets _ _ _ _ None). cbn [e_kernel e_noise e_alpha e_normalize].
  unfold noisy2'. apply (fit_one (Sum rbf1 (White 1)) NoiseGaussian 0 0 3 (Sum (Sum rbf1 (White 1)) (White 1)) (1 + 1 + 1)); [reflexivity| |lra|reflexivity].
  cbn [ktrain rbf1]. rewrite rbf_self. reflexivity.
Qed.
Lemma noisy_std1 : predict noisy1' [[0]] true false false false = Ok (mkAnswer [3 / 2] (Some [sqrt (/ 2)]) None None).
Proof.
  unfold predict. cbn -[post_mean post_std].
  set (g := mkGp _ _ _ _ _ _ _). assert (Ek : kcall (g_kernel g) 2 [0] [0] = Ok 1) by (cbn [g g_kernel]; rewrite kcall_white0; apply rbf_self).
  rewrite (one_mean noisy1' g 0 [0] ((3 - 0) / 1 / (1 + 1 + 0)) 0 1 1 (/ sqrt (1 + 1 + 0)) eq_refl eq_refl eq_refl eq_refl eq_refl eq_refl Ek). cbn [bind].
  assert (S : / sqrt (1 + 1 + 0) * / sqrt (1 + 1 + 0) = / 2).
  { rewrite <- Rinv_mult, sqrt_sqrt by lra. f_equal. ring. }
  rewrite (one_std g 0 [0] 1 (/ sqrt (1 + 1 + 0)) 1 eq_refl eq_refl eq_refl Ek); [| |rewrite S; lra].
  - rewrite S. cbn [bind]. replace (1 * (1 * ((3 - 0) / 1 / (1 + 1 + 0))) + 0) with (3 / 2) by field. replace (1 - 1 * 1 * / 2) with (/ 2) by field. reflexivity.
  - cbn [g g_kernel]. now rewrite kdiag_white0.
Qed.
Lemma noisy_std2 : predict noisy2' [[0]] true false false false = Ok (mkAnswer [1] (Some [sqrt (5 / 3)]) None None).
Proof.
  unfold predict. cbn -[post_mean post_std].
  set (g := mkGp _ _ _ _ _ _ _). assert (Ek : kcall (g_kernel g) 2 [0] [0] = Ok 1).
  { cbn [g g_kernel]. rewrite !kcall_white0. apply rbf_self. }
  rewrite (one_mean noisy2' g 0 [0] ((3 - 0) / 1 / (1 + 1 + 1 + 0)) 0 1 1 (/ sqrt (1 + 1 + 1 + 0)) eq_refl eq_refl eq_refl eq_refl eq_refl eq_refl Ek). cbn [bind].
  assert (S : / sqrt (1 + 1 + 1 + 0) * / sqrt (1 + 1 + 1 + 0) = / 3).
  { rewrite <- Rinv_mult, sqrt_sqrt by lra. f_equal. ring. }
  rewrite (one_std g 0 [0] 1 (/ sqrt (1 + 1 + 1 + 0)) 2 eq_refl eq_refl eq_refl Ek); [| |rewrite S; lra].
  - rewrite S. cbn [bind]. replace (1 * (1 * ((3 - 0) / 1 / (1 + 1 + 1 + 0))) + 0) with 1 by field. replace (2 - 1 * 1 * / 3) with (5 / 3) by field. reflexivity.
  - cbn [g g_kernel kdiag rbf1 bind]. f_equal. ring.
Qed.
Lemma refit_refuted : exists e X y e1 e2 x m1 s1 m2 s2,
  no_white (user_kernel e) /\ fit keep linv1 solve1 e X y = Ok e1 /\ fit keep linv1 solve1 e1 X y = Ok e2 /\
  predict (prior e (user_kernel e)) [x] true false false false = Ok (mkAnswer [0] (Some [1]) None None) /\
  predict e1 [x] true false false false = Ok (mkAnswer [m1] (Some [s1]) None None) /\ s1 < 1 /\
  predict e2 [x] true false false false = Ok (mkAnswer [m2] (Some [s2]) None None) /\ 1 < s2.
Proof.
  exists noisy1, [[0]], [3], noisy1', noisy2', [0]. do 4 eexists. split; [exact I|]. split; [exact noisy_fit|]. split; [exact noisy_refit|].
  split. { unfold predict. cbn. now rewrite sqrt_1. }
  split; [exact noisy_std1|]. split; [apply Rlt_le_trans with (sqrt 1); [apply sqrt_lt_1_alt; lra|rewrite sqrt_1; lra]|]. split; [exact noisy_std2|]. apply Rle_lt_trans with (sqrt 1); [rewrite sqrt_1; lra|apply sqrt_lt_1_alt; lra].
Qed.

(** *** Interpolation *)
Definition exact1 : gpr := mkGpr (Some rbf1) NoNoise 0 false None.
Definition exact1' : gpr := mkGpr (Some rbf1) NoNoise 0 false (Some (mkGp [[0]] rbf1 [(3 - 0) / 1 / (1 + 0)] [[/ sqrt (1 + 0)]] 0 1 None)).
Lemma exact_fit : fit keep linv1 solve1 exact1 [[0]] [3] = Ok exact1'.
Proof. unfold exact1, exact1'. apply (fit_one rbf1 NoNoise 0 0 3 rbf1 1); [reflexivity|exact (rbf_self 0)|lra|reflexivity]. Qed.
(** and a point with positive deviation *)
Lemma exact_at_1 : exists m s gm gs, predict exact1' [[1]] true false true true = Ok (mkAnswer [m] (Some [s]) (Some gm) (Some gs)) /\
  / 100000000 < s /\ List.Forall (fun t => length [1] = length t /\ smooth rbf1 [1] t) [[0]] /\ no_dot rbf1.
Proof.
  destruct (c54_total exact1' _ [1] eq_refl I (List.Forall_cons [0] eq_refl (List.Forall_nil _))) as [ans H].
  destruct (predict_all exact1' _ eq_refl [1] ans H) as (m & s & gm & gs & -> & _ & Es & _ & _). exists m, s, gm, gs. split; [exact H|].
  split; [|split; [constructor; [split; [reflexivity|cbn; lra]|constructor]|exact I]].
  assert (S : / sqrt (1 + 0) * / sqrt (1 + 0) = 1) by (rewrite Rplus_0_r, sqrt_1; field).
  set (g := mkGp _ _ _ _ _ _ _) in Es.
  assert (B : exp (- / 2) * exp (- / 2) < / 2).
  { rewrite <- exp_plus. replace (- / 2 + - / 2) with (- (1)) by field. rewrite exp_Ropp. apply Rinv_lt_contravar; [apply Rmult_lt_0_compat; [lra|apply exp_pos]|].
    pose proof (exp_ineq1 1 ltac:(lra)). lra. }
  rewrite (one_std g 0 [1] (exp (- / 2)) (/ sqrt (1 + 0)) 1 eq_refl eq_refl eq_refl rbf_1 eq_refl) in Es by (rewrite S; lra).
  injection Es as <-. rewrite S. rewrite <- (sqrt_Rsqr (/ 100000000)) by lra. apply sqrt_lt_1_alt. unfold Rsqr. lra.
Qed.

(** *** DotProduct *)
Definition dot1 : gpr := mkGpr (Some (Dot 1)) NoNoise 0 false None.
Definition dot1' : gpr := mkGpr (Some (Dot 1)) NoNoise 0 false (Some (mkGp [[0]] (Dot 1) [(3 - 0) / 1 / (1 + 0)] [[/ sqrt (1 + 0)]] 0 1 None)).
Lemma dot_fit : fit keep linv1 solve1 dot1 [[0]] [3] = Ok dot1'.
Proof.
  unfold dot1, dot1'. apply (fit_one (Dot 1) NoNoise 0 0 3 (Dot 1) 1); [reflexivity| |lra|reflexivity].
  cbn. unfold sqr. f_equal. ring.
Qed.
Lemma dot_std u : first (stds (predict dot1' [[u]] true false false false)) = Rabs u.
Proof.
  rewrite (predict_std dot1' _ eq_refl). set (g := mkGp _ _ _ _ _ _ _).
  assert (S : / sqrt (1 + 0) * / sqrt (1 + 0) = 1) by (rewrite Rplus_0_r, sqrt_1; field).
  assert (Ek : kcall (g_kernel g) 2 [u] [0] = Ok 1) by (cbn; unfold sqr; f_equal; ring).
  assert (Ed : kdiag (g_kernel g) [u] = Ok (u * u + 1)) by (cbn; unfold sqr; f_equal; ring).
  rewrite (one_std g 0 [u] 1 (/ sqrt (1 + 0)) (u * u + 1) eq_refl eq_refl eq_refl Ek Ed) by (rewrite S; nra).
  rewrite S. cbn [value]. replace (u * u + 1 - 1 * 1 * 1) with (Rsqr u) by (unfold Rsqr; ring). apply sqrt_Rsqr_abs.
Qed.
Lemma dot_predict : exists m gm, predict dot1' [[1]] true false true true = Ok (mkAnswer [m] (Some [1]) (Some gm) (Some [0])).
Proof.
  destruct (c54_total dot1' _ [1] eq_refl I (List.Forall_cons [0] eq_refl (List.Forall_nil _))) as [ans H].
  destruct (predict_all dot1' _ eq_refl [1] ans H) as (m & s & gm & gs & -> & _ & Es & _ & Eg). exists m, gm. rewrite H.
  assert (E1 : s = 1). { pose proof (dot_std 1) as D. rewrite (predict_std dot1' _ eq_refl), Es, Rabs_R1 in D. exact D. }
  subst s. unfold post_std_grad in Eg. rewrite Es in Eg. cbn -[Rle_dec] in Eg. destruct (Rle_dec 1 (/ 100000000)) as [L|_]; [lra|]. injection Eg as <-.
  do 4 f_equal. f_equal. unfold dot, sum, zip, col. cbn. unfold dot, sum, zip, sqr. cbn. field. rewrite Rplus_0_r, sqrt_1. lra.
Qed.
Lemma dot_refuted : exists e X y e' x m s gm gs, fit keep linv1 solve1 e X y = Ok e' /\
  predict e' [x] true false true true = Ok (mkAnswer [m] (Some [s]) (Some gm) (Some gs)) /\ 0 < s /\
  (forall t, In t X -> smooth (user_kernel e) x t) /\
  ~ gradient (fun x => first (stds (predict e' [x] true false false false))) x gs.
Proof.
  destruct dot_predict as (m & gm & H). exists dot1, [[0]], [3], dot1', [1], m, 1, gm, [0]. split; [exact dot_fit|]. split; [exact H|]. split; [lra|]. split; [intros; exact I|].
  intros [_ D]. specialize (D 0%nat 1 0 eq_refl eq_refl). cbn [put] in D.
  assert (D1 : is_derive (fun u : R => u) 1 1) by exact (is_derive_id (1 : R)).
  assert (E : 1 = 0); [|lra]. rewrite <- (is_derive_unique _ _ _ D1), <- (is_derive_unique _ _ _ D). apply Derive_ext_loc.
  exists (mkposreal 1 Rlt_0_1). intros u Hu. rewrite dot_std. symmetry. apply Rabs_right.
  unfold ball in Hu; cbn in Hu; unfold AbsRing_ball, abs, Hierarchy.minus, plus, opp in Hu; cbn in Hu. apply Rabs_def2 in Hu. lra.
Qed.
