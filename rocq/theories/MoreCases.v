(** Instances for the theorems about further observations. *)
From Coq Require Import List ZArith Bool Reals Lra Lia.
From Verif Require Import Base BaseLemmas Kernels KernelPsdSpec Gpr GprSpec GprLemmas GprProps GprSamples Cholesky CholTotal GprMore.
Import ListNotations.
Open Scope R_scope.

Lemma one_answer (e' : gpr) x : (forall X', Forall (fun x => length x = 1%nat) X' -> X' <> [] -> exists m s C,
    predict e' X' true false false false = Ok (mkAnswer m (Some s) None None) /\ predict_cov e' X' false false = Ok (m, C) /\ length m = length X' /\ length s = length X' /\ length C = length X') ->
  length x = 1%nat -> exists m s, predict e' [x] true false false false = Ok (mkAnswer [m] (Some [s]) None None).
Proof.
  intros H Lx. destruct (H [x]) as (m & s & C & P & _ & Lm & Ls & _); [now repeat constructor|discriminate|].
  destruct m as [|a [|]]; try discriminate. destruct s as [|b [|]]; try discriminate. eauto.
Qed.

(** A Matern kernel with a noise term; one point, then two more, one of them repeated *)
Definition more_e : gpr := mkGpr (Some (Prod (Const 1) (Matern Nu5Half (Iso 2)))) NoiseGaussian (/ 100) false None.
Lemma more_case : exists e1 e2 m1 s1 m2 s2, fit keep cho_inv cho_weights more_e [[0]] [3] = Ok e1 /\
  fit keep cho_inv cho_weights more_e ([[0]] ++ [[1]; [0]]) [3; 5; 4] = Ok e2 /\
  predict e1 [[2]] true false false false = Ok (mkAnswer [m1] (Some [s1]) None None) /\
  predict e2 [[2]] true false false false = Ok (mkAnswer [m2] (Some [s2]) None None).
Proof.
  assert (Hk : forall k X y, valid k 1 -> valid (keep k X y) 1) by (intros k X y V; exact V).
  assert (V : valid (user_kernel more_e) 1) by (repeat constructor; cbn; lra).
  assert (Pa : 0 < e_alpha more_e) by (cbn; lra).
  destruct (c81 keep 1 Hk more_e [[0]] [3] V I Pa) as (e1 & F1 & P1); [repeat constructor|discriminate|].
  destruct (c81 keep 1 Hk more_e ([[0]] ++ [[1]; [0]]) [3; 5; 4] V I Pa) as (e2 & F2 & P2); [repeat constructor|discriminate|].
  destruct (one_answer e1 [2] P1 eq_refl) as (m1 & s1 & Q1). destruct (one_answer e2 [2] P2 eq_refl) as (m2 & s2 & Q2).
  exists e1, e2, m1, s1, m2, s2. auto.
Qed.

(** With normalize_y the unit itself moves: an outlier makes every deviation larger. *)
Definition spread_e : gpr := mkGpr (Some (White 1)) NoNoise 1 true None.
Lemma dot_zeros : forall n v, dot (repeat 0 n) v = 0.
Proof. induction n as [|n IH]; intros [|a v]; try reflexivity. change (0 * a + dot (repeat 0 n) v = 0). rewrite IH. ring. Qed.
Lemma white_zeros x : forall X, mapM (kcall (White 1) 2 x) X = Ok (repeat 0 (length X)).
Proof. induction X as [|a X IH]; [reflexivity|]. cbn [mapM length repeat]. rewrite IH. reflexivity. Qed.
Lemma spread_std X y e' m s : fit keep cho_inv cho_weights spread_e X y = Ok e' ->
  predict e' [[0]] true false false false = Ok (mkAnswer [m] (Some [s]) None None) -> s = std y.
Proof.
  intros F P. destruct (fit_inv _ _ _ _ _ _ _ F) as (k & mm & ss & K & A & g & Ek & Zs & Es & EK & EA & Eg & _ & _ & _ & _ & GX & _ & Gl & _ & Gs & Gk).
  cbn in Ek. injection Ek as <-. cbn [e_normalize spread_e] in Es. injection Es as -> ->. cbv zeta in Gk. cbn [e_noise spread_e] in Gk. unfold keep in Gk. injection Gk as Gk _.
  unfold predict in P. cbn -[post_mean post_std] in P. rewrite Eg in P. destruct (post_mean g [0]) as [a|]; [|discriminate]. cbn [bind] in P.
  destruct (post_std g [0]) as [b|] eqn:S; [|discriminate]. cbn [bind] in P. injection P as _ <-. unfold post_std in S. rewrite Gk, white_zeros in S. cbn [bind kdiag] in S.
  rewrite dot_zeros, Gs in S. injection S as <-. destruct (Rlt_dec (1 - 0) 0); [lra|]. unfold sqr. rewrite Rminus_0_r, Rmult_1_l. apply sqrt_square. apply sqrt_pos.
Qed.
Lemma spread_refuted : exists e X y X2 y2 e1 e2 m1 s1 m2 s2, e_normalize e = true /\
  fit keep cho_inv cho_weights e X y = Ok e1 /\ fit keep cho_inv cho_weights e (X ++ X2) (y ++ y2) = Ok e2 /\
  predict e1 [[0]] true false false false = Ok (mkAnswer [m1] (Some [s1]) None None) /\
  predict e2 [[0]] true false false false = Ok (mkAnswer [m2] (Some [s2]) None None) /\ s1 < s2.
Proof.
  assert (Hk : forall k X y, valid k 1 -> valid (keep k X y) 1) by (intros k X y V; exact V).
  assert (V : valid (user_kernel spread_e) 1) by (cbn; lra). assert (Pa : 0 < e_alpha spread_e) by (cbn; lra).
  destruct (c81 keep 1 Hk spread_e [[1]; [2]] [0; 2] V I Pa) as (e1 & F1 & P1); [repeat constructor|intros _; exists 0, 2; cbn; repeat split; auto; lra|].
  destruct (c81 keep 1 Hk spread_e ([[1]; [2]] ++ [[3]]) ([0; 2] ++ [10]) V I Pa) as (e2 & F2 & P2); [repeat constructor|intros _; exists 0, 2; cbn; repeat split; auto; lra|].
  destruct (one_answer e1 [0] P1 eq_refl) as (m1 & s1 & Q1). destruct (one_answer e2 [0] P2 eq_refl) as (m2 & s2 & Q2).
  exists spread_e, [[1]; [2]], [0; 2], [[3]], [10], e1, e2, m1, s1, m2, s2.
  split; [reflexivity|]. split; [exact F1|]. split; [exact F2|]. split; [exact Q1|]. split; [exact Q2|]. rewrite (spread_std _ _ _ _ _ F1 Q1), (spread_std _ _ _ _ _ F2 Q2).
  unfold std, mean, sum, sqr. cbn. apply sqrt_lt_1_alt. lra.
Qed.
