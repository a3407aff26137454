(** Kernels whose matrices are no covariances, and a fitted regressor for the examples. *)
From Coq Require Import List ZArith Bool Reals Lra Lia.
From Verif Require Import Base BaseLemmas Kernels KernelPsdSpec Gpr GprSpec GprLemmas GprProps GprPosterior GprSamples Psd PsdSchur KernelPsd GprCov GprCov2.
Import ListNotations.
Open Scope R_scope.
Open Scope list_scope.

Lemma refute k X (M : mx) c : (forall i j, (i < length X)%nat -> (j < length X)%nat -> ktrain k (Nat.eqb i j) (nth i X []) (nth j X []) = Ok (M i j)) ->
  length c = length X -> qf (length X) M (fun i => nth i c 0) < 0 -> exists K, train_matrix k 0 X = Ok K /\ ~ covariance K.
Proof.
  intros H Lc Q. destruct (train_total k 0 X M H) as [K E]. exists K. split; [exact E|]. intros (_ & _ & P). destruct (train_entries _ _ _ _ E) as (LK & FK & HK).
  specialize (P c). rewrite LK in P. specialize (P Lc). rewrite (quad_sm K c (length X)) in P by assumption.
  rewrite (qf_ext (length X) (entry K) M) in P; [lra|]. intros i j Hi Hj. destruct (HK i j Hi Hj) as (v & Ev & ->). rewrite (H i j Hi Hj) in Ev. injection Ev as <-. destruct (Nat.eqb i j); ring.
Qed.

Lemma sqrt_lt_0_alt_lt a b : 0 <= a -> 0 <= b -> a < b * b -> sqrt a < b.
Proof. intros Ha Hb H. rewrite <- (sqrt_square b Hb). apply sqrt_lt_1_alt. lra. Qed.
Lemma lt_sqrt a b : 0 <= a -> 0 <= b -> b * b < a -> b < sqrt a.
Proof. intros Ha Hb H. rewrite <- (sqrt_square b Hb). apply sqrt_lt_1_alt. nra. Qed.
(** A periodic kernel on two features: two points a whole period from a third, but not from each other *)
Definition tri : mat := [[-5; 0]; [5; 0]; [0; 12]].
Lemma sine_val x t r : length x = length t -> (forall v, minus x t = Ok v -> sq_norm v = r * r) -> 0 <= r ->
  kcall (ExpSine 1 13) 2 x t = Ok (exp (- 2 * sqr (sin (PI * r / 13)))).
Proof.
  intros L H Hr. cbn [kcall Nat.leb]. unfold minus in *. rewrite L, Nat.eqb_refl in *. cbn [bind]. unfold norm. rewrite (H _ eq_refl), sqrt_square by exact Hr. do 4 f_equal. field.
Qed.
Lemma periodic_refuted : exists l p X K, 0 < l /\ 0 < p /\ Forall (fun x => length x = 2%nat) X /\ train_matrix (ExpSine l p) 0 X = Ok K /\ ~ covariance K.
Proof.
  exists 1, 13, tri. pose proof PI_RGT_0 as HP.
  assert (S0 : sin (PI * 13 / 13) = 0) by (replace (PI * 13 / 13) with PI by field; apply sin_PI).
  assert (Z0 : sin (PI * 0 / 13) = 0) by (replace (PI * 0 / 13) with 0 by field; apply sin_0).
  assert (S1 : 0 < sin (PI * 10 / 13)) by (apply sin_gt_0; lra).
  set (e := exp (- 2 * sqr (sin (PI * 10 / 13)))).
  assert (E1 : e < 1) by (unfold e; rewrite <- exp_0; apply exp_increasing; unfold sqr; nra).
  destruct (refute (ExpSine 1 13) tri (fun i j => if Nat.eqb i j then 1 else if Nat.eqb (i + j) 1 then e else 1) [1; 1; -2]) as [K HK].
  - assert (V : forall x t r, length x = length t -> (forall v, minus x t = Ok v -> sq_norm v = r * r) -> 0 <= r -> forall same, ktrain (ExpSine 1 13) same x t = Ok (exp (- 2 * sqr (sin (PI * r / 13))))).
    { intros x t r L H Hr same. exact (sine_val x t r L H Hr). }
    assert (One : forall s, s = 0 -> exp (-2 * sqr s) = 1) by (intros s ->; unfold sqr; rewrite !Rmult_0_r; apply exp_0).
    intros i j Hi Hj. cbn [tri length] in Hi, Hj.
    assert (Hi' : i = 0%nat \/ i = 1%nat \/ i = 2%nat) by lia. assert (Hj' : j = 0%nat \/ j = 1%nat \/ j = 2%nat) by lia.
    destruct Hi' as [-> | [-> | ->]], Hj' as [-> | [-> | ->]]; cbn [Nat.eqb Nat.add nth tri];
      first [ rewrite (V _ _ 0), One; [reflexivity|exact Z0|reflexivity|intros v Hv; injection Hv as <-; unfold sq_norm, sum, sqr; cbn; ring|lra]
            | rewrite (V _ _ 13), One; [reflexivity|exact S0|reflexivity|intros v Hv; injection Hv as <-; unfold sq_norm, sum, sqr; cbn; ring|lra]
            | rewrite (V _ _ 10); [reflexivity|reflexivity|intros v Hv; injection Hv as <-; unfold sq_norm, sum, sqr; cbn; ring|lra] ].
  - reflexivity.
  - unfold qf. cbn. lra.
  - exists K. split; [lra|]. split; [lra|]. split; [|exact HK]. repeat constructor.
Qed.

(** The square root of a linear kernel *)
Lemma exponent_refuted : exists s p X K, Forall (fun x => length x = 1%nat) X /\ train_matrix (Expo (Dot s) (EReal p)) 0 X = Ok K /\ ~ covariance K.
Proof.
  exists 1, (/ 2), [[0]; [1]; [2]].
  destruct (refute (Expo (Dot 1) (EReal (/ 2))) [[0]; [1]; [2]] (fun i j => sqrt (INR i * INR j + 1)) [1; -2; 1]) as [K HK].
  - assert (V : forall a b same, 0 < a * b + 1 -> ktrain (Expo (Dot 1) (EReal (/ 2))) same [a] [b] = Ok (sqrt (a * b + 1))).
    { intros a b same P. cbn [ktrain kcall Nat.leb Nat.eqb length bind kpow]. replace (sum (zip Rmult [a] [b]) + sqr 1) with (a * b + 1) by (cbn; unfold sqr; ring).
      destruct (Rlt_dec 0 (a * b + 1)); [|lra]. now rewrite Rpower_sqrt. }
    intros i j Hi Hj. cbn [length] in Hi, Hj.
    assert (Q : forall i, (i < 3)%nat -> nth i [[0]; [1]; [2]] [] = [INR i]) by (intros [|[|[|m]]] Hm; try lia; reflexivity).
    rewrite (Q i Hi), (Q j Hj). rewrite V; [reflexivity|]. pose proof (pos_INR i). pose proof (pos_INR j). nra.
  - reflexivity.
  - unfold qf. cbn [sm length nth]. cbn [INR].
    replace (0 * 0 + 1) with 1 by ring. replace (0 * 1 + 1) with 1 by ring. replace (0 * (1 + 1) + 1) with 1 by ring. replace (1 * 0 + 1) with 1 by ring.
    replace ((1 + 1) * 0 + 1) with 1 by ring. replace (1 * 1 + 1) with 2 by ring. replace (1 * (1 + 1) + 1) with 3 by ring. replace ((1 + 1) * 1 + 1) with 3 by ring. replace ((1 + 1) * (1 + 1) + 1) with 5 by ring.
    rewrite sqrt_1. assert (A : sqrt 2 < 1415 / 1000) by (apply sqrt_lt_0_alt_lt; lra). assert (B : 1732 / 1000 < sqrt 3) by (apply lt_sqrt; lra). assert (C : sqrt 5 < 2237 / 1000) by (apply sqrt_lt_0_alt_lt; lra). lra.
  - exists K. split; [|exact HK]. repeat constructor.
Qed.
