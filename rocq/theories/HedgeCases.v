(** The softmax in exact arithmetic, and a library with a correctly rounded exp (C23). *)
From Coq Require Import String List ZArith Bool Lia Reals Lra Psatz.
From Flocq Require Import Core.Core IEEE754.BinarySingleNaN.
From Verif Require Import Base BaseLemmas Num Values Transformers Dimension Space SpaceSpec NumLaws F64Arith F64Dim MetricSpec MetricLemmas FloatMetric Optimizer OptSpec ArgLemmas OptLemmas5 LibmSpec FloatCases HedgeSpec HedgeFloat.
Import ListNotations.
Open Scope R_scope.
Open Scope list_scope.

Lemma c23_softmax eta g1 g2 g3 : hedge_weights Rops eta [g1; g2; g3] =
  Ok (map (fun g => exp (eta * g) / (exp (eta * g1) + exp (eta * g2) + exp (eta * g3))) [g1; g2; g3]).
Proof.
  destruct (np_max_spec Rops_order (l := [g1; g2; g3]) ltac:(discriminate) (no_nan_R _)) as (m & E & _). unfold hedge_weights. rewrite E. cbn [bind].
  cbn [nexp nmul nsub ndiv Rops]. rewrite map_map. f_equal. apply map_ext. intro g. unfold np_sum. cbn [map fold_left nadd nofZ Rops].
  assert (T : forall g, exp (eta * (g - m)) = exp (eta * g) * exp (- (eta * m))) by (intro h; rewrite <- exp_plus; f_equal; ring). rewrite !T.
  pose proof (exp_pos (eta * g1)). pose proof (exp_pos (eta * g2)). pose proof (exp_pos (eta * g3)). pose proof (exp_pos (- (eta * m))). field. split; [lra|]. nra.
Qed.

Definition LX : libm := {|
  l_log10 := l_log10 LC; l_pow := l_pow LC;
  l_exp := fun x => match x with B754_infinity true => fofZ 0 | _ => nearest (exp (B2R x)) end;
  l_log := l_log LC; l_str := l_str LC; l_parse := l_parse LC |}.
Lemma exp_low x : x <= 0 -> 0 <= exp x <= 1.
Proof. intro H. split; [apply Rlt_le, exp_pos|]. rewrite <- exp_0. destruct H as [H| ->]; [apply Rlt_le, exp_increasing, H|lra]. Qed.
Lemma LX_fin x : is_finite x = true -> B2R x <= 0 -> is_finite (l_exp LX x) = true /\ B2R (l_exp LX x) = rnd (exp (B2R x)).
Proof.
  intros F H. assert (E : l_exp LX x = nearest (exp (B2R x))) by (destruct x; [reflexivity|discriminate|discriminate|reflexivity]). rewrite E. apply nearest_ok.
  apply (small_big _ 1); [now vm_compute|]. now apply exp_low.
Qed.
Lemma zero_fin : is_finite (fofZ 0) = true /\ B2R (fofZ 0) = 0.
Proof. destruct (fofZ_exact 0) as [A B]; [now vm_compute|]. now split. Qed.
Lemma LX_inf x : is_nan x = false -> fE x <= 0 -> is_finite x = false -> x = B754_infinity true.
Proof. intros N H F. pose proof (bpow_gt_0 radix2 1024). destruct x as [|[]| |]; try discriminate; [reflexivity|]. cbn [fE] in H. lra. Qed.
Lemma LX_fair : fair_exp LX.
Proof.
  destruct zero_fin as [Z1 Z2].
  assert (R : forall x : float, is_finite x = true -> B2R x <= 0 -> 0 <= rnd (exp (B2R x)) <= 1).
  { intros x F H. destruct (exp_low _ H). split; [apply (@rnd_ge_Z _ 0); [now vm_compute|lra]|apply (@rnd_le_Z _ 1); [now vm_compute|lra]]. }
  assert (P : forall x, fleb x (fofZ 0) = true -> fleb (fofZ 0) (l_exp LX x) = true).
  { intros x H. apply fleb_spec in H. destruct H as (N & _ & H). rewrite fE0 in H. destruct (is_finite x) eqn:F.
    - rewrite fE_finite in H by exact F. destruct (LX_fin _ F H) as [A B]. apply fleb_spec. split; [now apply finite_not_nan|]. split; [now apply finite_not_nan|]. rewrite fE0, (fE_finite _ A), B. now apply R.
    - rewrite (LX_inf _ N H F). cbn [l_exp LX]. apply fleb_spec. split; [now apply finite_not_nan|]. split; [now apply finite_not_nan|lra]. }
  split; [|split; [|exact P]].
  - intros x F H. destruct (LX_fin _ F) as [A B]; [lra|]. split; [exact A|]. rewrite B, H, exp_0. apply (@rnd_Z 1). now vm_compute.
  - intros x y Hxy Hy. pose proof (P y Hy) as Py. apply fleb_spec in Hxy. destruct Hxy as (Nx & Ny & Hxy). apply fleb_spec in Hy. destruct Hy as (_ & _ & Hy). rewrite fE0 in Hy.
    destruct (is_finite x) eqn:F.
    + assert (F' : is_finite y = true). { destruct (is_finite y) eqn:F'; [reflexivity|exfalso]. rewrite (LX_inf _ Ny Hy F') in Hxy. pose proof (fE_abs_finite _ F) as A. apply Rabs_def2 in A. cbn [fE] in Hxy. lra. }
      rewrite !fE_finite in * by assumption. destruct (LX_fin x F) as [A B]; [lra|]. destruct (LX_fin y F') as [A' B']; [lra|].
      apply fleb_spec. split; [now apply finite_not_nan|]. split; [now apply finite_not_nan|]. rewrite !fE_finite, B, B' by assumption. apply rnd_mono. destruct Hxy as [Hxy| ->]; [apply Rlt_le, exp_increasing, Hxy|lra].
    + rewrite (LX_inf _ Nx (Rle_trans _ _ _ Hxy Hy) F). exact Py.
Qed.
Lemma hedge_case : fair_exp LX /\ is_finite (fofZ 1) = true /\ 0 < B2R (fofZ 1) /\ Forall (fun g => is_finite g = true) [fofZ (-3); fofZ 2; fofZ 0].
Proof.
  split; [exact LX_fair|]. destruct (fofZ_exact 1) as [A B]; [now vm_compute|]. split; [exact A|]. split; [rewrite B; lra|].
  repeat (constructor; [apply fofZ_exact; now vm_compute|]). constructor.
Qed.
