(** Radical inverses in float64: closeness, distinctness, strata. *)
From Coq Require Import String List ZArith Bool Reals Lra Lia Permutation Psatz.
From Flocq Require Import Core.Core IEEE754.BinarySingleNaN.
From Verif Require Import Base BaseLemmas Num NumLaws Values Space SpaceSpec F64Arith F64Dim Sampler SamplerSpec VdcLemmas SamplerBest FloatDesign LatinF VdcFSpec VdcF.
Import ListNotations.
Open Scope nat_scope.
Set Implicit Arguments.
Local Arguments Z.pow : simpl never.

Lemma e51_45 : (0 < e51 /\ 45 * e51 < / IZR (2 ^ 45) /\ 90 * e51 < / IZR (2 ^ 44))%R.
Proof.
  assert (P : (0 < IZR (2 ^ 45))%R) by (apply IZR_lt; now vm_compute). assert (I : (0 < / IZR (2 ^ 45))%R) by now apply Rinv_0_lt_compat.
  unfold e51. replace (IZR (2 ^ 51)) with (IZR (2 ^ 45) * 64)%R by (rewrite <- mult_IZR; f_equal).
  replace (/ (IZR (2 ^ 45) * 64))%R with (/ IZR (2 ^ 45) / 64)%R by (field; lra).
  replace (/ IZR (2 ^ 44))%R with (2 * / IZR (2 ^ 45))%R by (replace (IZR (2 ^ 45)) with (IZR (2 ^ 44) * 2)%R by (rewrite <- mult_IZR; f_equal); field; apply not_0_IZR; easy). lra.
Qed.

Section Radix.
  Variable b : Z.
  Hypothesis Hb : (1 < b)%Z.
  Lemma rinv_zero f : rinv b f 0 = 0%R.
  Proof. induction f as [|f IH]; cbn [rinv]; [reflexivity|]. rewrite Z.mod_0_l, Z.div_0_l, IH by lia. unfold Rdiv. ring. Qed.
  Lemma rinv_exact : forall k f n, (0 <= n < 2 ^ Z.of_nat f)%Z -> (n < b ^ Z.of_nat k)%Z -> (rinv b f n * IZR (b ^ Z.of_nat k) = IZR (drev b k n))%R.
  Proof.
    pose proof (bR Hb) as HbR. induction k as [|k IH]; intros f n Hn Hk.
    - change (b ^ Z.of_nat 0)%Z with 1%Z in *. assert (n = 0%Z) as -> by lia. rewrite rinv_zero. cbn [drev]. lra.
    - destruct f as [|f].
      + change (2 ^ Z.of_nat 0)%Z with 1%Z in Hn. assert (n = 0%Z) as -> by lia. rewrite drev_zero by exact Hb. cbn [rinv]. lra.
      + cbn [rinv drev]. rewrite Nat2Z.inj_succ, Z.pow_succ_r in * by lia.
        assert (Hd : (n / b < b ^ Z.of_nat k)%Z) by (apply Z.div_lt_upper_bound; lia).
        rewrite plus_IZR, !mult_IZR, <- (IH f (n / b)%Z (@div_fuel b Hb f n ltac:(rewrite Nat2Z.inj_succ, Z.pow_succ_r by lia; exact Hn)) Hd). field. lra.
  Qed.
  Lemma enough_digits : forall M, (1 <= M)%Z -> exists k, (M < b ^ Z.of_nat k <= b * M)%Z.
  Proof.
    intro M. induction M as [M IH] using (well_founded_induction (Z.lt_wf 0)). intro H1.
    destruct (Z_lt_ge_dec M b) as [K|K].
    - exists 1. change (Z.of_nat 1) with 1%Z. rewrite Z.pow_1_r. nia.
    - pose proof (Z.div_mod M b ltac:(lia)) as D. pose proof (Z.mod_pos_bound M b ltac:(lia)) as Mb. assert (1 <= M / b)%Z by (apply Z.div_le_lower_bound; lia).
      destruct (IH (M / b)%Z ltac:(nia) ltac:(lia)) as (k & K1 & K2). exists (S k). rewrite Nat2Z.inj_succ, Z.pow_succ_r by lia. nia.
  Qed.
  Lemma phi_apart m n : (0 <= m)%Z -> (0 <= n)%Z -> m <> n -> (b * m <= 2 ^ 44)%Z -> (b * n <= 2 ^ 44)%Z -> (/ IZR (2 ^ 44) <= Rabs (phi b m - phi b n))%R.
  Proof.
    intros Hm Hn D Bm Bn. destruct (@enough_digits (Z.max m n) ltac:(lia)) as (k & K1 & K2).
    assert (P : (0 < b ^ Z.of_nat k <= 2 ^ 44)%Z) by (destruct (Z.max_spec m n) as [[? E]|[? E]]; rewrite E in *; lia).
    assert (Em : (phi b m * IZR (b ^ Z.of_nat k) = IZR (drev b k m))%R) by (apply rinv_exact; [now apply vdc_fuel|lia]).
    assert (En : (phi b n * IZR (b ^ Z.of_nat k) = IZR (drev b k n))%R) by (apply rinv_exact; [now apply vdc_fuel|lia]).
    assert (Dd : drev b k m <> drev b k n).
    { intro X. apply (@drev_inj b Hb) in X. rewrite !Z.mod_small in X by lia. contradiction. }
    assert (PR : (0 < IZR (b ^ Z.of_nat k) <= IZR (2 ^ 44))%R) by (split; [apply IZR_lt|apply IZR_le]; lia).
    assert (A : (1 <= Rabs (phi b m - phi b n) * IZR (b ^ Z.of_nat k))%R).
    { rewrite <- (Rabs_pos_eq (IZR (b ^ Z.of_nat k))) by lra. rewrite <- Rabs_mult, Rmult_minus_distr_r, Em, En, <- minus_IZR, <- abs_IZR. apply IZR_le. lia. }
    pose proof (Rabs_pos (phi b m - phi b n)).
    apply Rmult_le_reg_r with (IZR (2 ^ 44)); [lra|]. rewrite Rinv_l by lra. nra.
  Qed.
End Radix.

Lemma c44_close L b n : (2 <= b <= 2 ^ 45)%Z -> (0 <= n)%Z -> (b * n <= 2 ^ 45)%Z ->
  exists x r, vdc (F64 L) b n = Ok x /\ vdc Rops b n = Ok r /\ close45 x r /\ (0 <= B2R x < 1)%R.
Proof.
  intros H1 H2 H3. destruct (vdc_near L H1 H2 H3) as (x & r & E & Er & F & B & N). exists x, r. repeat (split; [assumption|]).
  pose proof e51_45. split; [split; [exact F|lra]|exact B].
Qed.
Lemma c44_float_distinct L b m n x y : (2 <= b <= 2 ^ 45)%Z -> (0 <= m)%Z -> (0 <= n)%Z -> (b * m <= 2 ^ 44)%Z -> (b * n <= 2 ^ 44)%Z ->
  vdc (F64 L) b m = Ok x -> vdc (F64 L) b n = Ok y -> B2R x = B2R y -> m = n.
Proof.
  intros H1 Hm Hn Bm Bn Ex Ey E. destruct (Z.eq_dec m n) as [|D]; [assumption|exfalso].
  assert (P : (2 ^ 44 <= 2 ^ 45)%Z) by now vm_compute.
  destruct (@vdc_near L b m H1 Hm ltac:(lia)) as (x' & r & Ex' & Er & _ & _ & Nx). destruct (@vdc_near L b n H1 Hn ltac:(lia)) as (y' & s & Ey' & Es & _ & _ & Ny).
  rewrite Ex in Ex'. injection Ex' as <-. rewrite Ey in Ey'. injection Ey' as <-. rewrite vdc_phi in Er, Es by lia. injection Er as <-. injection Es as <-.
  pose proof (@phi_apart b ltac:(lia) m n Hm Hn D Bm Bn) as A. pose proof e51_45. rewrite E in Nx.
  assert (Rabs (phi b m - phi b n) <= 90 * e51)%R by (apply Rabs_le; lra). lra.
Qed.
Lemma c44_float_once L b k s : (2 <= b <= 2 ^ 45)%Z -> (0 <= s)%Z -> (b * (s + b ^ Z.of_nat k) <= 2 ^ 45)%Z ->
  exists part : Z -> Z,
    (forall n, (s <= n < s + b ^ Z.of_nat k)%Z -> (0 <= part n < b ^ Z.of_nat k)%Z /\ exists x, vdc (F64 L) b n = Ok x /\ near_in_part (b ^ Z.of_nat k) (part n) x) /\
    forall j, (0 <= j < b ^ Z.of_nat k)%Z -> exists! n, (s <= n < s + b ^ Z.of_nat k)%Z /\ part n = j.
Proof.
  intros Hb Hs HB. exists (drev b k). split.
  - intros n Hn. split; [apply drev_bounds; lia|].
    destruct (@c44_close L b n Hb ltac:(lia) ltac:(nia)) as (x & r & Ex & Er & (F & C) & _). rewrite vdc_phi in Er by lia. injection Er as <-.
    exists x. split; [exact Ex|]. split; [exact F|]. assert (I : in_part (b ^ Z.of_nat k) (drev b k n) (phi b n)) by (apply phi_interval; [lia|lia|reflexivity]).
    unfold in_part in I. lra.
  - intros j Hj. destruct (@phi_strata b ltac:(lia) k s j Hs Hj) as (n & Hn & Hi & U). exists n. split.
    + split; [exact Hn|]. apply (@phi_interval b ltac:(lia) k n j) in Hi; [exact Hi|lia].
    + intros m [Hm Em]. symmetry. apply U; [exact Hm|]. apply phi_interval; [lia|lia|exact Em].
Qed.
Lemma c44_close_case : (2 <= 3 <= 2 ^ 45)%Z /\ (0 <= 1000000000000)%Z /\ (3 * 1000000000000 <= 2 ^ 44)%Z /\ (3 * (1000000000000 + 3 ^ Z.of_nat 20) <= 2 ^ 45)%Z.
Proof. vm_compute. repeat split; discriminate. Qed.
