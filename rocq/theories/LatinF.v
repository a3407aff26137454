(** Latin hypercube designs in float64 (C43). *)
From Coq Require Import String List ZArith Bool Reals Lra Lia Permutation Psatz.
From Flocq Require Import Core.Core IEEE754.BinarySingleNaN.
From Verif Require Import Base BaseLemmas Num NumLaws NormLaws Values Transformers Dimension Space SpaceSpec DimLemmas
  F64Arith F64Dim SampleLemmas Sampler SamplerSpec VdcLemmas PrimeLemmas HaltonLemmas WarpLemmas DesignLemmas GridLemmas FloatDesign LatinFSpec.
Import ListNotations.
Open Scope nat_scope.
Open Scope list_scope.
Set Implicit Arguments.
Local Arguments Z.pow : simpl never.

Notation e52 := (/ IZR (2 ^ 52))%R.
Lemma e52_pos : (0 < e52 <= / 1024)%R.
Proof. split; [apply Rinv_0_lt_compat, IZR_lt; now vm_compute|]. apply Rinv_le_contravar; [lra|apply IZR_le; now vm_compute]. Qed.
Lemma e53_small : (/ IZR (2 ^ 53) + / IZR (2 ^ 100) <= e52)%R.
Proof.
  replace (IZR (2 ^ 53)) with (2 * IZR (2 ^ 52))%R by (rewrite <- mult_IZR; f_equal).
  assert (P : (0 < IZR (2 ^ 52))%R) by (apply IZR_lt; now vm_compute).
  assert (/ IZR (2 ^ 100) <= / (2 * IZR (2 ^ 52)))%R.
  { apply Rinv_le_contravar; [lra|]. rewrite <- mult_IZR. apply IZR_le. now vm_compute. }
  replace (/ IZR (2 ^ 52))%R with (/ (2 * IZR (2 ^ 52)) + / (2 * IZR (2 ^ 52)))%R by (field; lra). lra.
Qed.
Lemma rnd_near x : (0 <= x <= 2)%R -> (x - 2 * e52 <= rnd x <= x + 2 * e52)%R.
Proof.
  intros Hx. pose proof (rnd_err x) as H. rewrite (Rabs_pos_eq x) in H by lra. apply Rabs_le_inv in H. pose proof e53_small.
  assert (0 < / IZR (2 ^ 53))%R by (apply Rinv_0_lt_compat, IZR_lt; now vm_compute). assert (0 < / IZR (2 ^ 100))%R by (apply Rinv_0_lt_compat, IZR_lt; now vm_compute).
  assert (/ IZR (2 ^ 53) * x <= / IZR (2 ^ 53) * 2)%R by (apply Rmult_le_compat_l; lra). lra.
Qed.
Lemma rnd_near1 x : (0 <= x <= 1)%R -> (x - e52 <= rnd x <= x + e52)%R.
Proof.
  intros Hx. pose proof (rnd_err x) as H. rewrite (Rabs_pos_eq x) in H by lra. apply Rabs_le_inv in H. pose proof e53_small.
  assert (0 < / IZR (2 ^ 53))%R by (apply Rinv_0_lt_compat, IZR_lt; now vm_compute).
  assert (/ IZR (2 ^ 53) * x <= / IZR (2 ^ 53) * 1)%R by (apply Rmult_le_compat_l; lra). lra.
Qed.

Section Latin.
  Context (L : libm).
  Notation O := (F64 L).

  Lemma lin_near n i : i <= n -> 0 < n -> (Z.of_nat n <= 2 ^ 45)%Z -> (INR i / INR n - 2 * e52 <= B2R (lin O n i) <= INR i / INR n + 2 * e52)%R.
  Proof.
    intros Hi Hn Hb. assert (P : (2 ^ 45 <= 2 ^ 53)%Z) by now vm_compute. pose proof e52_pos as Pe. pose proof e53_small as Pe53.
    assert (P0 : (0 < INR n)%R) by (apply lt_0_INR; lia). destruct (@lin_F L n i Hi Hn Hb) as (_ & B01). revert B01. unfold lin.
    destruct (Nat.eqb_spec i n) as [->|Ne].
    - destruct (Nat.eqb_spec n 0); [lia|]. cbn [nofZ F64]. destruct (fofZ_exact 1 ltac:(now vm_compute)) as [F1 E1]. intros _. rewrite E1. replace (INR n / INR n)%R with 1%R by (field; lra). lra.
    - cbn [nofZ nmul ndiv F64]. destruct (fofZ_exact 1 ltac:(now vm_compute)) as [F1 E1].
      destruct (fofZ_exact (Z.of_nat n) ltac:(lia)) as [Fn En]. destruct (fofZ_exact (Z.of_nat i) ltac:(lia)) as [Fi Ei].
      rewrite !INR_IZR_INZ in *.
      assert (Pn : (1 <= IZR (Z.of_nat n))%R) by (apply IZR_le; lia).
      assert (In : (0 < / IZR (Z.of_nat n) <= 1)%R).
      { split; [apply Rinv_0_lt_compat; lra|]. rewrite <- Rinv_1. apply Rinv_le_contravar; lra. }
      assert (B1 : forall x, (0 <= x <= 2)%R -> (Rabs x <= big)%R).
      { intros x Hx. apply Rle_trans with (Rabs (IZR 2)); [rewrite !Rabs_pos_eq; lra|apply big_Z; now vm_compute]. }
      destruct (@fdiv_ok (fofZ 1) (fofZ (Z.of_nat n)) F1) as [Fd Ed]; rewrite ?E1, ?En in *; [lra|apply B1; unfold Rdiv; lra|].
      set (s := fdiv (fofZ 1) (fofZ (Z.of_nat n))) in *.
      assert (Hin : (0 <= IZR (Z.of_nat i) <= IZR (Z.of_nat n))%R) by (split; apply IZR_le; lia).
      assert (Hn50 : (IZR (Z.of_nat n) <= IZR (2 ^ 45))%R) by now apply IZR_le.
      set (m := IZR (Z.of_nat n)) in *. set (q := IZR (Z.of_nat i)) in *.
      assert (Es : (Rabs (B2R s - / m) <= / IZR (2 ^ 53) * / m + / IZR (2 ^ 100))%R).
      { rewrite Ed. replace (1 / m)%R with (/ m)%R by (unfold Rdiv; ring). pose proof (rnd_err (/ m)) as H. now rewrite (Rabs_pos_eq (/ m)) in H by lra. }
      assert (Ep : (Rabs (q * B2R s - q / m) <= e52)%R).
      { replace (q * B2R s - q / m)%R with (q * (B2R s - / m))%R by (unfold Rdiv; ring). rewrite Rabs_mult, (Rabs_pos_eq q) by lra.
        apply Rle_trans with (m * (/ IZR (2 ^ 53) * / m + / IZR (2 ^ 100)))%R; [apply Rmult_le_compat; [lra|apply Rabs_pos|lra|exact Es]|].
        replace (m * (/ IZR (2 ^ 53) * / m + / IZR (2 ^ 100)))%R with (/ IZR (2 ^ 53) + m * / IZR (2 ^ 100))%R by (field; repeat split; try lra; apply not_0_IZR; easy).
        assert (P100 : (0 < / IZR (2 ^ 100))%R) by (apply Rinv_0_lt_compat, IZR_lt; now vm_compute).
        assert (m * / IZR (2 ^ 100) <= / IZR (2 ^ 53))%R.
        { apply Rle_trans with (IZR (2 ^ 45) * / IZR (2 ^ 100))%R; [apply Rmult_le_compat_r; lra|].
          replace (IZR (2 ^ 100)) with (IZR (2 ^ 45) * IZR (2 ^ 55))%R by (rewrite <- mult_IZR; f_equal).
          replace (IZR (2 ^ 45) * / (IZR (2 ^ 45) * IZR (2 ^ 55)))%R with (/ IZR (2 ^ 55))%R by (field; split; apply not_0_IZR; easy).
          apply Rinv_le_contravar; [apply IZR_lt; now vm_compute|apply IZR_le; now vm_compute]. }
        replace (IZR (2 ^ 53)) with (2 * IZR (2 ^ 52))%R in * by (rewrite <- mult_IZR; f_equal).
        rewrite Rinv_mult in *. lra. }
      apply Rabs_le_inv in Ep.
      assert (Q1 : (0 <= q / m <= 1)%R). { unfold Rdiv. split; [apply Rmult_le_pos; lra|]. replace 1%R with (m * / m)%R by (apply Rinv_r; lra). apply Rmult_le_compat_r; lra. }
      assert (Ps : (0 <= q * B2R s)%R). { apply Rmult_le_pos; [lra|]. rewrite Ed. rewrite <- rnd_0. apply rnd_mono. unfold Rdiv. lra. }
      destruct (@fmul_ok (fofZ (Z.of_nat i)) s Fi Fd) as [Fm Em]; rewrite ?Ei in *; [apply B1; lra|]. intros B01. rewrite Em in *.
      destruct (Rle_lt_dec (q * B2R s) 1) as [Le|Gt].
      + pose proof (@rnd_near1 (q * B2R s) ltac:(lra)). lra.
      + assert (1 <= rnd (q * B2R s))%R by (apply (@rnd_ge_Z _ 1); [now vm_compute|lra]). lra.
  Qed.

  Lemma lhs_cell_near t n k u : t <> LOtherType -> k < n -> (Z.of_nat n <= 2 ^ 45)%Z -> DesignLemmas.unit_draw O u ->
    exists v, lhs_cell O t (lin O n k) (lin O n (S k)) u = Ok v /\ near_part n k v.
  Proof.
    intros Ht Hk Hn [U0 U1]. cbn [nleb nltb nofZ F64] in U0, U1. pose proof e52_pos as Pe.
    destruct (@lin_F L n k ltac:(lia) ltac:(lia) Hn) as [Fl Bl]. destruct (@lin_F L n (S k) ltac:(lia) ltac:(lia) Hn) as [Fh Bh].
    pose proof (@lin_mono L n k Hk Hn) as M. pose proof (@lin_near n k ltac:(lia) ltac:(lia) Hn) as Nl. pose proof (@lin_near n (S k) ltac:(lia) ltac:(lia) Hn) as Nh.
    set (lo := lin O n k) in *. set (hi := lin O n (S k)) in *. clearbody lo hi.
    assert (B1 : forall x, (0 <= x <= 2)%R -> (Rabs x <= big)%R).
    { intros x Hx. apply Rle_trans with (Rabs (IZR 2)); [rewrite !Rabs_pos_eq; lra|apply big_Z; now vm_compute]. }
    destruct (@fsub_ok hi lo Fh Fl) as [FD ED]; [apply B1; lra|].
    assert (D0 : (0 <= B2R (fsub hi lo) <= 1)%R). { rewrite ED. split; [rewrite <- rnd_0; apply rnd_mono; lra|apply (@rnd_le_Z _ 1); [now vm_compute|lra]]. }
    assert (D1 : (B2R (fsub hi lo) + B2R lo <= B2R hi + e52)%R). { rewrite ED. pose proof (@rnd_near1 (B2R hi - B2R lo) ltac:(lra)). lra. }
    set (D := fsub hi lo) in *.
    assert (E8 : (/ IZR (2 ^ 49) = 8 * e52)%R).
    { replace (IZR (2 ^ 52)) with (8 * IZR (2 ^ 49))%R by (rewrite <- mult_IZR; f_equal). field. apply not_0_IZR. easy. }
    assert (Fin : forall y, is_finite y = true -> (0 <= B2R y <= B2R D)%R -> near_part n k (fadd y lo)).
    { intros y Fy By. destruct (@fadd_ok y lo Fy Fl) as [Fa Ea]; [apply B1; lra|].
      split; [exact Fa|]. rewrite Ea, E8. pose proof (@rnd_near (B2R y + B2R lo) ltac:(lra)). lra. }
    destruct t; [| |now elim Ht]; eexists; (split; [reflexivity|]); cbn [nadd nmul ndiv nsub nofZ F64]; apply Fin; fold D.
    - now apply F64Dim.unit_draw.
    - now apply F64Dim.unit_draw.
    - destruct (fofZ_exact 2 ltac:(now vm_compute)) as [F2 E2]. apply (@fdiv_ok D (fofZ 2) FD); rewrite E2; [lra|apply B1; lra].
    - destruct (fofZ_exact 2 ltac:(now vm_compute)) as [F2 E2].
      destruct (@fdiv_ok D (fofZ 2) FD) as [Fq Eq]; rewrite E2 in *; [lra|apply B1; lra|]. rewrite Eq.
      assert (RD : rnd (B2R D) = B2R D) by (apply round_generic; [apply valid_rnd_N|apply generic_format_B2R]).
      split; [rewrite <- rnd_0; apply rnd_mono; lra|]. rewrite <- RD at 2. apply rnd_mono. lra.
  Qed.

  Lemma c43_float RNG (G : rng_ops float RNG) : rng_ok O G -> forall S t c its d n g h g', t <> LOtherType -> (Z.of_nat n <= 2 ^ 45)%Z ->
    lhs_design O G S t c its d n g = (Ok h, g') -> forall j, j < d -> one_each (near_part n) n j h.
  Proof.
    intros Gok S t c its d n g h g' Ht Hn H j Hj.
    destruct (@lhs_design_latin float RNG O G Gok S t c its d n g h g' (near_part n)) as (L1 & _ & L3); [|exact H|].
    - intros k u Hk Hu. now apply lhs_cell_near.
    - split; [exact L1|]. destruct (L3 j Hj) as (o & Po & Ho). exists o. split; [exact Po|exact Ho].
  Qed.
End Latin.
