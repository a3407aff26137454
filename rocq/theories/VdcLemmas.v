(** The radical inverse in exact arithmetic. *)
From Coq Require Import String List ZArith Bool Reals Lra Lia Znumtheory Zpow_facts Psatz.
From Verif Require Import Base Num NumLaws BaseLemmas Values Transformers Dimension Space Sampler.
Import ListNotations.
Open Scope nat_scope.
Open Scope list_scope.
Set Implicit Arguments.

Section Radix.
  Variable b : Z.
  Hypothesis Hb : (1 < b)%Z.

  Fixpoint rinv (f : nat) (n : Z) : R :=
    match f with 0 => 0%R | S f' => ((IZR (n mod b) + rinv f' (n / b)) / IZR b)%R end.
  Fixpoint drev (k : nat) (n : Z) : Z :=
    match k with 0 => 0%Z | S k' => ((n mod b) * b ^ Z.of_nat k' + drev k' (n / b))%Z end.

  Lemma bR : (1 < IZR b)%R. Proof. now apply IZR_lt. Qed.
  Lemma mod_bound n : (0 <= n mod b <= b - 1)%Z.
  Proof. pose proof (Z.mod_pos_bound n b). lia. Qed.

  Lemma rinv_bounds : forall f n, (0 <= rinv f n < 1)%R.
  Proof.
    pose proof bR. induction f as [|f IH]; intro n; cbn [rinv]; [lra|].
    destruct (IH (n / b)%Z) as [I1 I2]. destruct (mod_bound n) as [M1 M2].
    apply IZR_le in M1, M2. rewrite minus_IZR in M2. split.
    - apply Rmult_le_pos; [lra|]. left; apply Rinv_0_lt_compat; lra.
    - apply Rmult_lt_reg_r with (IZR b); [lra|]. unfold Rdiv. rewrite Rmult_assoc, Rinv_l by lra. lra.
  Qed.

  Lemma div_fuel f n : (0 <= n < 2 ^ Z.of_nat (S f))%Z -> (0 <= n / b < 2 ^ Z.of_nat f)%Z.
  Proof.
    intros [H1 H2]. rewrite Nat2Z.inj_succ, Z.pow_succ_r in H2 by lia. split.
    - apply Z.div_pos; lia.
    - apply Z.div_lt_upper_bound; [lia|]. nia.
  Qed.

  Lemma pow_pos k : (0 < b ^ Z.of_nat k)%Z.
  Proof. apply Z.pow_pos_nonneg; lia. Qed.

  Lemma drev_zero : forall k, drev k 0 = 0%Z.
  Proof. induction k; cbn [drev]; [reflexivity|]. rewrite Z.mod_0_l, Z.div_0_l by lia. now rewrite IHk. Qed.

  Lemma drev_bounds : forall k n, (0 <= drev k n < b ^ Z.of_nat k)%Z.
  Proof.
    induction k as [|k IH]; intro n; cbn [drev]; [simpl; lia|].
    specialize (IH (n / b)%Z). pose proof (mod_bound n). pose proof (pow_pos k).
    rewrite Nat2Z.inj_succ, Z.pow_succ_r by lia. nia.
  Qed.

  (** The leading digits: [rinv] starts with the reversed low digits of [n]. *)
  Lemma rinv_digits : forall k f n, (0 <= n < 2 ^ Z.of_nat f)%Z ->
    exists r, (0 <= r < 1)%R /\ (rinv f n * IZR (b ^ Z.of_nat k) = IZR (drev k n) + r)%R.
  Proof.
    pose proof bR as HbR. induction k as [|k IH]; intros f n Hn.
    - exists (rinv f n). split; [apply rinv_bounds|]. cbn [drev]. simpl (Z.of_nat 0). rewrite Z.pow_0_r. lra.
    - destruct f as [|f].
      + simpl in Hn. assert (n = 0%Z) as -> by lia. exists 0%R. rewrite drev_zero. simpl rinv. split; lra.
      + destruct (IH f (n / b)%Z (div_fuel _ Hn)) as (r & Hr & E). exists r. split; [exact Hr|].
        cbn [rinv drev]. rewrite Nat2Z.inj_succ, Z.pow_succ_r by lia.
        rewrite plus_IZR, !mult_IZR. rewrite Rplus_assoc, <- E. field. lra.
  Qed.

  Lemma drev_surj : forall k j, (0 <= j < b ^ Z.of_nat k)%Z ->
    exists n, (0 <= n < b ^ Z.of_nat k)%Z /\ drev k n = j.
  Proof.
    induction k as [|k IH]; intros j Hj.
    - exists 0%Z. simpl in *. lia.
    - rewrite Nat2Z.inj_succ, Z.pow_succ_r in * by lia. pose proof (pow_pos k) as Hp.
      destruct (IH (j mod b ^ Z.of_nat k)%Z) as (m & Hm & E); [apply Z.mod_pos_bound; lia|].
      set (q := (j / b ^ Z.of_nat k)%Z).
      assert (Hq : (0 <= q < b)%Z).
      { split; [apply Z.div_pos; lia|]. apply Z.div_lt_upper_bound; lia. }
      exists (q + m * b)%Z. split; [nia|]. cbn [drev].
      rewrite Z.mod_add, Z.mod_small by lia. rewrite Z.div_add, Z.div_small, Z.add_0_l by lia.
      rewrite E. unfold q. rewrite (Z.div_mod j (b ^ Z.of_nat k)) at 3 by lia. lia.
  Qed.

  Lemma drev_inj : forall k m n, drev k m = drev k n -> (m mod b ^ Z.of_nat k = n mod b ^ Z.of_nat k)%Z.
  Proof.
    induction k as [|k IH]; intros m n E.
    - simpl. now rewrite !Z.mod_1_r.
    - cbn [drev] in E. pose proof (pow_pos k) as Hp.
      pose proof (drev_bounds k (m / b)%Z) as B1. pose proof (drev_bounds k (n / b)%Z) as B2.
      pose proof (mod_bound m) as M1. pose proof (mod_bound n) as M2.
      assert (E1 : (m mod b = n mod b)%Z) by nia.
      assert (E2 : drev k (m / b) = drev k (n / b)) by (rewrite E1 in E; lia).
      apply IH in E2. rewrite Nat2Z.inj_succ, Z.pow_succ_r by lia.
      rewrite !Z.rem_mul_r by lia. now rewrite E1, E2.
  Qed.

  Lemma drev_mod : forall k m n, (m mod b ^ Z.of_nat k = n mod b ^ Z.of_nat k)%Z -> drev k m = drev k n.
  Proof.
    induction k as [|k IH]; intros m n E; cbn [drev]; [reflexivity|].
    rewrite Nat2Z.inj_succ, Z.pow_succ_r in E by lia. pose proof (pow_pos k) as Hp.
    rewrite !Z.rem_mul_r in E by lia.
    pose proof (mod_bound m) as M1. pose proof (mod_bound n) as M2.
    assert (E1 : (m mod b = n mod b)%Z).
    { apply (f_equal (fun z => z mod b)%Z) in E.
      rewrite !(Z.mul_comm b), !Z.mod_add in E by lia. now rewrite !Z.mod_mod in E by lia. }
    rewrite E1 in *. rewrite (IH (m / b)%Z (n / b)%Z) by nia. reflexivity.
  Qed.

  (** ** The code computes it *)
  Lemma vdc_from_rinv : forall f n (base out : R), (0 <= n < 2 ^ Z.of_nat f)%Z -> (0 < base)%R -> (0 < f) ->
    vdc_from Rops f b n base out = Ok (out + IZR b / base * rinv f n)%R.
  Proof.
    pose proof bR as HbR. induction f as [|f IH]; intros n base out Hn Hbase Hf; [lia|].
    cbn [vdc_from rinv].
    change (nadd Rops) with Rplus. change (ndiv Rops) with Rdiv. change (nmul Rops) with Rmult.
    change (nofZ Rops) with IZR.
    pose proof (div_fuel _ Hn) as Hd.
    destruct (Z.ltb_spec 0 (n / b)) as [Hpos|Hz].
    - destruct f as [|f]; [simpl in Hd; lia|].
      rewrite IH; [|exact Hd|apply Rmult_lt_0_compat; lra|lia].
      f_equal. cbn [rinv]. field. lra.
    - assert (E : (n / b = 0)%Z) by lia. rewrite E.
      assert (R0 : rinv f 0 = 0%R).
      { clear - Hb. induction f; cbn [rinv]; [reflexivity|].
        rewrite Z.mod_0_l, Z.div_0_l, IHf by lia. unfold Rdiv. rewrite Rplus_0_l. apply Rmult_0_l. }
      rewrite R0. f_equal. field. lra.
  Qed.

  Lemma vdc_fuel n : (0 <= n)%Z -> (0 <= n < 2 ^ Z.of_nat (S (Z.to_nat (Z.log2 n))))%Z.
  Proof.
    intro H. split; [exact H|]. rewrite Nat2Z.inj_succ, Z2Nat.id by apply Z.log2_nonneg.
    destruct (Z.eq_dec n 0) as [->|Hn]; [reflexivity|]. apply Z.log2_spec. lia.
  Qed.

  Definition phi (n : Z) : R := rinv (S (Z.to_nat (Z.log2 n))) n.
  Lemma vdc_phi n : (0 <= n)%Z -> vdc Rops b n = Ok (phi n).
  Proof.
    intro Hn. unfold vdc. replace (1 <? b)%Z with true by (symmetry; now apply Z.ltb_lt).
    pose proof bR as HbR. rewrite vdc_from_rinv; [|now apply vdc_fuel|exact (Rlt_trans _ _ _ Rlt_0_1 HbR)|lia].
    f_equal. unfold phi. change (nofZ Rops) with IZR. field. lra.
  Qed.
  Lemma phi_bounds n : (0 <= phi n < 1)%R.
  Proof. apply rinv_bounds. Qed.

  (** [phi n] is in the interval numbered by the reversed low digits, and in no other. *)
  Lemma phi_interval k n j : (0 <= n)%Z ->
    ((IZR j / IZR (b ^ Z.of_nat k) <= phi n < IZR (j + 1) / IZR (b ^ Z.of_nat k))%R <-> drev k n = j).
  Proof.
    intro Hn. destruct (rinv_digits k _ (vdc_fuel Hn)) as (r & Hr & E). fold (phi n) in E.
    assert (Hp : (0 < IZR (b ^ Z.of_nat k))%R) by (apply IZR_lt, pow_pos).
    set (B := IZR (b ^ Z.of_nat k)) in *. rewrite plus_IZR.
    assert (X : (phi n = (IZR (drev k n) + r) / B)%R) by (rewrite <- E; field; lra).
    rewrite X. split.
    - intros [H1 H2].
      apply Rmult_le_compat_r with (r := B) in H1; [|lra].
      apply Rmult_lt_compat_r with (r := B) in H2; [|lra].
      unfold Rdiv in H1, H2. rewrite !Rmult_assoc, Rinv_l, !Rmult_1_r in H1, H2 by lra.
      assert (L1 : (IZR j < IZR (drev k n + 1))%R) by (rewrite plus_IZR; lra).
      assert (L2 : (IZR (drev k n) < IZR (j + 1))%R) by (rewrite plus_IZR; lra).
      apply lt_IZR in L1, L2. lia.
    - intros <-. split; [apply Rmult_le_compat_r|apply Rmult_lt_compat_r]; try lra;
        try (left; now apply Rinv_0_lt_compat); now apply Rinv_0_lt_compat.
  Qed.

  (** Any [b ^ k] consecutive indices meet each residue class once. *)
  Lemma one_residue P s c : (0 < P)%Z -> exists n, (s <= n < s + P)%Z /\ (n mod P = c mod P)%Z /\
    forall m, (s <= m < s + P)%Z -> (m mod P = c mod P)%Z -> m = n.
  Proof.
    intro HP. exists (s + (c - s) mod P)%Z. pose proof (Z.mod_pos_bound (c - s) P HP) as B. split; [lia|]. split.
    - rewrite Zplus_mod_idemp_r. f_equal. lia.
    - intros m Hm E. pose proof (Z.div_mod (c - s) P ltac:(lia)) as D1.
      assert (X : ((m - c) mod P = 0)%Z).
      { rewrite Zminus_mod, E, Z.sub_diag. apply Z.mod_0_l. lia. }
      apply Z.mod_divide in X; [|lia]. destruct X as [q Hq].
      assert (q = - ((c - s) / P))%Z by nia. nia.
  Qed.

  Lemma phi_strata k s j : (0 <= s)%Z -> (0 <= j < b ^ Z.of_nat k)%Z ->
    exists n, (s <= n < s + b ^ Z.of_nat k)%Z /\
      (IZR j / IZR (b ^ Z.of_nat k) <= phi n < IZR (j + 1) / IZR (b ^ Z.of_nat k))%R /\
      forall m, (s <= m < s + b ^ Z.of_nat k)%Z ->
        (IZR j / IZR (b ^ Z.of_nat k) <= phi m < IZR (j + 1) / IZR (b ^ Z.of_nat k))%R -> m = n.
  Proof.
    intros Hs Hj. destruct (drev_surj k Hj) as (c & Hc & E).
    destruct (one_residue s c (pow_pos k)) as (n & Hn & En & U).
    exists n. split; [exact Hn|]. split.
    - apply phi_interval; [lia|]. rewrite <- E. now apply drev_mod.
    - intros m Hm Im. apply phi_interval in Im; [|lia]. apply U; [exact Hm|]. apply drev_inj. congruence.
  Qed.

  Lemma phi_inj m n : (0 <= m)%Z -> (0 <= n)%Z -> phi m = phi n -> m = n.
  Proof.
    intros Hm Hn E. set (k := Z.to_nat (Z.max m n)).
    assert (Hk : (Z.max m n < b ^ Z.of_nat k)%Z).
    { unfold k. rewrite Z2Nat.id by lia. apply Z.pow_gt_lin_r; lia. }
    assert (X : drev k m = drev k n).
    { apply (phi_interval k (drev k n) Hm). rewrite E. now apply phi_interval. }
    apply drev_inj in X. rewrite !Z.mod_small in X by lia. exact X.
  Qed.
End Radix.
