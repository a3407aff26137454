(** The numbers behind Sobol's sequence. *)
From Coq Require Import String List ZArith Bool Lia.
From Verif Require Import Base BaseLemmas Num Values Dimension Space Sampler Sobol.
Import ListNotations.
Open Scope nat_scope.
Open Scope list_scope.
Set Implicit Arguments.
Local Arguments Z.pow : simpl never.
Local Arguments Z.of_nat : simpl never.

(** ** The lowest zero bit *)
Definition ones (n : nat) : nat := bit_lo0 (Z.of_nat n) - 1.      (* the number of trailing ones *)
Lemma lo0_pos_bits p : 1 <= lo0_pos p /\ Z.testbit (Zpos p) (Z.of_nat (lo0_pos p - 1)) = false /\
  forall i, (0 <= i < Z.of_nat (lo0_pos p - 1))%Z -> Z.testbit (Zpos p) i = true.
Proof.
  induction p as [p (I1 & I2 & I3)|p IH|]; cbn [lo0_pos].
  - split; [lia|]. replace (S (lo0_pos p) - 1) with (S (lo0_pos p - 1)) by lia. split.
    + rewrite Nat2Z.inj_succ. rewrite Pos2Z.inj_xI. rewrite Z.testbit_odd_succ by lia. exact I2.
    + intros i Hi. destruct (Z.eq_dec i 0) as [->|Hi0]; [reflexivity|].
      replace i with (Z.succ (i - 1)) by lia. rewrite Pos2Z.inj_xI, Z.testbit_odd_succ by lia. apply I3. lia.
  - split; [lia|]. split; [reflexivity|]. intros i Hi. change (Z.of_nat (1 - 1)) with 0%Z in Hi. lia.
  - split; [lia|]. split; [reflexivity|]. intros i Hi. change (Z.of_nat (2 - 1)) with 1%Z in Hi.
    assert (i = 0%Z) as -> by lia. reflexivity.
Qed.
Lemma lo0_bits n : (0 <= n)%Z -> 1 <= bit_lo0 n /\ Z.testbit n (Z.of_nat (bit_lo0 n - 1)) = false /\
  forall i, (0 <= i < Z.of_nat (bit_lo0 n - 1))%Z -> Z.testbit n i = true.
Proof.
  intro Hn. destruct n as [|p|p]; [| |lia]; cbn [bit_lo0]; [|apply lo0_pos_bits].
  split; [lia|]. split; [reflexivity|]. intros i Hi. change (Z.of_nat (1 - 1)) with 0%Z in Hi. lia.
Qed.
(** Numbers below 2 ^ m - 1 have a zero among their m lowest bits. *)
Lemma lo0_small n m : (0 <= n < 2 ^ Z.of_nat m - 1)%Z -> bit_lo0 n <= m.
Proof.
  intros Hn. destruct (lo0_bits (n := n) ltac:(lia)) as (L & _ & B).
  destruct (le_lt_dec (bit_lo0 n) m) as [|H]; [assumption|]. exfalso.
  assert (E : (n mod 2 ^ Z.of_nat m = Z.ones (Z.of_nat m))%Z).
  { apply Z.bits_inj'. intros i Hi. rewrite Z.testbit_ones_nonneg by lia.
    destruct (Z.ltb_spec i (Z.of_nat m)) as [Hl|Hl].
    - rewrite Z.mod_pow2_bits_low by lia. apply B. lia.
    - apply Z.mod_pow2_bits_high. lia. }
  rewrite Z.mod_small in E by lia. rewrite Z.ones_equiv in E. lia.
Qed.
Lemma lo0_large m : bit_lo0 (2 ^ Z.of_nat m - 1) = S m.
Proof.
  assert (P : (0 < 2 ^ Z.of_nat m)%Z) by (apply Z.pow_pos_nonneg; lia).
  destruct (lo0_bits (n := 2 ^ Z.of_nat m - 1)%Z ltac:(lia)) as (L & F & B).
  assert (O : (2 ^ Z.of_nat m - 1 = Z.ones (Z.of_nat m))%Z) by (rewrite Z.ones_equiv; lia). rewrite O in *.
  destruct (lt_eq_lt_dec (bit_lo0 (Z.ones (Z.of_nat m)) - 1) m) as [[H|H]|H]; [|lia|].
  - rewrite Z.testbit_ones_nonneg in F by lia. destruct (Z.ltb_spec (Z.of_nat (bit_lo0 (Z.ones (Z.of_nat m)) - 1)) (Z.of_nat m)); [discriminate|lia].
  - specialize (B (Z.of_nat m) ltac:(lia)). rewrite Z.testbit_ones_nonneg in B by lia.
    destruct (Z.ltb_spec (Z.of_nat m) (Z.of_nat m)); [lia|discriminate].
Qed.

(** Adding one changes exactly the bits up to the lowest zero. *)
Lemma succ_bits n i : (0 <= n)%Z -> (0 <= i)%Z ->
  Z.testbit (n + 1) i = xorb (Z.testbit n i) (i <=? Z.of_nat (bit_lo0 n - 1))%Z.
Proof.
  intros Hn Hi. destruct (lo0_bits Hn) as (L & F & B). set (t := Z.of_nat (bit_lo0 n - 1)) in *.
  assert (T0 : (0 <= t)%Z) by lia.
  (* n = h * 2^(t+1) + (2^t - 1) *)
  assert (M : (n mod 2 ^ (t + 1) = Z.ones t)%Z).
  { apply Z.bits_inj'. intros j Hj. rewrite Z.testbit_ones_nonneg by lia.
    destruct (Z.ltb_spec j t) as [H|H].
    - rewrite Z.mod_pow2_bits_low by lia. now apply B.
    - destruct (Z.eq_dec j t) as [->|NE]; [rewrite Z.mod_pow2_bits_low by lia; exact F|apply Z.mod_pow2_bits_high; lia]. }
  assert (P : (0 < 2 ^ t)%Z) by (apply Z.pow_pos_nonneg; lia).
  assert (P1 : (2 ^ (t + 1) = 2 * 2 ^ t)%Z) by (rewrite Z.pow_add_r by lia; lia).
  pose proof (Z.div_mod n (2 ^ (t + 1)) ltac:(lia)) as DM. rewrite M, Z.ones_equiv in DM.
  set (h := (n / 2 ^ (t + 1))%Z) in *.
  assert (N1 : (n + 1 = (2 * h + 1) * 2 ^ t)%Z) by (rewrite DM, P1; lia).
  assert (S1 : (n / 2 ^ (t + 1) = h)%Z) by reflexivity.
  destruct (Z.leb_spec i t) as [Hle|Hgt].
  - rewrite N1, Z.mul_pow2_bits by lia. destruct (Z.eq_dec i t) as [->|NE].
    + rewrite Z.sub_diag. rewrite Z.testbit_odd_0. now rewrite F.
    + rewrite Z.testbit_neg_r by lia. rewrite B by lia. reflexivity.
  - rewrite xorb_false_r. rewrite N1, Z.mul_pow2_bits by lia.
    replace (i - t)%Z with (Z.succ (i - t - 1)) by lia. rewrite Z.testbit_odd_succ by lia.
    unfold h. rewrite Z.div_pow2_bits by lia. f_equal. lia.
Qed.

(** ** Gray code *)
Definition gray (n : Z) : Z := Z.lxor n (n / 2).
Lemma gray_bit n i : (0 <= i)%Z -> Z.testbit (gray n) i = xorb (Z.testbit n i) (Z.testbit n (i + 1)).
Proof. intro Hi. unfold gray. rewrite Z.lxor_spec. f_equal. change 2%Z with (2 ^ 1)%Z. rewrite Z.div_pow2_bits by lia. reflexivity. Qed.
Lemma gray_succ n : (0 <= n)%Z -> gray (n + 1) = Z.lxor (gray n) (2 ^ Z.of_nat (bit_lo0 n - 1)).
Proof.
  intro Hn. apply Z.bits_inj'. intros i Hi. rewrite Z.lxor_spec, !gray_bit by lia. rewrite !succ_bits by lia.
  rewrite Z.pow2_bits_eqb by lia. set (t := Z.of_nat (bit_lo0 n - 1)).
  destruct (Z.leb_spec i t), (Z.leb_spec (i + 1) t), (Z.eqb_spec t i); try lia;
    destruct (Z.testbit n i), (Z.testbit n (i + 1)); reflexivity.
Qed.
Lemma gray_lxor a b : gray (Z.lxor a b) = Z.lxor (gray a) (gray b).
Proof.
  apply Z.bits_inj'. intros i Hi. rewrite Z.lxor_spec, !gray_bit, !Z.lxor_spec by lia.
  destruct (Z.testbit a i), (Z.testbit a (i + 1)), (Z.testbit b i), (Z.testbit b (i + 1)); reflexivity.
Qed.

(** ** Direction numbers *)
Section Row.
  Context (V : list Z).
  (** The j-th number (from 0) is an odd multiple of 2^(29 - j). *)
  Definition directions : Prop :=
    length V = maxcol /\
    forall j v, nth_error V j = Some v -> exists m, (v = m * 2 ^ Z.of_nat (29 - j))%Z /\ Z.odd m = true /\ (0 <= m < 2 ^ Z.of_nat (S j))%Z.

  (** The exclusive or of the numbers selected by the bits of [g]. *)
  Fixpoint select (W : list Z) (j : nat) (g : Z) : Z :=
    match W with
    | [] => 0%Z
    | v :: W' => Z.lxor (if Z.testbit g (Z.of_nat j) then v else 0%Z) (select W' (S j) g)
    end.
  Lemma select_lxor W : forall j a b, select W j (Z.lxor a b) = Z.lxor (select W j a) (select W j b).
  Proof.
    induction W as [|v W IH]; intros j a b; [reflexivity|]. cbn [select]. rewrite IH, Z.lxor_spec.
    apply Z.bits_inj'. intros i Hi. rewrite !Z.lxor_spec.
    destruct (Z.testbit a (Z.of_nat j)), (Z.testbit b (Z.of_nat j)); cbn [xorb]; rewrite ?Z.bits_0;
      destruct (Z.testbit v i), (Z.testbit (select W (S j) a) i), (Z.testbit (select W (S j) b) i); reflexivity.
  Qed.
  Lemma select_0 W : forall j, select W j 0 = 0%Z.
  Proof. induction W as [|v W IH]; intro j; [reflexivity|]. cbn [select]. now rewrite Z.bits_0, IH. Qed.
  Lemma select_pow W : forall j t, j <= t -> select W j (2 ^ Z.of_nat t) = nth (t - j) W 0%Z.
  Proof.
    induction W as [|v W IH]; intros j t Hj; [now destruct (t - j)|]. cbn [select]. rewrite Z.pow2_bits_eqb by lia.
    destruct (Z.eqb_spec (Z.of_nat t) (Z.of_nat j)) as [E|NE].
    - apply Nat2Z.inj in E. subst t. rewrite Nat.sub_diag. cbn [nth].
      assert (Z0 : forall W j', j < j' -> select W j' (2 ^ Z.of_nat j) = 0%Z).
      { clear. induction W as [|w W IH]; intros j' H; [reflexivity|]. cbn [select]. rewrite Z.pow2_bits_eqb by lia.
        destruct (Z.eqb_spec (Z.of_nat j) (Z.of_nat j')); [lia|]. rewrite IH by lia. reflexivity. }
      rewrite Z0 by lia. apply Z.lxor_0_r.
    - rewrite Z.lxor_0_l. rewrite IH by lia. replace (t - j) with (S (t - S j)) by lia. reflexivity.
  Qed.

  (** The n-th number of the sequence as the code computes it, step by step. *)
  Fixpoint qn (n : nat) : Z :=
    match n with 0 => 0%Z | S n' => Z.lxor (qn n') (nth (bit_lo0 (Z.of_nat n') - 1) V 0%Z) end.
  Lemma qn_select n : qn n = select V 0 (gray (Z.of_nat n)).
  Proof.
    induction n as [|n IH]; cbn [qn].
    - change (gray (Z.of_nat 0)) with 0%Z. now rewrite select_0.
    - rewrite IH, Nat2Z.inj_succ. unfold Z.succ. rewrite gray_succ, select_lxor, select_pow by lia. now rewrite Nat.sub_0_r.
  Qed.

  Hypothesis HV : directions.

  Lemma dir_bits j v i : nth_error V j = Some v -> (0 <= i)%Z ->
    (i < Z.of_nat (29 - j) -> Z.testbit v i = false)%Z /\ (i = Z.of_nat (29 - j) -> Z.testbit v i = true)%Z /\
    (30 <= i -> Z.testbit v i = false)%Z.
  Proof.
    intros E Hi. destruct (proj2 HV j v E) as (m & -> & Om & Hm).
    assert (Lj : j < 30) by (rewrite <- (proj1 HV : length V = 30); apply nth_error_Some; congruence).
    split; [|split].
    - intro H. rewrite Z.mul_pow2_bits by lia. apply Z.testbit_neg_r. lia.
    - intros ->. rewrite Z.mul_pow2_bits, Z.sub_diag by lia. now rewrite Z.bit0_odd.
    - intro H. rewrite Z.mul_pow2_bits by lia. destruct (Z.eq_dec m 0) as [->|]; [apply Z.bits_0|].
      apply Z.bits_above_log2; [lia|]. apply Z.log2_lt_pow2; [lia|]. apply Z.lt_le_trans with (1 := proj2 Hm). apply Z.pow_le_mono_r; lia.
  Qed.

  Lemma select_high W j0 g i : (forall j v, nth_error W j = Some v -> Z.testbit v i = false) -> Z.testbit (select W j0 g) i = false.
  Proof.
    revert j0. induction W as [|v W IH]; intros j0 H; cbn [select]; [apply Z.bits_0|]. rewrite Z.lxor_spec.
    rewrite IH by (intros j w E; now apply (H (S j))). destruct (Z.testbit g (Z.of_nat j0)); [|now rewrite Z.bits_0].
    now rewrite (H 0 v eq_refl).
  Qed.
  (** Only the numbers up to the highest selected one count, and that one decides bit 29 - J. *)
  Lemma select_top W j0 g J : (forall j v, nth_error W j = Some v -> nth_error V (j0 + j) = Some v) ->
    j0 <= J -> J < j0 + length W -> J < 30 -> Z.testbit g (Z.of_nat J) = true -> (forall i, (Z.of_nat J < i)%Z -> Z.testbit g i = false) ->
    Z.testbit (select W j0 g) (Z.of_nat (29 - J)) = true.
  Proof.
    revert j0. induction W as [|v W IH]; intros j0 HW H1 H2 H3 Hb Hh; cbn [length] in H2; [lia|]. cbn [select].
    rewrite Z.lxor_spec. destruct (Nat.eq_dec j0 J) as [->|NE].
    - rewrite Hb. assert (E : nth_error V J = Some v) by (rewrite <- (HW 0 v eq_refl); f_equal; lia).
      destruct (dir_bits _ E (i := Z.of_nat (29 - J)) ltac:(lia)) as (_ & T & _). rewrite T by reflexivity.
      assert (R : forall W' j', J < j' -> select W' j' g = 0%Z).
      { clear -Hh. induction W' as [|w W' IH]; intros j' H; [reflexivity|]. cbn [select]. rewrite Hh by lia. rewrite IH by lia. reflexivity. }
      rewrite R by lia. now rewrite Z.bits_0.
    - rewrite IH; [|intros j w E; specialize (HW (S j) w E); now rewrite <- plus_n_Sm in HW|lia|lia|lia|exact Hb|exact Hh].
      destruct (Z.testbit g (Z.of_nat j0)); [|now rewrite Z.bits_0].
      assert (E : nth_error V j0 = Some v) by (rewrite <- (HW 0 v eq_refl); f_equal; lia).
      destruct (dir_bits _ E (i := Z.of_nat (29 - J)) ltac:(lia)) as (F & _ & _). rewrite F by lia. reflexivity.
  Qed.

  Lemma qn_range n : (0 <= qn n < 2 ^ 30)%Z.
  Proof.
    rewrite qn_select. assert (B : forall i, (30 <= i)%Z -> Z.testbit (select V 0 (gray (Z.of_nat n))) i = false).
    { intros i Hi. apply select_high. intros j v E. now apply (dir_bits _ E (i := i) ltac:(lia)). }
    assert (E : (select V 0 (gray (Z.of_nat n)) mod 2 ^ 30 = select V 0 (gray (Z.of_nat n)))%Z).
    { apply Z.bits_inj'. intros i Hi. destruct (Z_lt_le_dec i 30).
      - apply Z.mod_pow2_bits_low. lia.
      - rewrite Z.mod_pow2_bits_high by lia. symmetry. apply B. lia. }
    rewrite <- E. apply Z.mod_pos_bound. reflexivity.
  Qed.

  Lemma lxor_block a b k : (0 <= a)%Z -> (0 <= b)%Z -> (0 <= k)%Z -> (a / 2 ^ k = b / 2 ^ k)%Z ->
    (0 <= Z.lxor a b < 2 ^ k)%Z.
  Proof.
    intros Ha Hb Hk E. assert (M : (Z.lxor a b mod 2 ^ k = Z.lxor a b)%Z).
    { apply Z.bits_inj'. intros i Hi. destruct (Z_lt_le_dec i k).
      - apply Z.mod_pow2_bits_low. lia.
      - rewrite Z.mod_pow2_bits_high by lia. rewrite Z.lxor_spec. replace i with ((i - k) + k)%Z by lia.
        rewrite <- !Z.div_pow2_bits by lia. rewrite E. now rewrite xorb_nilpotent. }
    rewrite <- M. apply Z.mod_pos_bound. apply Z.pow_pos_nonneg; lia.
  Qed.
  (** Two different indices of the same aligned block differ in the top k bits. *)
  Lemma qn_block_inj k m n : k <= 30 -> (Z.of_nat m / 2 ^ Z.of_nat k = Z.of_nat n / 2 ^ Z.of_nat k)%Z ->
    (qn m / 2 ^ Z.of_nat (30 - k) = qn n / 2 ^ Z.of_nat (30 - k))%Z -> m = n.
  Proof.
    intros Hk Hb Hq. destruct (Nat.eq_dec m n) as [|NE]; [assumption|]. exfalso.
    set (d := Z.lxor (Z.of_nat m) (Z.of_nat n)).
    destruct (lxor_block (a := Z.of_nat m) (b := Z.of_nat n) (k := Z.of_nat k) ltac:(lia) ltac:(lia) ltac:(lia) Hb) as [D0 D1]. fold d in D0, D1.
    assert (D : (0 < d)%Z).
    { destruct (Z.eq_dec d 0) as [E|]; [|lia]. apply Z.lxor_eq in E. lia. }
    set (J := Z.to_nat (Z.log2 d)). assert (JZ : Z.of_nat J = Z.log2 d) by (unfold J; rewrite Z2Nat.id; [reflexivity|apply Z.log2_nonneg]).
    assert (JK : J < k) by (assert (Z.log2 d < Z.of_nat k)%Z by (apply Z.log2_lt_pow2; lia); lia).
    assert (G1 : Z.testbit (gray d) (Z.of_nat J) = true).
    { rewrite gray_bit by lia. rewrite JZ, Z.bit_log2 by lia. rewrite Z.bits_above_log2 by lia. reflexivity. }
    assert (G2 : forall i, (Z.of_nat J < i)%Z -> Z.testbit (gray d) i = false).
    { intros i Hi. rewrite gray_bit by lia. rewrite !Z.bits_above_log2 by lia. reflexivity. }
    assert (X : Z.lxor (qn m) (qn n) = select V 0 (gray d)) by (rewrite !qn_select, <- select_lxor, <- gray_lxor; reflexivity).
    assert (T : Z.testbit (select V 0 (gray d)) (Z.of_nat (29 - J)) = true).
    { apply select_top; auto; try lia. rewrite (proj1 HV). unfold maxcol. lia. }
    rewrite <- X, Z.lxor_spec in T.
    replace (Z.of_nat (29 - J)) with (Z.of_nat (k - 1 - J) + Z.of_nat (30 - k))%Z in T by lia.
    rewrite <- !Z.div_pow2_bits in T by lia. rewrite Hq in T. now rewrite xorb_nilpotent in T.
  Qed.

  Lemma pow2_nat k : Z.of_nat (2 ^ k) = (2 ^ Z.of_nat k)%Z.
  Proof. rewrite Nat2Z.inj_pow. reflexivity. Qed.
  (** An aligned block of 2^k indices meets each value of the top k bits once. *)
  Lemma qn_strata k s c : k <= 30 -> Nat.divide (2 ^ k) s -> (0 <= c < 2 ^ Z.of_nat k)%Z ->
    exists i, s <= i < s + 2 ^ k /\ (qn i / 2 ^ Z.of_nat (30 - k) = c)%Z.
  Proof.
    intros Hk [a ->] Hc. assert (P : (0 < 2 ^ Z.of_nat k)%Z) by (apply Z.pow_pos_nonneg; lia).
    assert (P' : (0 < 2 ^ Z.of_nat (30 - k))%Z) by (apply Z.pow_pos_nonneg; lia).
    assert (P30 : (2 ^ 30 = 2 ^ Z.of_nat k * 2 ^ Z.of_nat (30 - k))%Z) by (rewrite <- Z.pow_add_r by lia; f_equal; lia).
    set (f := fun i => Z.to_nat (qn i / 2 ^ Z.of_nat (30 - k))).
    assert (R : forall i, (0 <= qn i / 2 ^ Z.of_nat (30 - k) < 2 ^ Z.of_nat k)%Z).
    { intro i. destruct (qn_range i). split; [apply Z.div_pos; lia|]. apply Z.div_lt_upper_bound; lia. }
    assert (B : forall i, a * 2 ^ k <= i < a * 2 ^ k + 2 ^ k -> (Z.of_nat i / 2 ^ Z.of_nat k = Z.of_nat a)%Z).
    { intros i Hi. symmetry. apply Z.div_unique with (Z.of_nat i - Z.of_nat a * 2 ^ Z.of_nat k)%Z; [|lia].
      rewrite <- pow2_nat. nia. }
    assert (ND : NoDup (map f (seq (a * 2 ^ k) (2 ^ k)))).
    { apply NoDup_nth_error. intros i j Hi E. rewrite map_length, seq_length in Hi.
      assert (Hj : j < 2 ^ k).
      { assert (Hj : nth_error (map f (seq (a * 2 ^ k) (2 ^ k))) j <> None).
        { rewrite <- E. apply nth_error_Some. now rewrite map_length, seq_length. }
        apply nth_error_Some in Hj. now rewrite map_length, seq_length in Hj. }
      assert (NE : forall x, x < 2 ^ k -> nth_error (map f (seq (a * 2 ^ k) (2 ^ k))) x = Some (f (a * 2 ^ k + x))).
      { intros x Hx. rewrite nth_error_map. rewrite (nth_error_nth' _ 0) by (now rewrite seq_length). cbn [option_map]. now rewrite seq_nth. }
      rewrite !NE in E by assumption. injection E as E. unfold f in E.
      apply Z2Nat.inj in E; [|apply R|apply R]. apply qn_block_inj in E; [lia|exact Hk|]. rewrite !B by lia. reflexivity. }
    assert (I : incl (seq 0 (2 ^ k)) (map f (seq (a * 2 ^ k) (2 ^ k)))).
    { apply NoDup_length_incl; [exact ND|now rewrite map_length, !seq_length|]. intros x Hx. apply in_map_iff in Hx.
      destruct Hx as (i & <- & _). apply in_seq. unfold f. destruct (R i). split; [lia|].
      apply Nat2Z.inj_lt. rewrite Z2Nat.id by lia. rewrite Nat.add_0_l, pow2_nat. lia. }
    assert (Ic : In (Z.to_nat c) (map f (seq (a * 2 ^ k) (2 ^ k)))).
    { apply I, in_seq. split; [lia|]. rewrite Nat.add_0_l. apply Nat2Z.inj_lt. rewrite pow2_nat. lia. }
    apply in_map_iff in Ic. destruct Ic as (i & E & Hi). apply in_seq in Hi. exists i. split; [lia|].
    unfold f in E. apply Z2Nat.inj in E; [exact E|apply R|lia].
  Qed.
End Row.

(** ** The table *)
Definition row_ok (i : nat) : bool :=
  let r := v_row i in
  Nat.eqb (length r) maxcol &&
  forallb (fun jv => Z.odd (snd jv) && (0 <=? snd jv)%Z && (snd jv <? 2 ^ Z.of_nat (S (fst jv)))%Z) (enumerate r).
Lemma table_ok : forallb row_ok (seq 0 dim_max) = true.
Proof. now vm_compute. Qed.
Definition drow (i : nat) : list Z := scaled (v_row i).
Lemma drow_directions i : i < dim_max -> directions (drow i).
Proof.
  intro Hi. pose proof (proj1 (forallb_forall _ _) table_ok i ltac:(apply in_seq; lia)) as R. unfold row_ok in R.
  apply andb_true_iff in R. destruct R as [L F]. apply Nat.eqb_eq in L. unfold directions, drow, scaled. split.
  { unfold enumerate. now rewrite map_length, enumerate_from_length. }
  intros j v E. rewrite nth_error_map in E. unfold enumerate in E. rewrite enumerate_from_nth in E.
  destruct (nth_error (v_row i) j) as [m|] eqn:Em; [|discriminate]. cbn [option_map fst snd] in E. injection E as <-.
  exists m. split; [reflexivity|]. rewrite forallb_forall in F.
  specialize (F (j, m)). cbn [fst snd] in F. rewrite !andb_true_iff, Z.leb_le, Z.ltb_lt in F.
  destruct F as [[F1 F2] F3]; [|auto with zarith]. apply nth_error_In with j. unfold enumerate. now rewrite enumerate_from_nth, Em.
Qed.
