(** C77 *)
From Coq Require Import String List ZArith Bool Lia Lra Reals Permutation.
From Verif Require Import Base BaseLemmas Num NumLaws Values Dimension Space SpaceSpec WarpLemmas DesignLemmas
  Sampler SamplerSpec SamplerProps Sobol SobolLemmas SobolState SobolProps SobolSpec SobolNet SobolNet2 SobolNet3 Samples SpaceProps2 SamplerSamples.
Import ListNotations.
Open Scope list_scope.
Open Scope nat_scope.
Set Implicit Arguments.

Lemma degree_sobol j : j < 40 -> degree j = sobol_degree j.
Proof. intro H. do 40 (destruct j as [|j]; [reflexivity|]). lia. Qed.
Section Boxes.
  Context {RNG : Type} (G : rng_ops R RNG).
  Lemma boxes_by skip s total d n g s' h : sobol_history Rops G skip false s total -> (skip < 2 ^ 30)%Z -> 1 <= d <= 40 ->
    sobol_design Rops G s d n g = (s', Ok h) ->
    forall m start (boxes : list (nat * nat * Z)), start + 2 ^ m <= n -> (2 ^ Z.of_nat m | skip + Z.of_nat start)%Z ->
      Forall (fun b => fst (fst b) < d /\ (0 <= snd b < 2 ^ Z.of_nat (snd (fst b)))%Z) boxes ->
      list_sum (map blen boxes) <= m -> (m <= 30 -> Forall box_ok boxes -> solvable m boxes) ->
      many_in_stretch h start (2 ^ m) (fun row => Forall (fun b => exists v, nth_error row (fst (fst b)) = Some v /\
        in_part (2 ^ Z.of_nat (snd (fst b))) (snd b) v) boxes) (2 ^ (m - list_sum (map (fun b => snd (fst b)) boxes))).
  Proof.
    intros H Hs Hd E m start boxes Hn Hdiv Hb Hl Sv. destruct (plain_design H Hs Hd E) as (from & -> & Hbound & ->).
    assert (Hm : m <= 30).
    { assert (B : (2 ^ Z.of_nat m < 2 ^ 30)%Z) by (rewrite <- pow2_nat; lia). apply Z.pow_lt_mono_r_iff in B; lia. }
    assert (Div : exists b, from + start = b * 2 ^ m).
    { destruct Hdiv as [a Ha]. exists (Z.to_nat a). apply Nat2Z.inj.
      assert (P : (0 < 2 ^ Z.of_nat m)%Z) by (apply Z.pow_pos_nonneg; lia).
      rewrite Nat2Z.inj_mul, pow2_nat, Z2Nat.id by nia. lia. }
    destruct Div as [b Hblock].
    assert (Le : forall x, In x boxes -> snd (fst x) <= m).
    { intros x Hx. pose proof (@list_sum_in _ _ (in_map blen _ _ Hx)) as Q. unfold blen in Q at 1. lia. }
    assert (Ok_ : Forall box_ok boxes).
    { apply Forall_forall. intros x Hx. pose proof (Le x Hx). rewrite Forall_forall in Hb. destruct (Hb x Hx) as [B1 B2].
      unfold box_ok, bdim, blen. split; [lia|]. split; [lia|exact B2]. }
    assert (Hc : count (fun n => forallb (in_boxb n) boxes) (block m b) * 2 ^ list_sum (map blen boxes) = 2 ^ m).
    { apply box_count_by; [exact Hm|exact Ok_|now apply Sv]. }
    exists (map (fun k => k - from) (filter (fun n => forallb (in_boxb n) boxes) (block m b))). split; [|split].
    - assert (Nf : NoDup (filter (fun n => forallb (in_boxb n) boxes) (block m b))) by (apply NoDup_filter, seq_NoDup).
      assert (Gf : forall k, In k (filter (fun n => forallb (in_boxb n) boxes) (block m b)) -> from <= k).
      { intros k Hk. apply filter_In in Hk. destruct Hk as [Hk _]. apply in_seq in Hk. lia. }
      revert Nf Gf. generalize (filter (fun n => forallb (in_boxb n) boxes) (block m b)). induction l as [|k l IH]; intros Nf Gf; cbn [map]; [constructor|].
      inversion Nf as [|? ? N1 N2]; subst. constructor; [|apply IH; [exact N2|intros; apply Gf; now right]].
      rewrite in_map_iff. intros (k' & Ek & Hk'). apply N1. assert (from <= k) by (apply Gf; now left). assert (from <= k') by (apply Gf; now right).
      replace k with k' by lia. exact Hk'.
    - rewrite map_length. fold (count (fun n => forallb (in_boxb n) boxes) (block m b)). change (fun b : nat * nat * Z => snd (fst b)) with blen.
      assert (P : 2 ^ m = 2 ^ (m - list_sum (map blen boxes)) * 2 ^ list_sum (map blen boxes)) by (rewrite <- Nat.pow_add_r; f_equal; lia).
      rewrite P in Hc. apply Nat.mul_cancel_r in Hc; [exact Hc|]. apply Nat.pow_nonzero. lia.
    - intro i. rewrite in_map_iff.
      assert (Row : forall k, k < n -> forallb (in_boxb (from + k)) boxes = true <->
        Forall (fun b => exists v, nth_error (quasi_row Rops d (from + k)) (fst (fst b)) = Some v /\ in_part (2 ^ Z.of_nat (snd (fst b))) (snd b) v) boxes).
      { intros k Hk. rewrite forallb_forall, Forall_forall. split; intros Q x Hx; specialize (Q x Hx); pose proof (Le x Hx); rewrite Forall_forall in Hb; destruct (Hb x Hx) as [B1 _].
        - unfold in_boxb in Q. apply Z.eqb_eq in Q. eexists. split; [apply nth_quasi_row; split; [exact B1|reflexivity]|]. apply dyad_part; [lia|exact Q].
        - destruct Q as (v & Ev & Pv). apply nth_quasi_row in Ev. destruct Ev as [_ ->]. apply dyad_part in Pv; [|lia]. unfold in_boxb. apply Z.eqb_eq. exact Pv. }
      split.
      + intros (k & <- & Hk). apply filter_In in Hk. destruct Hk as [Hk Q]. apply in_seq in Hk. split; [lia|].
        exists (quasi_row Rops d k). split; [apply nth_quasi_rows; split; [lia|f_equal; lia]|].
        pose proof (proj1 (Row (k - from) ltac:(lia))) as R1. replace (from + (k - from)) with k in R1 by lia. auto.
      + intros (Hi & row & Er & Q). apply nth_quasi_rows in Er. destruct Er as [Li ->]. exists (from + i). split; [lia|]. apply filter_In.
        split; [apply in_seq; lia|]. now apply Row.
  Qed.
  Lemma c77_boxes skip s total d n g s' h : sobol_history Rops G skip false s total -> (skip < 2 ^ 30)%Z -> 1 <= d <= 40 ->
    sobol_design Rops G s d n g = (s', Ok h) ->
    forall m start (boxes : list (nat * nat * Z)), start + 2 ^ m <= n -> (2 ^ Z.of_nat m | skip + Z.of_nat start)%Z ->
      NoDup (map (fun b => fst (fst b)) boxes) ->
      Forall (fun b => fst (fst b) < d /\ (0 <= snd b < 2 ^ Z.of_nat (snd (fst b)))%Z) boxes ->
      list_sum (map (fun b => snd (fst b) + (sobol_degree (fst (fst b)) - 1)) boxes) <= m ->
      many_in_stretch h start (2 ^ m) (fun row => Forall (fun b => exists v, nth_error row (fst (fst b)) = Some v /\
        in_part (2 ^ Z.of_nat (snd (fst b))) (snd b) v) boxes) (2 ^ (m - list_sum (map (fun b => snd (fst b)) boxes))).
  Proof.
    intros H Hs Hd E m start boxes Hn Hdiv Nd Hb Hsum. refine (@boxes_by skip s total d n g s' h H Hs Hd E m start boxes Hn Hdiv Hb _ _).
    - eapply Nat.le_trans; [|exact Hsum]. clear. induction boxes as [|x l IH]; [easy|]. cbn. unfold list_sum, blen in *. lia.
    - intros Hm Ok_. apply boxes_solvable; [exact Hm|exact Ok_|exact Nd|]. eapply Nat.le_trans; [|exact Hsum]. apply Nat.eq_le_incl. f_equal.
      apply map_ext_in. intros x Hx. rewrite Forall_forall in Hb. destruct (Hb x Hx) as [B1 _]. unfold need, bdim, blen. rewrite degree_sobol by lia. reflexivity.
  Qed.

End Boxes.

(** The recurrence. *)
Definition recurrence_at (j t : nat) : bool :=
  let v l := nth l (drow j) 0%Z in
  (v (t + sobol_degree j)%nat =? Z.lxor (v t / 2 ^ Z.of_nat (sobol_degree j)) (fold_right Z.lxor 0 (map (fun e => v (t + e)%nat) (tl (nth (j - 1) exponents [])))))%Z.
Lemma recurrence_table : forallb (fun j => forallb (recurrence_at j) (seq 0 (30 - sobol_degree j)) &&
  forallb (fun e => e <? sobol_degree j) (tl (nth (j - 1) exponents []))) (seq 1 39) = true.
Proof. vm_compute. reflexivity. Qed.
Lemma qn_direction V t : qn V (2 ^ (t + 1) - 1) = nth t V 0%Z.
Proof.
  rewrite qn_select. replace (gray (Z.of_nat (2 ^ (t + 1) - 1))) with (2 ^ Z.of_nat t)%Z; [rewrite select_pow by lia; now rewrite Nat.sub_0_r|].
  assert (P : 0 < 2 ^ (t + 1)) by (pose proof (Nat.pow_nonzero 2 (t + 1)); lia). rewrite Nat2Z.inj_sub by lia. rewrite pow2_nat.
  apply Z.bits_inj'. intros i Hi. rewrite gray_bit by lia. rewrite Z.pow2_bits_eqb by lia.
  assert (B : forall l, (0 <= l)%Z -> Z.testbit (2 ^ Z.of_nat (t + 1) - Z.of_nat 1) l = (l <? Z.of_nat (t + 1))%Z).
  { intros l Hl. change (Z.of_nat 1) with 1%Z. rewrite Z.sub_1_r, <- Z.ones_equiv. apply Z.testbit_ones_nonneg; lia. }
  rewrite !B by lia. destruct (Z.ltb_spec i (Z.of_nat (t + 1))), (Z.ltb_spec (i + 1) (Z.of_nat (t + 1))), (Z.eqb_spec (Z.of_nat t) i); try reflexivity; lia.
Qed.
Section Recurrence.
  Context {RNG : Type} (G : rng_ops R RNG).
  Lemma c77_recurrence s total d n g s' h : sobol_history Rops G 0 false s total -> 1 <= d <= 40 -> sobol_design Rops G s d n g = (s', Ok h) ->
    forall j t v, 0 < j < d -> direction h j (t + sobol_degree j) v ->
      exists u us, direction h j t u /\ Forall2 (fun e w => direction h j (t + e) w) (tl (nth (j - 1) exponents [])) us /\
        v = Z.lxor (u / 2 ^ Z.of_nat (sobol_degree j)) (fold_right Z.lxor 0%Z us).
  Proof.
    intros H Hd E j t v Hj (row & Er & Ev). destruct (plain_design H ltac:(reflexivity) Hd E) as (from & Ef & Hbound & ->).
    assert (from = 0) as -> by lia. clear Ef. apply nth_quasi_rows in Er. destruct Er as [Ln ->]. apply nth_quasi_row in Ev. destruct Ev as [_ Ev].
    cbn [Nat.add] in Ev. change (IZR v / 2 ^ 30)%R with (dyad v) in Ev. apply dyad_inj in Ev. rewrite qn_direction in Ev.
    assert (Lt : t + sobol_degree j < 30).
    { destruct (Nat.lt_ge_cases (t + sobol_degree j) 30) as [|Ge]; [easy|]. exfalso.
      assert (B : (2 ^ 31 <= Z.of_nat (2 ^ (t + sobol_degree j + 1)))%Z) by (rewrite pow2_nat; apply Z.pow_le_mono_r; lia).
      revert B Ln Hbound. generalize (2 ^ (t + sobol_degree j + 1)). clear. intros k B Ln Hb. lia. }
    assert (Dir : forall l, l <= t + sobol_degree j -> direction (quasi_rows Rops d 0 n) j l (nth l (drow j) 0%Z)).
    { intros l Hl. exists (quasi_row Rops d (2 ^ (l + 1) - 1)). split.
      - apply nth_quasi_rows. split; [|reflexivity]. assert (2 ^ (l + 1) <= 2 ^ (t + sobol_degree j + 1)) by (apply Nat.pow_le_mono_r; lia). lia.
      - apply nth_quasi_row. split; [lia|]. now rewrite qn_direction. }
    assert (T := proj1 (forallb_forall _ _) recurrence_table j ltac:(apply in_seq; lia)). apply andb_true_iff in T. destruct T as [T1 T2].
    assert (T3 := proj1 (forallb_forall _ _) T1 t ltac:(apply in_seq; lia)). unfold recurrence_at in T3. apply Z.eqb_eq in T3.
    exists (nth t (drow j) 0%Z), (map (fun e => nth (t + e) (drow j) 0%Z) (tl (nth (j - 1) exponents []))).
    split; [apply Dir; lia|]. split; [|congruence]. rewrite forallb_forall in T2. revert T2. generalize (tl (nth (j - 1) exponents [])) as l.
    induction l as [|e l IH]; intro T2; cbn [map]; constructor; [|apply IH; intros; apply T2; now right]. apply Dir. specialize (T2 e ltac:(now left)). apply Nat.ltb_lt in T2. lia.
  Qed.
End Recurrence.
Lemma c77_sample : exists s' h, sobol_history Rops GR 0 false (sob0 0 false) 0 /\ sobol_design Rops GR (sob0 0 false) 3 8 1%nat = (s', Ok h) /\
  (let boxes := [(0, 1, 0%Z); (2, 1, 1%Z)] in
   NoDup (map (fun b => fst (fst b)) boxes) /\ Forall (fun b => fst (fst b) < 3 /\ (0 <= snd b < 2 ^ Z.of_nat (snd (fst b)))%Z) boxes /\
   list_sum (map (fun b => snd (fst b) + (sobol_degree (fst (fst b)) - 1)) boxes) = 3) /\
  (exists v, direction h 2 (0 + sobol_degree 2) v).
Proof.
  assert (H : sobol_history Rops GR 0 false (sob0 0 false) 0) by now apply history_new.
  destruct (history_settled H ltac:(reflexivity)) as (k & K1 & K2 & K3 & K4 & K5). assert (k = 0) as -> by lia.
  assert (H13 : 1 <= 3 <= 40) by lia. destruct (design_all Rops GR 8 1 K3 H13 K2) as (s1 & D & _).
  unfold design_outcome, rows_outcome in D. rewrite K4 in D. cbn [bind] in D.
  replace (Z.of_nat (0 + 8) <=? 2 ^ 30 - 1)%Z with true in D by reflexivity. cbn [bind] in D.
  eexists _, _. split; [exact H|]. split; [exact D|]. split.
  - cbv zeta. split; [repeat constructor; cbn; intuition lia|]. split; [|reflexivity]. repeat constructor; cbn; lia.
  - eexists. exists (quasi_row Rops 3 7). split; [apply nth_quasi_rows; cbn; split; [lia|reflexivity]|]. apply nth_quasi_row. split; [lia|reflexivity].
Qed.
