(** Points of the Sobol sequence in boxes. *)
From Coq Require Import List ZArith Bool Lia Permutation.
From Verif Require Import Base BaseLemmas Sobol SobolLemmas SobolNet SobolNet2.
Import ListNotations.
Open Scope list_scope.
Open Scope nat_scope.
Set Implicit Arguments.

(** ** Bits of the points of a block *)
Definition gbits (from len n : nat) : list bool := map (fun t => Z.testbit (gray (Z.of_nat n)) (Z.of_nat t)) (seq from len).
Lemma lin_ext s s' x : forall t, (forall i, i < length x -> s (t + i) = s' (t + i)) -> lin s t x = lin s' t x.
Proof.
  induction x as [|b x IH]; intros t H; cbn [lin]; [easy|]. pose proof (H 0 ltac:(cbn; lia)) as E. rewrite Nat.add_0_r in E. rewrite E. f_equal.
  apply IH. intros i Hi. replace (S t + i) with (t + S i) by lia. apply H. cbn. lia.
Qed.
Lemma lin_app s x y : forall t, lin s t (x ++ y) = xorb (lin s t x) (lin s (t + length x) y).
Proof.
  induction x as [|b x IH]; intro t; cbn [lin app length]; [now rewrite Nat.add_0_r, xorb_false_l|]. rewrite IH.
  replace (t + S (length x)) with (S t + length x) by lia. now rewrite xorb_assoc.
Qed.
Lemma select_lin i W g : forall j, Z.testbit (select W j g) i =
  lin (fun t => Z.testbit (nth (t - j) W 0%Z) i) j (map (fun t => Z.testbit g (Z.of_nat t)) (seq j (length W))).
Proof.
  induction W as [|v W IH]; intro j; cbn [select length seq map lin]; [apply Z.bits_0|]. rewrite Z.lxor_spec, IH, Nat.sub_diag. cbn [nth].
  f_equal; [destruct (Z.testbit g (Z.of_nat j)); [reflexivity|now rewrite Z.bits_0]|].
  apply lin_ext. intros l _. replace (S j + l - S j) with l by lia. replace (S j + l - j) with (S l) by lia. reflexivity.
Qed.
Lemma point_bit j k n m : j < 40 -> k < 30 -> m <= 30 -> Z.testbit (qn (drow j) n) (29 - Z.of_nat k) =
  xorb (lin (row j k) 0 (gbits 0 m n)) (lin (row j k) m (gbits m (30 - m) n)).
Proof.
  intros Hj Hk Hm. assert (D := drow_directions (i := j) ltac:(unfold dim_max; lia)). rewrite qn_select, select_lin.
  replace (length (drow j)) with 30 by (symmetry; exact (proj1 D)). fold (gbits 0 30 n).
  rewrite (@lin_ext _ (row j k)).
  - replace (gbits 0 30 n) with (gbits 0 m n ++ gbits m (30 - m) n).
    + rewrite lin_app. unfold gbits at 2. now rewrite map_length, seq_length.
    + unfold gbits. rewrite <- map_app, <- seq_app. do 2 f_equal. lia.
  - intros i Hi. unfold gbits in Hi. rewrite map_length, seq_length in Hi. rewrite row_bit by lia. cbn [Nat.add]. now rewrite Nat.sub_0_r.
Qed.
Section Block.
  Context (m b : nat).
  Hypothesis Hm : m <= 30.
  Definition block : list nat := seq (b * 2 ^ m) (2 ^ m).
  Lemma block_div n : In n block -> (Z.of_nat n / 2 ^ Z.of_nat m = Z.of_nat b)%Z.
  Proof.
    unfold block. rewrite in_seq. intro H. symmetry. apply Z.div_unique with (Z.of_nat n - Z.of_nat b * 2 ^ Z.of_nat m)%Z; [|lia]. rewrite <- pow2_nat. nia.
  Qed.
  Lemma high_bits n t : In n block -> m <= t -> Z.testbit (Z.of_nat n) (Z.of_nat t) = Z.testbit (Z.of_nat b) (Z.of_nat (t - m)).
  Proof.
    intros H Ht. rewrite <- (@block_div n H). rewrite Z.div_pow2_bits by lia. f_equal. lia.
  Qed.
  Definition const (j k : nat) : bool := lin (row j k) m (gbits m (30 - m) (b * 2 ^ m)).
  Lemma gbits_high n : In n block -> gbits m (30 - m) n = gbits m (30 - m) (b * 2 ^ m).
  Proof.
    intro H. apply map_ext_in. intros t Ht. apply in_seq in Ht. rewrite !gray_bit by lia.
    assert (H0 : In (b * 2 ^ m) block) by (apply in_seq; pose proof (Nat.pow_nonzero 2 m); lia).
    replace (Z.of_nat t + 1)%Z with (Z.of_nat (S t)) by lia. rewrite !(@high_bits n _ H), !(@high_bits _ _ H0) by lia. reflexivity.
  Qed.
  Lemma block_bit j k n : j < 40 -> k < 30 -> In n block ->
    Z.testbit (qn (drow j) n) (29 - Z.of_nat k) = xorb (lin (row j k) 0 (gbits 0 m n)) (const j k).
  Proof. intros Hj Hk H. rewrite (@point_bit j k n m) by lia. now rewrite (@gbits_high n H). Qed.
  Lemma gbits_inj n n' : In n block -> In n' block -> gbits 0 m n = gbits 0 m n' -> n = n'.
  Proof.
    intros H H' E. destruct (Nat.eq_dec n n') as [|N]; [easy|]. exfalso. set (d := Z.lxor (Z.of_nat n) (Z.of_nat n')).
    assert (R : (0 <= d < 2 ^ Z.of_nat m)%Z) by (apply lxor_block; [lia|lia|lia|now rewrite !block_div]).
    assert (P : (0 < d)%Z) by (destruct (Z.eq_dec d 0) as [Z|]; [apply Z.lxor_eq in Z; lia|lia]).
    assert (L : (0 <= Z.log2 d < Z.of_nat m)%Z) by (split; [apply Z.log2_nonneg|apply Z.log2_lt_pow2; lia]).
    assert (G : Z.testbit (gray d) (Z.log2 d) = true) by (rewrite gray_bit by lia; rewrite Z.bit_log2, Z.bits_above_log2 by lia; reflexivity).
    unfold d in G at 1. rewrite gray_lxor, Z.lxor_spec in G.
    assert (Q : nth (Z.to_nat (Z.log2 d)) (gbits 0 m n) false = nth (Z.to_nat (Z.log2 d)) (gbits 0 m n') false) by now rewrite E.
    assert (Nth : forall x, nth (Z.to_nat (Z.log2 d)) (gbits 0 m x) false = Z.testbit (gray (Z.of_nat x)) (Z.log2 d)).
    { intro x. unfold gbits. rewrite (nth_indep _ _ (Z.testbit (gray (Z.of_nat x)) (Z.of_nat 0))) by (rewrite map_length, seq_length; lia).
      rewrite (map_nth (fun t => Z.testbit (gray (Z.of_nat x)) (Z.of_nat t))). rewrite seq_nth by lia. f_equal. lia. }
    rewrite !Nth in Q. rewrite Q, xorb_nilpotent in G. discriminate.
  Qed.
  Lemma block_lists : Permutation (map (gbits 0 m) block) (bit_lists m).
  Proof.
    apply NoDup_Permutation_bis.
    - assert (Gn : forall l, NoDup l -> incl l block -> NoDup (map (gbits 0 m) l)).
      { induction l as [|n l IH]; intros N I; cbn [map]; [constructor|]. inversion N; subst. constructor; [|apply IH; [easy|intros x Hx; apply I; now right]].
        rewrite in_map_iff. intros (n' & E & Hn'). apply gbits_inj in E; [subst; easy|apply I; now right|apply I; now left]. }
      apply Gn; [apply seq_NoDup|apply incl_refl].
    - rewrite map_length, bit_lists_length. unfold block. rewrite seq_length. lia.
    - intros x Hx. apply in_map_iff in Hx. destruct Hx as (n & <- & _). apply bit_lists_in. unfold gbits. now rewrite map_length, seq_length.
  Qed.
End Block.

(** ** Boxes *)
(** Dimension, number of bits, their value. *)
Definition box := (nat * nat * Z)%type.
Definition bdim (x : box) : nat := fst (fst x).
Definition blen (x : box) : nat := snd (fst x).
Definition in_boxb (n : nat) (x : box) : bool := (qn (drow (bdim x)) n / 2 ^ Z.of_nat (30 - blen x) =? snd x)%Z.
Definition box_rows (x : box) : list (nat -> bool) := map (row (bdim x)) (seq 0 (blen x)).
Definition box_bits (m b : nat) (x : box) : list bool :=
  map (fun k => xorb (Z.testbit (snd x) (Z.of_nat (blen x - 1 - k))) (const m b (bdim x) k)) (seq 0 (blen x)).
Definition box_ok (x : box) : Prop := bdim x < 40 /\ blen x <= 30 /\ (0 <= snd x < 2 ^ Z.of_nat (blen x))%Z.
Lemma agrees_app A ys ys' (fs fs' : list (A -> bool)) x : length ys = length fs ->
  agrees (ys ++ ys') (fs ++ fs') x = agrees ys fs x && agrees ys' fs' x.
Proof. revert fs. induction ys as [|y ys IH]; intros [|f fs] L; try easy. cbn [app agrees]. rewrite IH by now injection L. now rewrite andb_assoc. Qed.
Lemma agrees_map A K (f : K -> A -> bool) (y : K -> bool) l x : agrees (map y l) (map f l) x = forallb (fun k => eqb (f k x) (y k)) l.
Proof. induction l as [|k l IH]; cbn; [easy|]. now rewrite IH. Qed.
Lemma top_bits q a c : a <= 30 -> (0 <= q < 2 ^ 30)%Z -> (0 <= c < 2 ^ Z.of_nat a)%Z ->
  (q / 2 ^ Z.of_nat (30 - a) =? c)%Z = forallb (fun k => eqb (Z.testbit q (29 - Z.of_nat k)) (Z.testbit c (Z.of_nat (a - 1 - k)))) (seq 0 a).
Proof.
  intros Ha Hq Hc. apply eq_iff_eq_true. rewrite Z.eqb_eq, forallb_forall. split.
  - intros <- k Hk. apply in_seq in Hk. rewrite Z.div_pow2_bits by lia. apply eqb_true_iff. f_equal. lia.
  - intro H. apply Z.bits_inj'. intros i Hi. destruct (Z_lt_le_dec i (Z.of_nat a)) as [Lt|Ge].
    + specialize (H (a - 1 - Z.to_nat i) ltac:(apply in_seq; lia)). apply eqb_prop in H. rewrite Z.div_pow2_bits by lia.
      replace (i + Z.of_nat (30 - a))%Z with (29 - Z.of_nat (a - 1 - Z.to_nat i))%Z by lia. rewrite H. f_equal. lia.
    + assert (High : forall z w, (0 <= z < 2 ^ w)%Z -> (0 <= w <= i)%Z -> Z.testbit z i = false).
      { intros z w Hz Hw. destruct (Z.eq_dec z 0) as [->|]; [apply Z.bits_0|]. apply Z.bits_above_log2; [lia|].
        apply Z.lt_le_trans with w; [apply Z.log2_lt_pow2; lia|lia]. }
      rewrite (High c (Z.of_nat a)) by lia. apply (High _ (Z.of_nat a)); [|lia]. assert (P : (0 < 2 ^ Z.of_nat (30 - a))%Z) by (apply Z.pow_pos_nonneg; lia).
      split; [apply Z.div_pos; lia|]. apply Z.div_lt_upper_bound; [lia|]. rewrite <- Z.pow_add_r by lia.
      replace (Z.of_nat (30 - a) + Z.of_nat a)%Z with 30%Z by lia. lia.
Qed.
Lemma in_box_agrees m b n xs : m <= 30 -> In n (block m b) -> Forall box_ok xs ->
  forallb (in_boxb n) xs = agrees (concat (map (box_bits m b) xs)) (map (fun r => lin r 0) (concat (map box_rows xs))) (gbits 0 m n).
Proof.
  intros Hm Hn. induction 1 as [|x xs (H1 & H2 & H3) F IH]; cbn [forallb map concat]; [easy|].
  rewrite map_app, agrees_app by (unfold box_bits, box_rows; now rewrite !map_length). rewrite IH. f_equal.
  unfold in_boxb, box_bits, box_rows. rewrite map_map, agrees_map. rewrite top_bits; [|lia|apply qn_range, drow_directions; unfold dim_max; lia|exact H3].
  assert (E : forall l, (forall k, In k l -> k < blen x) ->
    forallb (fun k => eqb (Z.testbit (qn (drow (bdim x)) n) (29 - Z.of_nat k)) (Z.testbit (snd x) (Z.of_nat (blen x - 1 - k)))) l =
    forallb (fun k => eqb (lin (row (bdim x) k) 0 (gbits 0 m n)) (xorb (Z.testbit (snd x) (Z.of_nat (blen x - 1 - k))) (const m b (bdim x) k))) l).
  { induction l as [|k l IHl]; intro Hl; cbn [forallb]; [easy|]. rewrite IHl by (intros; apply Hl; now right). f_equal.
    rewrite (@block_bit m b Hm (bdim x) k n H1) by (try exact Hn; specialize (Hl k ltac:(now left)); lia).
    destruct (lin (row (bdim x) k) 0 (gbits 0 m n)), (const m b (bdim x) k), (Z.testbit (snd x) (Z.of_nat (blen x - 1 - k))); reflexivity. }
  apply E. intros k Hk. apply in_seq in Hk. lia.
Qed.
Fixpoint split_by (ls : list nat) (c : list bool) : list (list bool) :=
  match ls with [] => [] | l :: ls' => firstn l c :: split_by ls' (skipn l c) end.
Lemma rows_sum_app c c' rs rs' t : length c = length rs -> rows_sum (c ++ c') (rs ++ rs') t = xorb (rows_sum c rs t) (rows_sum c' rs' t).
Proof.
  revert rs. induction c as [|b c IH]; intros [|r rs] L; try easy; cbn [app rows_sum]; [now rewrite xorb_false_l|]. unfold plus. rewrite IH by now injection L.
  now rewrite xorb_assoc.
Qed.
Lemma rows_sum_weigh j c : forall k t, rows_sum c (map (row j) (seq k (length c))) t = weigh j k c t.
Proof. induction c as [|b c IH]; intros k t; cbn [length seq map rows_sum weigh]; [easy|]. unfold plus. now rewrite IH. Qed.
Lemma boxes_sum xs : forall c t, length c = list_sum (map blen xs) ->
  rows_sum c (concat (map box_rows xs)) t = total (weigh_all (map bdim xs) (split_by (map blen xs) c)) t.
Proof.
  induction xs as [|x xs IH]; intros c t L; cbn [map concat split_by weigh_all].
  - destruct c; reflexivity.
  - cbn in L. fold (list_sum (map blen xs)) in L. rewrite <- (firstn_skipn (blen x) c) at 1. rewrite rows_sum_app.
    + change (total (weigh (bdim x) 0 (firstn (blen x) c) :: weigh_all (map bdim xs) (split_by (map blen xs) (skipn (blen x) c))))
        with (plus (weigh (bdim x) 0 (firstn (blen x) c)) (total (weigh_all (map bdim xs) (split_by (map blen xs) (skipn (blen x) c))))).
      unfold plus. rewrite IH by (rewrite skipn_length; lia). f_equal. rewrite <- rows_sum_weigh. unfold box_rows. do 3 f_equal. rewrite firstn_length. lia.
    + unfold box_rows. rewrite map_length, seq_length, firstn_length. lia.
Qed.
Lemma split_lengths ls : forall c, length c = list_sum ls -> map (@length bool) (split_by ls c) = ls.
Proof.
  induction ls as [|l ls IH]; intros c L; cbn in *; [easy|]. fold (list_sum ls) in L. rewrite firstn_length, IH by (rewrite skipn_length; lia). f_equal. lia.
Qed.
Lemma split_all ls : forall c, length c = list_sum ls -> Forall (fun x => existsb (fun b => b) x = false) (split_by ls c) -> existsb (fun b => b) c = false.
Proof.
  induction ls as [|l ls IH]; intros c L F; cbn in *; [now destruct c|]. fold (list_sum ls) in L. inversion F as [|? ? F1 F2]; subst.
  rewrite <- (firstn_skipn l c), existsb_app, F1. apply IH; [rewrite skipn_length; lia|exact F2].
Qed.
(** Enough: no combination of the rows that belong to the boxes vanishes on the first [m] places *)
Definition solvable (m : nat) (xs : list box) : Prop :=
  forall c, length c = list_sum (map blen xs) -> existsb (fun b => b) c = true -> exists t, t < m /\ rows_sum c (concat (map box_rows xs)) t = true.
Lemma rows_length xs : length (concat (map box_rows xs)) = list_sum (map blen xs).
Proof. induction xs as [|x xs IH]; cbn; [easy|]. rewrite app_length, IH. unfold box_rows. rewrite map_length, seq_length. reflexivity. Qed.
Theorem box_count_by m b xs : m <= 30 -> Forall box_ok xs -> solvable m xs ->
  count (fun n => forallb (in_boxb n) xs) (block m b) * 2 ^ list_sum (map blen xs) = 2 ^ m.
Proof.
  intros Hm Hx Sv.
  set (rows := concat (map box_rows xs)). set (ys := concat (map (box_bits m b) xs)).
  assert (Lr : length rows = list_sum (map blen xs)) by apply rows_length.
  assert (Ly : length ys = length rows).
  { unfold ys, rows. clear. induction xs as [|x xs IH]; cbn; [easy|]. rewrite !app_length, IH. unfold box_rows, box_bits. now rewrite !map_length. }
  rewrite (@count_ext _ _ (fun n => agrees ys (map (fun r => lin r 0) rows) (gbits 0 m n))) by (intros n Hn; now apply in_box_agrees).
  rewrite <- (count_map (agrees ys (map (fun r => lin r 0) rows)) (gbits 0 m)).
  assert (Pc : forall X Y, Permutation X Y -> count (agrees ys (map (fun r => lin r 0) rows)) X = count (agrees ys (map (fun r => lin r 0) rows)) Y).
  { clear. unfold count. induction 1 as [|x X Y P IH|x y X|X Y Z P1 I1 P2 I2]; cbn [filter]; [easy| | |congruence].
    - destruct (agrees _ _ x); cbn [length]; congruence.
    - destruct (agrees _ _ x), (agrees _ _ y); reflexivity. }
  rewrite (Pc _ _ (@block_lists m b Hm)). rewrite <- Lr. apply rows_count; [|exact Ly].
  intros c Lc Hc. apply Sv; [now rewrite Lr in Lc|exact Hc].
Qed.
Lemma boxes_solvable m xs : m <= 30 -> Forall box_ok xs -> NoDup (map bdim xs) -> list_sum (map (fun x => need (bdim x) (blen x)) xs) <= m -> solvable m xs.
Proof.
  intros Hm Hx Nd Hs c Lc Hc. set (rows := concat (map box_rows xs)).
  destruct (existsb (fun t => rows_sum c rows t) (seq 0 m)) eqn:Ex.
  { apply existsb_exists in Ex. destruct Ex as (t & Ht & E). apply in_seq in Ht. exists t. split; [lia|exact E]. }
  exfalso.
  assert (Z : forall t, t < m -> total (weigh_all (map bdim xs) (split_by (map blen xs) c)) t = false).
  { intros t Ht. rewrite <- boxes_sum by exact Lc. fold rows. destruct (rows_sum c rows t) eqn:E; [|easy].
    assert (Q : existsb (fun t => rows_sum c rows t) (seq 0 m) = true) by (apply existsb_exists; exists t; split; [apply in_seq; lia|exact E]). congruence. }
  pose proof (split_lengths _ _ Lc) as Sl.
  assert (I : Forall (fun x => existsb (fun b => b) x = false) (split_by (map blen xs) c)).
  { apply (@independent (map bdim xs) _ m); [exact Nd| | | |exact Hm|exact Z].
    - apply Forall_map. eapply Forall_impl; [|exact Hx]. intros x Q. apply Q.
    - assert (Q := f_equal (@length nat) Sl). rewrite !map_length in Q. now rewrite map_length.
    - replace (list_sum (map (fun jc => need (fst jc) (length (snd jc))) (combine (map bdim xs) (split_by (map blen xs) c))))
        with (list_sum (map (fun x => need (bdim x) (blen x)) xs)); [exact Hs|].
      clear -Lc. revert c Lc. induction xs as [|x xs IH]; intros c Lc; [reflexivity|].
      change (list_sum (map blen (x :: xs))) with (blen x + list_sum (map blen xs)) in Lc. cbn [map split_by combine fst snd].
      assert (C : forall n l, list_sum (n :: l) = n + list_sum l) by reflexivity. rewrite !C. rewrite (IH (skipn (blen x) c)) by (rewrite skipn_length; lia).
      rewrite firstn_length. do 2 f_equal. lia. }
  apply split_all in I; [|exact Lc]. congruence.
Qed.
