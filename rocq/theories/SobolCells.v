(** Every cell of the grid that halves (or quarters) the first dimensions is met equally often (C88). *)
From Coq Require Import String List ZArith Bool Lia Lra Reals Permutation.
From Verif Require Import Base BaseLemmas Num NumLaws Values Dimension Space SpaceSpec WarpLemmas DesignLemmas
  Sampler SamplerSpec SamplerProps Sobol SobolLemmas SobolState SobolProps SobolSpec SobolNet SobolNet2 SobolNet3 SobolBoxes Samples SpaceProps2 SamplerSamples.
Import ListNotations.
Open Scope list_scope.
Open Scope nat_scope.
Set Implicit Arguments.

(** For [d] dimensions, a mask for every row: the sum of row [j] over the places in mask [i] is 1 when [i = j] and 0 otherwise. *)
Definition half_masks : list (list Z) :=
  [[1];
   [3; 2];
   [5; 2; 6];
   [5; 14; 6; 12];
   [5; 16; 24; 18; 30];
   [33; 16; 24; 54; 58; 36];
   [33; 98; 106; 54; 58; 86; 114];
   [33; 98; 246; 54; 166; 202; 114; 156];
   [33; 266; 246; 350; 462; 418; 282; 156; 360];
   [33; 950; 246; 350; 882; 798; 282; 544; 980; 700];
   [1635; 1524; 1716; 350; 1328; 1372; 282; 544; 1430; 1278; 1602];
   [2737; 1524; 1716; 350; 2530; 2446; 3528; 3826; 2372; 1278; 2704; 3282];
   [5289; 1524; 6316; 8006; 6138; 6038; 3528; 3826; 2372; 6886; 5256; 3282; 7704];
   [5289; 1524; 9136; 9306; 6138; 11402; 14036; 13806; 2372; 8698; 5256; 3282; 9476; 15132];
   [5289; 1524; 25026; 9306; 21896; 28408; 14036; 30620; 2372; 25480; 5256; 3282; 26486; 31086; 17010];
   [63399; 1524; 33484; 9306; 46726; 36342; 14036; 30620; 59978; 32902; 5256; 61404; 33912; 31086; 41340; 58126];
   [129029; 68182; 101742; 9306; 112932; 98900; 80246; 30620; 59978; 32902; 72490; 61404; 101338; 31086; 41340; 126124; 69538];
   [248093; 68182; 101742; 9306; 112932; 98900; 80246; 30620; 59978; 32902; 207410; 61404; 101338; 31086; 41340; 253364; 69538; 143640];
   [248093; 333234; 101742; 277438; 370368; 368048; 80246; 288888; 325038; 32902; 472534; 323640; 101338; 31086; 41340; 508496; 69538; 143640; 270308];
   [248093; 953088; 660444; 277438; 931954; 368048; 80246; 1046218; 1010460; 728628; 472534; 323640; 101338; 31086; 41340; 810210; 692496; 143640; 1016150; 761522]]%Z.
Definition quarter_masks : list (list Z) :=
  [[1; 2];
   [5; 10; 4; 12];
   [45; 54; 56; 36; 20; 40];
   [245; 238; 140; 72; 160; 156; 216; 108];
   [497; 826; 140; 332; 884; 840; 216; 700; 720; 980];
   [3033; 826; 1524; 3612; 2396; 1584; 216; 700; 2296; 1708; 3920; 1400]]%Z.
Definition places (m : nat) (mask : Z) : list nat := filter (fun t => Z.testbit mask (Z.of_nat t)) (seq 0 m).
Fixpoint sum_at (ts : list nat) (s : nat -> bool) : bool := match ts with [] => false | t :: ts' => xorb (s t) (sum_at ts' s) end.
Lemma sum_at_ext ts s s' : (forall t, In t ts -> s t = s' t) -> sum_at ts s = sum_at ts s'.
Proof. induction ts as [|t ts IH]; cbn; intro H; [easy|]. now rewrite H, IH by auto. Qed.
Lemma sum_at_plus ts s s' : sum_at ts (plus s s') = xorb (sum_at ts s) (sum_at ts s').
Proof. induction ts as [|t ts IH]; cbn; [easy|]. rewrite IH. unfold plus. destruct (s t), (s' t), (sum_at ts s), (sum_at ts s'); reflexivity. Qed.
Lemma sum_at_scale ts b s : sum_at ts (fun t => b && s t) = b && sum_at ts s.
Proof. induction ts as [|t ts IH]; cbn; [now destruct b|]. rewrite IH. now destruct b, (s t), (sum_at ts s). Qed.
Lemma sum_at_false ts s : (forall t, In t ts -> s t = false) -> sum_at ts s = false.
Proof. induction ts as [|t ts IH]; cbn; intro H; [easy|]. now rewrite H, IH by auto. Qed.
Lemma sum_rows ts i : forall rows c o, length c = length rows -> (forall j r, nth_error rows j = Some r -> sum_at ts r = (o + j =? i)) ->
  sum_at ts (rows_sum c rows) = if o <=? i then nth (i - o) c false else false.
Proof.
  induction rows as [|r rows IH]; intros [|b c] o L H; try discriminate; cbn [rows_sum].
  - rewrite sum_at_false by easy. destruct (o <=? i), (i - o); reflexivity.
  - rewrite sum_at_plus, sum_at_scale. rewrite (H 0 r eq_refl). rewrite (IH c (S o)); [|now injection L|].
    + replace (o + 0) with o by lia. destruct (Nat.eqb_spec o i) as [->|Ne].
      * replace (S i <=? i) with false by (symmetry; apply Nat.leb_gt; lia). rewrite Nat.leb_refl, Nat.sub_diag. cbn. now destruct b.
      * rewrite andb_false_r. cbn [xorb]. destruct (Nat.leb_spec o i), (Nat.leb_spec (S o) i); try lia.
        replace (i - o) with (S (i - S o)) by lia. cbn [nth]. now destruct (nth (i - S o) c false).
    + intros j r' Hj. rewrite (H (S j) r' Hj). f_equal. lia.
Qed.
Lemma dual_solves m rows masks : length masks = length rows ->
  (forall i mask j r, nth_error masks i = Some mask -> nth_error rows j = Some r -> sum_at (places m mask) r = (j =? i)) ->
  forall c, length c = length rows -> existsb (fun b => b) c = true -> exists t, t < m /\ rows_sum c rows t = true.
Proof.
  intros Lm H c Lc Hc. apply existsb_exists in Hc as (b & Hb & Tb). destruct b; [|discriminate]. apply In_nth_error in Hb as (i & Hi).
  assert (Li : i < length masks) by (rewrite Lm, <- Lc; apply nth_error_Some; congruence). destruct (nth_error masks i) as [mask|] eqn:Em; [|apply nth_error_None in Em; lia].
  pose proof (@sum_rows (places m mask) i rows c 0 Lc ltac:(intros j r Hr; exact (H i mask j r Em Hr))) as S. cbn [Nat.leb] in S. rewrite Nat.sub_0_r, (nth_error_nth c i false Hi) in S.
  destruct (existsb (rows_sum c rows) (places m mask)) eqn:Ex.
  - apply existsb_exists in Ex as (t & Ht & E). exists t. split; [|exact E]. apply filter_In in Ht as (Ht & _). apply in_seq in Ht. lia.
  - rewrite sum_at_false in S; [discriminate|]. intros t Ht. destruct (rows_sum c rows t) eqn:E; [|easy].
    assert (existsb (rows_sum c rows) (places m mask) = true) by (apply existsb_exists; now exists t). congruence.
Qed.

(** The check of the table *)
Definition tops : list (list Z) := Eval vm_compute in map drow (seq 0 20).
Lemma tops_ok : map drow (seq 0 20) = tops.
Proof. vm_compute. reflexivity. Qed.
Definition row_list (a d : nat) : list (nat * nat) := concat (map (fun j => map (pair j) (seq 0 a)) (seq 0 d)).
Definition bit_at (jk : nat * nat) (t : nat) : bool := Z.testbit (nth t (nth (fst jk) tops []) 0%Z) (29 - Z.of_nat (snd jk)).
Definition dual_check (a d : nat) (masks : list Z) : bool :=
  Nat.eqb (length masks) (a * d) &&
  forallb (fun im => forallb (fun jr => Bool.eqb (sum_at (places (a * d) (snd im)) (bit_at (snd jr))) (Nat.eqb (fst jr) (fst im)))
                             (combine (seq 0 (a * d)) (row_list a d))) (combine (seq 0 (a * d)) masks).
Lemma halves_ok : forallb (fun d => dual_check 1 d (nth (d - 1) half_masks [])) (seq 1 20) = true.
Proof. vm_compute. reflexivity. Qed.
Lemma quarters_ok : forallb (fun d => dual_check 2 d (nth (d - 1) quarter_masks [])) (seq 1 6) = true.
Proof. vm_compute. reflexivity. Qed.
Lemma dual_ok a d masks : a <= 2 -> d <= 20 -> dual_check a d masks = true -> length masks = a * d /\
  forall i mask j jk, nth_error masks i = Some mask -> nth_error (row_list a d) j = Some jk -> sum_at (places (a * d) mask) (bit_at jk) = (j =? i).
Proof.
  intros Ha Hd H. apply andb_prop in H as (L & H). apply Nat.eqb_eq in L. split; [exact L|]. intros i mask j jk Hi Hj. rewrite forallb_forall in H.
  assert (N : forall A (l : list A) k x n, nth_error l k = Some x -> length l <= n -> In (k, x) (combine (seq 0 n) l)).
  { intros A l k x n. assert (G : forall (l : list A) s n k x, nth_error l k = Some x -> length l <= n -> In (s + k, x) (combine (seq s n) l)).
    { induction l0 as [|y l0 IH]; intros s n0 k0 x0 Q W; [now destruct k0|]. destruct n0 as [|n0]; [cbn in W; lia|]. cbn [seq combine]. destruct k0 as [|k0].
      - injection Q as ->. left. f_equal. lia.
      - right. replace (s + S k0) with (S s + k0) by lia. apply IH; [exact Q|cbn in W; lia]. }
    intros Q W. now apply (G l 0). }
  specialize (H (i, mask) (N _ masks i mask (a * d) Hi ltac:(lia))). cbn [fst snd] in H. rewrite forallb_forall in H.
  assert (LR : length (row_list a d) = a * d).
  { clear. unfold row_list. generalize 0 at 2. induction d as [|d IH]; intro s; [cbn; lia|]. cbn [seq map concat]. rewrite app_length, IH, map_length, seq_length. lia. }
  specialize (H (j, jk) (N _ (row_list a d) j jk (a * d) Hj ltac:(lia))). cbn [fst snd] in H. now apply eqb_prop in H.
Qed.
Definition grid (a : nat) (cells : list Z) : list box := map (fun jc => (fst jc, a, snd jc)) (combine (seq 0 (length cells)) cells).
Lemma grid_rows a cells : concat (map box_rows (grid a cells)) = map (fun jk => row (fst jk) (snd jk)) (row_list a (length cells)).
Proof.
  unfold grid, row_list. rewrite map_map. generalize 0 at 1 3. induction cells as [|c cells IH]; intro s; [reflexivity|]. cbn [length seq combine map concat]. rewrite map_app, IH. f_equal.
  unfold box_rows, bdim, blen. cbn [fst snd]. rewrite map_map. reflexivity.
Qed.
Lemma grid_lens a cells : list_sum (map blen (grid a cells)) = a * length cells.
Proof.
  unfold grid. generalize 0. induction cells as [|c cells IH]; intro s; [cbn; lia|]. cbn [length seq combine map]. change (list_sum (?x :: ?l)) with (x + list_sum l). rewrite IH. unfold blen. cbn [fst snd]. lia.
Qed.
Definition gridded (a d : nat) : Prop := (a = 1 /\ d <= 20) \/ (a = 2 /\ d <= 6).
Lemma grid_masks a d : gridded a d -> 0 < d -> exists masks, dual_check a d masks = true.
Proof.
  intros [(-> & H)|(-> & H)] H0; eexists.
  - pose proof halves_ok as Q. rewrite forallb_forall in Q. apply Q. apply in_seq. lia.
  - pose proof quarters_ok as Q. rewrite forallb_forall in Q. apply Q. apply in_seq. lia.
Qed.
Lemma row_top j k t : j < 20 -> k < 30 -> t < 30 -> row j k t = bit_at (j, k) t.
Proof.
  intros Hj Hk Ht. rewrite row_bit by lia. unfold bit_at. cbn [fst snd]. do 2 f_equal. rewrite <- tops_ok.
  assert (N : nth_error (map drow (seq 0 20)) j = Some (drow j)).
  { rewrite nth_error_map. replace (nth_error (seq 0 20) j) with (Some j); [reflexivity|]. clear -Hj. do 20 (destruct j as [|j]; [reflexivity|]). lia. }
  now rewrite (nth_error_nth _ _ [] N).
Qed.
Lemma grid_solvable a cells m : gridded a (length cells) -> a * length cells <= m -> m <= 30 -> solvable m (grid a cells).
Proof.
  intros G Hm Hm30 c Lc Hc. rewrite grid_lens in Lc. rewrite grid_rows. set (d := length cells) in *.
  assert (D0 : 0 < d) by (destruct d; [rewrite Nat.mul_0_r in Lc; destruct c; discriminate|lia]). destruct (grid_masks G D0) as (masks & Ck).
  assert (Bd : a <= 2 /\ d <= 20) by (destruct G as [[]|[]]; lia). destruct Bd as (Ba & Bd). destruct (@dual_ok a d masks Ba Bd Ck) as (Lm & Hd).
  assert (In_ : forall jk, In jk (row_list a d) -> fst jk < d /\ snd jk < a).
  { intros jk H. unfold row_list in H. apply in_concat in H as (l & Hl & Hjk). apply in_map_iff in Hl as (j & <- & Hj). apply in_map_iff in Hjk as (k & <- & Hk). apply in_seq in Hj, Hk. cbn. lia. }
  assert (Lr : length (row_list a d) = a * d).
  { clear. unfold row_list. generalize 0 at 2. induction d as [|d IH]; intro s; [cbn; lia|]. cbn [seq map concat]. rewrite app_length, IH, map_length, seq_length. lia. }
  destruct (@dual_solves (a * d) (map (fun jk => row (fst jk) (snd jk)) (row_list a d)) masks) with (c := c) as (t & Ht & Et).
  - rewrite map_length. lia.
  - intros i mask j r Hi Hj. rewrite nth_error_map in Hj. destruct (nth_error (row_list a d) j) as [jk|] eqn:Ej; [|discriminate]. injection Hj as <-.
    rewrite <- (Hd i mask j jk Hi Ej). apply sum_at_ext. intros t Ht. apply filter_In in Ht as (Ht & _). apply in_seq in Ht.
    destruct (In_ jk (nth_error_In _ _ Ej)). destruct jk as [j' k']. cbn [fst snd] in *. apply row_top; lia.
  - rewrite map_length. lia.
  - exact Hc.
  - exists t. split; [lia|exact Et].
Qed.

Section Cells.
  Context {RNG : Type} (G : rng_ops R RNG).
  Lemma c88_cells skip s total d n g s' h : sobol_history Rops G skip false s total -> (skip < 2 ^ 30)%Z -> 1 <= d <= 40 ->
    sobol_design Rops G s d n g = (s', Ok h) ->
    forall a m start (cells : list Z), start + 2 ^ m <= n -> (2 ^ Z.of_nat m | skip + Z.of_nat start)%Z ->
      length cells <= d -> Forall (fun c => 0 <= c < 2 ^ Z.of_nat a)%Z cells ->
      gridded a (length cells) -> a * length cells <= m ->
      many_in_stretch h start (2 ^ m) (fun row => forall j c, nth_error cells j = Some c -> exists v, nth_error row j = Some v /\ in_part (2 ^ Z.of_nat a) c v)
        (2 ^ (m - a * length cells)).
  Proof.
    intros H Hs Hd E a m start cells Hn Hdiv Lc Fc Hg Hm.
    assert (Q : forall b, In b (grid a cells) <-> exists j c, b = (j, a, c) /\ nth_error cells j = Some c).
    { intro b. unfold grid. rewrite in_map_iff. split.
      - intros ((j & c) & <- & Hj). exists j, c. split; [reflexivity|]. apply In_nth_error in Hj as (k & Hk).
        assert (Gn : forall (l : list Z) s0 k0 j0 c0, nth_error (combine (seq s0 (length l)) l) k0 = Some (j0, c0) -> j0 = s0 + k0 /\ nth_error l k0 = Some c0).
        { clear. induction l as [|x l IH]; intros s0 [|k0] j0 c0 W; cbn in W; try discriminate; [injection W as <- <-; split; [lia|easy]|]. apply IH in W as (-> & W). split; [lia|exact W]. }
        apply Gn in Hk as (-> & Hk). exact Hk.
      - intros (j & c & -> & Hj). exists (j, c). split; [reflexivity|].
        assert (Gn : forall (l : list Z) s0 k0 c0, nth_error l k0 = Some c0 -> In (s0 + k0, c0) (combine (seq s0 (length l)) l)).
        { clear. induction l as [|x l IH]; intros s0 [|k0] c0 W; cbn in W; try discriminate; cbn [length seq combine].
          - injection W as ->. left. f_equal. lia.
          - right. replace (s0 + S k0) with (S s0 + k0) by lia. now apply IH. }
        exact (Gn cells 0 j c Hj). }
    pose proof (@boxes_by RNG G skip s total d n g s' h H Hs Hd E m start (grid a cells) Hn Hdiv) as B. rewrite grid_lens in B.
    destruct B as (is & N & L & K).
    - apply Forall_forall. intros b Hb. apply Q in Hb as (j & c & -> & Hj). cbn [fst snd]. split.
      + assert (j < length cells) by (apply nth_error_Some; congruence). lia.
      + rewrite Forall_forall in Fc. apply Fc. now apply nth_error_In in Hj.
    - exact Hm.
    - intros Hm30 _. now apply grid_solvable.
    - exists is. split; [exact N|]. split; [rewrite L; f_equal; f_equal; apply grid_lens|]. intro i. rewrite K. split; intros (A & x & Ex & W); (split; [exact A|]; exists x; split; [exact Ex|]).
      + intros j c Hj. rewrite Forall_forall in W. apply (W (j, a, c)). apply Q. now exists j, c.
      + apply Forall_forall. intros b Hb. apply Q in Hb as (j & c & -> & Hj). cbn [fst snd]. now apply W.
  Qed.
End Cells.

(** 21 dimensions: a sum of coordinates' first bits that is always 0 *)
Lemma combine_by_ext {A B J} (f : J -> A -> bool) (f' : J -> B -> bool) x y : forall c l, (forall j, In j l -> f j x = f' j y) -> combine_by c (map f l) x = combine_by c (map f' l) y.
Proof. induction c as [|b c IH]; intros [|j l] H; cbn [map combine_by]; try easy. rewrite H, IH; [easy|intros; apply H; now right|now left]. Qed.
Lemma lin_none s x : (forall b, In b x -> b = false) -> forall t, lin s t x = false.
Proof. induction x as [|b x IH]; intros H t; cbn [lin]; [easy|]. rewrite IH by (intros; apply H; now right). now rewrite (H b (or_introl eq_refl)). Qed.
Lemma const_0 m j k : const m 0 j k = false.
Proof. unfold const. apply lin_none. intros b Hb. apply in_map_iff in Hb as (t & <- & _). cbn [Nat.mul]. rewrite gray_bit by lia. now rewrite !Z.bits_0. Qed.
Lemma never m c d : m <= 30 -> d <= 40 -> (forall t, t < m -> rows_sum c (map (fun j => row j 0) (seq 0 d)) t = false) ->
  forall n, In n (block m 0) -> combine_by c (map (fun j n => Z.testbit (qn (drow j) n) 29) (seq 0 d)) n = false.
Proof.
  intros Hm Hd H n Hn. rewrite (@combine_by_ext _ _ _ _ (fun j x => lin (row j 0) 0 x) n (gbits 0 m n)).
  - pose proof (rows_sum_lin c (map (fun j => row j 0) (seq 0 d)) (gbits 0 m n) 0) as E. rewrite map_map in E. etransitivity; [exact E|].
    assert (G : forall l t s, t + length l <= m -> (forall i, i < m -> s i = false) -> lin s t l = false).
    { clear. induction l as [|b l IH]; intros t s L H; cbn [lin]; [easy|]. cbn in L. rewrite (H t) by lia. rewrite IH by (try assumption; lia). now destruct b. }
    apply G; [|exact H]. unfold gbits. rewrite map_length, seq_length. lia.
  - intros j Hj. apply in_seq in Hj. pose proof (@block_bit m 0 Hm j 0 n ltac:(lia) ltac:(lia) Hn) as E. cbn [Z.of_nat] in E. rewrite Z.sub_0_r in E. rewrite E, const_0. now destruct (lin _ _ _).
Qed.
Definition dep21 : list bool := map (fun j => existsb (Nat.eqb j) [1; 2; 3; 8; 9; 10; 11; 13; 16; 17; 19; 20]) (seq 0 21).
Definition lost : list Z := (0 :: 1 :: repeat 0 19)%Z.
Definition tops21 : list (list Z) := Eval vm_compute in map drow (seq 0 21).
Lemma tops21_ok : map drow (seq 0 21) = tops21.
Proof. vm_compute. reflexivity. Qed.
Lemma dep21_check : forallb (fun t => negb (combine_by dep21 (map (fun l t => Z.testbit (nth t l 0%Z) 29) tops21) t)) (seq 0 21) = true.
Proof. vm_compute. reflexivity. Qed.
Lemma rows_sum_at t : forall c l, rows_sum c (map (fun j => row j 0) l) t = combine_by c (map (fun j t => row j 0 t) l) t.
Proof. induction c as [|b c IH]; intros [|j l]; cbn [map rows_sum combine_by]; try easy. unfold plus. now rewrite IH. Qed.
Lemma dep_zero c l t : t < 30 -> (forall j, In j l -> j < 40) -> combine_by c (map (fun l t => Z.testbit (nth t l 0%Z) 29) (map drow l)) t = false ->
  rows_sum c (map (fun j => row j 0) l) t = false.
Proof.
  intros Ht Hl C. rewrite map_map in C. etransitivity; [|exact C]. rewrite rows_sum_at. apply combine_by_ext. intros j Hj. rewrite row_bit by (try lia; now apply Hl).
  cbn [Z.of_nat]. now rewrite Z.sub_0_r.
Qed.
Lemma dep21_zero t : t < 21 -> rows_sum dep21 (map (fun j => row j 0) (seq 0 21)) t = false.
Proof.
  intros Ht. apply dep_zero; [lia|intros j Hj; apply in_seq in Hj; lia|]. rewrite tops21_ok. pose proof dep21_check as C. rewrite forallb_forall in C.
  apply negb_true_iff, C. apply in_seq. lia.
Qed.
Section Lost.
  Context {RNG : Type} (G : rng_ops R RNG).
  Lemma c88_lost m s total n g s' h : m = 21 -> sobol_history Rops G 0 false s total -> sobol_design Rops G s 21 n g = (s', Ok h) ->
    forall i row, i < 2 ^ m -> nth_error h i = Some row -> ~ forall j c, nth_error lost j = Some c -> exists v, nth_error row j = Some v /\ in_part 2 c v.
  Proof.
    intros Hm H E i row Hi Hrow W. destruct (@plain_design RNG G 0%Z s total 21 n g s' h H ltac:(lia) ltac:(lia) E) as (from & F0 & _ & ->). assert (from = 0) by lia. subst from.
    apply nth_quasi_rows in Hrow as (_ & ->). cbn [Nat.add] in W.
    assert (Nv := @never 21 dep21 21 ltac:(lia) ltac:(lia) dep21_zero i). rewrite (@combine_by_ext _ _ _ _ (fun j (_ : unit) => Z.odd (nth j lost 0%Z)) i tt) in Nv.
    - discriminate Nv. unfold block. apply in_seq. cbn [Nat.mul Nat.add]. split; [lia|rewrite Hm in Hi; exact Hi].
    - intros j Hj. apply in_seq in Hj.
      assert (Lj : nth_error lost j = Some (nth j lost 0%Z)) by (apply nth_error_nth'; cbn; lia).
      destruct (W j _ Lj) as (v & Ev & Pv). apply nth_quasi_row in Ev as (_ & ->). apply (@dyad_part 1) in Pv; [|lia].
      rewrite <- Pv. rewrite <- Z.bit0_odd, Z.div_pow2_bits by lia. reflexivity.
  Qed.
End Lost.
Lemma c88_refuted m : m = 21 -> forall RNG (G : rng_ops R RNG) g, exists s' h,
  sobol_design Rops G (sob0 0 false) 21 (2 ^ m) g = (s', Ok h) /\ length h = 2 ^ m /\ length lost = 21 /\ Forall (fun c => 0 <= c < 2)%Z lost /\
  forall row, In row h -> ~ forall j c, nth_error lost j = Some c -> exists v, nth_error row j = Some v /\ in_part 2 c v.
Proof.
  intros Hm RNG G g. assert (H : sobol_history Rops G 0 false (sob0 0 false) 0) by now constructor.
  destruct (history_settled H ltac:(lia)) as (k & K1 & K2 & K3 & K4 & K5). assert (k = 0) by lia. subst k.
  assert (D21 : dims_ok 21) by (unfold dims_ok; unfold dim_max; lia). destruct (@design_all _ _ Rops G 0 _ 21 (2 ^ m) g K3 D21 K2) as (s1 & D & _). unfold design_outcome, rows_outcome in D. rewrite K4 in D.
  destruct (Z.leb_spec (Z.of_nat (0 + 2 ^ m)) (2 ^ 30 - 1)) as [Le|Gt].
  2:{ exfalso. cbn [Nat.add] in Gt. rewrite pow2_nat, Hm in Gt. cbv in Gt. discriminate. }
  exists s1. eexists. split; [exact D|]. split; [unfold quasi_rows; now rewrite map_length, seq_length|]. split; [reflexivity|].
  split; [unfold lost; repeat constructor; lia|]. intros row Hr. apply In_nth_error in Hr as (i & Hi). apply (@c88_lost _ G m _ _ _ _ _ _ Hm H D i row); [|exact Hi].
  assert (i < length (quasi_rows Rops 21 0 (2 ^ m))) as L by (apply nth_error_Some; congruence). unfold quasi_rows in L. now rewrite map_length, seq_length in L.
Qed.
Lemma c88_halves m : m = 21 -> forall RNG (G : rng_ops R RNG) g, exists s' h cells,
  sobol_design Rops G (sob0 0 false) 21 (2 ^ m) g = (s', Ok h) /\ length h = 2 ^ m /\ length cells = 21 /\ Forall (fun c => 0 <= c < 2)%Z cells /\
  forall row, In row h -> ~ forall j c, nth_error cells j = Some c -> exists v, nth_error row j = Some v /\ in_part 2 c v.
Proof. intros Hm RNG G g. destruct (c88_refuted Hm G g) as (s' & h & A). exists s', h, lost. exact A. Qed.
Lemma c88_sample : exists s' h, sobol_history Rops GR 0 false (sob0 0 false) 0 /\ sobol_design Rops GR (sob0 0 false) 3 8 1 = (s', Ok h) /\
  0 + 2 ^ 3 <= 8 /\ (2 ^ Z.of_nat 3 | 0 + Z.of_nat 0)%Z /\ Forall (fun c => 0 <= c < 2 ^ Z.of_nat 1)%Z [1; 0; 1]%Z.
Proof.
  destruct c77_sample as (s' & h & A & B & _). exists s', h. split; [exact A|]. split; [exact B|]. split; [cbn; lia|]. split; [now exists 0%Z|]. repeat constructor; lia.
Qed.
