(** The direction numbers of the table as sequences; counting points in boxes. *)
From Coq Require Import List ZArith Bool Lia Permutation.
From Verif Require Import Base BaseLemmas Sobol SobolLemmas SobolNet.
Import ListNotations.
Open Scope list_scope.
Open Scope nat_scope.
Set Implicit Arguments.

(** ** A recurrence of direction numbers continued for ever *)
Section Stream.
  Context (p : list bool) (w0 : list Z).
  Fixpoint win_sum (p : list bool) (w : list Z) : Z :=
    match p, w with b :: p', v :: w' => Z.lxor (if b then v else 0%Z) (win_sum p' w') | _, _ => 0%Z end.
  Definition slide (w : list Z) : list Z := tl w ++ [Z.lxor (Z.shiftr (hd 0%Z w) (Z.of_nat (length p))) (win_sum p w)].
  Fixpoint window (t : nat) : list Z := match t with 0 => w0 | S t' => slide (window t') end.
  Definition dirv (t : nat) : Z := hd 0%Z (window t).
  Definition dbit (k t : nat) : bool := Z.testbit (dirv t) (29 - Z.of_nat k).
  Hypothesis Hw : length w0 = length p.
  Hypothesis Hp : 0 < length p.
  Hypothesis Hb : forall v i, In v w0 -> (30 <= i)%Z -> Z.testbit v i = false.

  Lemma window_length t : length (window t) = length p.
  Proof. induction t as [|t IH]; cbn [window]; [exact Hw|]. unfold slide. rewrite app_length. destruct (window t); cbn in *; lia. Qed.
  Lemma window_nth l : forall t, l < length p -> nth l (window t) 0%Z = dirv (t + l).
  Proof.
    induction l as [|l IH]; intros t Hl.
    - rewrite Nat.add_0_r. unfold dirv. pose proof (window_length t). destruct (window t); [cbn in *; lia|reflexivity].
    - replace (t + S l) with (S t + l) by lia. rewrite <- IH by lia. cbn [window]. unfold slide. pose proof (window_length t) as L.
      destruct (window t) as [|v w]; cbn in L; [lia|]. cbn [tl nth]. rewrite app_nth1; [reflexivity|lia].
  Qed.
  Lemma win_sum_act i q : forall w t, length w = length q -> (forall l, l < length q -> nth l w 0%Z = dirv (t + l)) ->
    act q (fun t => Z.testbit (dirv t) i) t = Z.testbit (win_sum q w) i.
  Proof.
    induction q as [|b q IH]; intros [|v w] t L H; try easy; cbn [act win_sum]; [now rewrite Z.bits_0|].
    rewrite Z.lxor_spec. rewrite (IH w); [|now injection L|intros l Hl; replace (S t + l) with (t + S l) by lia; rewrite <- H by (cbn; lia); reflexivity].
    f_equal. specialize (H 0 ltac:(cbn; lia)). rewrite Nat.add_0_r in H. cbn in H. subst v. destruct b; [reflexivity|now rewrite Z.bits_0].
  Qed.
  Lemma window_high t : forall v i, In v (window t) -> (30 <= i)%Z -> Z.testbit v i = false.
  Proof.
    induction t as [|t IH]; cbn [window]; [exact Hb|]. intros v i Hv Hi. unfold slide in Hv. apply in_app_or in Hv. destruct Hv as [Hv|[<-|[]]].
    - destruct (window t); [easy|]. apply IH; [now right|easy].
    - assert (S : forall q w, (forall v, In v w -> Z.testbit v i = false) -> Z.testbit (win_sum q w) i = false).
      { induction q as [|b q IHq]; intros [|u w] H; cbn [win_sum]; try apply Z.bits_0. rewrite Z.lxor_spec, IHq by (intros; apply H; now right).
        destruct b; [now rewrite (H u) by now left|now rewrite Z.bits_0]. }
      rewrite Z.lxor_spec, S by (intros; now apply IH). rewrite Z.shiftr_spec by lia. rewrite xorb_false_r.
      destruct (window t) as [|u w]; cbn [hd]; [apply Z.bits_0|]. apply IH; [now left|lia].
  Qed.
  (** The polynomial moves the bits by its degree. *)
  Lemma dbit_act k t : k < 30 -> act (p ++ [true]) (dbit k) t = if k <? length p then false else dbit (k - length p) t.
  Proof.
    intro Hk. rewrite act_app. change (dbit k) with (fun t => Z.testbit (dirv t) (29 - Z.of_nat k)).
    rewrite (@win_sum_act _ p (window t)) by (try apply window_length; intros l Hl; now apply window_nth).
    cbn [act]. rewrite xorb_false_r, andb_true_l.
    assert (E : dirv (t + length p) = Z.lxor (Z.shiftr (dirv t) (Z.of_nat (length p))) (win_sum p (window t))).
    { replace (t + length p) with (S t + (length p - 1)) by lia. rewrite <- window_nth by lia. cbn [window]. unfold slide.
      pose proof (window_length t) as L. rewrite app_nth2; destruct (window t) as [|v w] eqn:Ew; cbn [tl length] in *; try lia.
      replace (length p - 1 - length w) with 0 by lia. cbn [nth]. unfold dirv. now rewrite Ew. }
    rewrite E, Z.lxor_spec, Z.shiftr_spec by lia. rewrite (xorb_comm (Z.testbit (Z.shiftr _ _) _)) || idtac.
    set (a := Z.testbit (win_sum p (window t)) (29 - Z.of_nat k)). replace (xorb a (xorb (Z.testbit (dirv t) (29 - Z.of_nat k + Z.of_nat (length p))) a))
      with (Z.testbit (dirv t) (29 - Z.of_nat k + Z.of_nat (length p))) by (destruct a, (Z.testbit (dirv t) (29 - Z.of_nat k + Z.of_nat (length p))); reflexivity).
    destruct (Nat.ltb_spec k (length p)) as [Lt|Ge].
    - unfold dirv. pose proof (window_length t) as L. destruct (window t) as [|v w] eqn:Ew; cbn [hd]; [apply Z.bits_0|].
      apply (window_high t); [rewrite Ew; now left|lia].
    - unfold dbit. f_equal. lia.
  Qed.
  Lemma dbit_killed n : forall k, k < 30 -> k < n * length p -> killed (p ++ [true]) n (dbit k).
  Proof.
    unfold killed. induction n as [|n IH]; intros k Hk Hn; [lia|]. cbn [repeat acts]. intro t.
    destruct (Nat.ltb_spec k (length p)) as [Lt|Ge].
    - apply acts_null. intro t'. rewrite dbit_act by lia. now rewrite (proj2 (Nat.ltb_lt _ _) Lt).
    - rewrite (@acts_ext _ _ (dbit (k - length p))); [apply IH; cbn in Hn; lia|]. intro t'. rewrite dbit_act by lia.
      now rewrite (proj2 (Nat.ltb_ge _ _) Ge).
  Qed.
End Stream.

(** ** The table *)
Definition coefs (j : nat) : list bool :=
  if Nat.eqb j 0 then [false]
  else let p := nth j poly 0%Z in map (fun l => Z.testbit p (Z.of_nat l)) (seq 0 (Z.to_nat (Z.log2 p))).
Definition pol (j : nat) : list bool := coefs j ++ [true].
Definition start (j : nat) : list Z := firstn (length (coefs j)) (drow j).
Definition degree (j : nat) : nat := nth j [1; 1; 2; 3; 3; 4; 4; 5; 5; 5; 5; 5; 5; 6; 6; 6; 6; 6; 6; 7; 7; 7; 7; 7; 7; 7; 7; 7; 7; 7; 7; 7; 7; 7; 7; 7; 7; 8; 8; 8] 0.
Definition same_zs (a b : list Z) : bool := if list_eq_dec Z.eq_dec a b then true else false.
Definition stream_check (j : nat) : bool :=
  same_zs (map (dirv (coefs j) (start j)) (seq 0 30)) (drow j) && Nat.eqb (length (coefs j)) (degree j) &&
  Nat.eqb (length (start j)) (degree j) && (0 <? degree j).
Lemma table_stream : forallb stream_check (seq 0 40) = true.
Proof. vm_compute. reflexivity. Qed.
Fixpoint euclid (fuel : nat) (a b : Z) : Z * Z :=
  match fuel with
  | 0 => (0, 0)%Z
  | S fuel' =>
    if (b =? 0)%Z then (1, 0)%Z
    else if (Z.log2 a <? Z.log2 b)%Z || (a =? 0)%Z then let '(x, y) := euclid fuel' b a in (y, x)
    else let k := (Z.log2 a - Z.log2 b)%Z in
         let '(x, y) := euclid fuel' (Z.lxor a (Z.shiftl b k)) b in (x, Z.lxor y (Z.shiftl x k))
  end.
Definition to_z (p : list bool) : Z := fold_right (fun b z => Z.b2z b + 2 * z)%Z 0%Z p.
Definition of_z (z : Z) : list bool := map (fun l => Z.testbit z (Z.of_nat l)) (seq 0 12).
Definition coprime_check (p q : list bool) : bool :=
  let '(x, y) := euclid 64 (to_z p) (to_z q) in is_one (padd (pmul (of_z x) p) (pmul (of_z y) q)).
Lemma coprime_check_ok p q : coprime_check p q = true -> coprime p q.
Proof. unfold coprime_check. destruct (euclid 64 (to_z p) (to_z q)) as [x y]. apply bezout. Qed.
Definition table_check (n : nat) : bool := forallb (fun i => forallb (fun j => Nat.eqb i j || coprime_check (pol i) (pol j)) (seq 0 n)) (seq 0 n).
Lemma table_check_ok n i j : table_check n = true -> i < n -> j < n -> i <> j -> coprime (pol i) (pol j).
Proof.
  unfold table_check. intros T Hi Hj N. rewrite forallb_forall in T. specialize (T i ltac:(apply in_seq; lia)). rewrite forallb_forall in T.
  specialize (T j ltac:(apply in_seq; lia)). apply orb_true_iff in T. destruct T as [T|T]; [apply Nat.eqb_eq in T; easy|]. now apply coprime_check_ok.
Qed.
Lemma table_coprime : table_check 40 = true.
Proof. vm_compute. reflexivity. Qed.
Lemma pol_coprime i j : i < 40 -> j < 40 -> i <> j -> coprime (pol i) (pol j).
Proof. exact (@table_check_ok 40 i j table_coprime). Qed.
Lemma stream_check_ok j : stream_check j = true -> length (coefs j) = degree j /\ length (start j) = degree j /\ 0 < degree j /\
  forall t, t < 30 -> dirv (coefs j) (start j) t = nth t (drow j) 0%Z.
Proof.
  intro T. unfold stream_check in T.
  rewrite !andb_true_iff in T. destruct T as [[[T1 T2] T3] T4]. apply Nat.eqb_eq in T2, T3. apply Nat.ltb_lt in T4. repeat (split; [assumption|]).
  intros t Ht. unfold same_zs in T1. destruct (list_eq_dec Z.eq_dec _ _) as [E|]; [|easy]. rewrite <- E.
  rewrite (nth_indep _ _ (dirv (coefs j) (start j) 0)) by now rewrite map_length, seq_length.
  rewrite map_nth. now rewrite seq_nth.
Qed.
Lemma stream_facts j : j < 40 -> length (coefs j) = degree j /\ length (start j) = degree j /\ 0 < degree j /\
  forall t, t < 30 -> dirv (coefs j) (start j) t = nth t (drow j) 0%Z.
Proof. intro Hj. apply stream_check_ok. exact (proj1 (forallb_forall _ _) table_stream j (proj2 (in_seq 40 0 j) (conj (Nat.le_0_l j) Hj))). Qed.
Lemma start_in j v : In v (start j) -> In v (drow j).
Proof. unfold start. intro Hv. rewrite <- (firstn_skipn (length (coefs j)) (drow j)). apply in_or_app. now left. Qed.
Opaque coefs start drow degree.
Definition row (j k : nat) : nat -> bool := dbit (coefs j) (start j) k.
Lemma row_bit j k t : j < 40 -> k < 30 -> t < 30 -> row j k t = Z.testbit (nth t (drow j) 0%Z) (29 - Z.of_nat k).
Proof. intros Hj Hk Ht. unfold row, dbit. now rewrite (proj2 (proj2 (proj2 (stream_facts Hj)))). Qed.
Lemma row_killed j k n : j < 40 -> k < 30 -> k < n * degree j -> killed (pol j) n (row j k).
Proof.
  intros Hj Hk Hn. destruct (stream_facts Hj) as (L1 & L2 & L3 & _). refine (@dbit_killed (coefs j) (start j) _ _ _ n k _ _); try (rewrite ?L1; lia). intros v i Hv Hi.
  pose proof (start_in _ _ Hv) as I. apply In_nth_error in I. destruct I as [l E]. apply (dir_bits (drow_directions (i := j) ltac:(unfold dim_max; lia)) l E); lia.
Qed.
Lemma row_diag j k t : j < 40 -> k < 30 -> t <= k -> row j k t = (t =? k).
Proof.
  intros Hj Hk Ht. rewrite row_bit by lia. assert (D := drow_directions (i := j) ltac:(unfold dim_max; lia)).
  assert (E : nth_error (drow j) t = Some (nth t (drow j) 0%Z)) by (apply nth_error_nth'; rewrite (proj1 D); unfold maxcol; lia).
  destruct (dir_bits D t E (i := (29 - Z.of_nat k)%Z) ltac:(lia)) as (F & T & _). destruct (Nat.eqb_spec t k) as [->|N]; [apply T; lia|apply F; lia].
Qed.

(** ** Independence *)
(** A choice of bits of dimension [j]: its first [length c] bits weighted by [c]. *)
Fixpoint weigh (j k : nat) (c : list bool) : nat -> bool :=
  match c with [] => fun _ => false | b :: c' => plus (fun t => b && row j k t) (weigh j (S k) c') end.
Lemma killed_plus p n s s' : killed p n s -> killed p n s' -> killed p n (plus s s').
Proof. intros H H' t. rewrite acts_plus. now rewrite (H t), (H' t). Qed.
Lemma killed_scale p n b s : killed p n s -> killed p n (fun t => b && s t).
Proof. intros H. destruct b; [exact H|]. apply acts_null. now intro. Qed.
Lemma weigh_killed j n c : j < 40 -> forall k, k + length c <= 30 -> k + length c <= n * degree j -> killed (pol j) n (weigh j k c).
Proof.
  intro Hj. induction c as [|b c IH]; intros k H1 H2; cbn [weigh length] in *; [apply acts_null; now intro|].
  apply killed_plus; [|apply IH; lia]. apply killed_scale, row_killed; lia.
Qed.
Lemma weigh_zero j c : j < 40 -> forall k t, k + length c <= 30 -> t < k -> weigh j k c t = false.
Proof.
  intro Hj. induction c as [|b c IH]; intros k t H1 H2; cbn [weigh length] in *; [easy|]. unfold plus. rewrite row_diag by lia.
  rewrite (proj2 (Nat.eqb_neq t k)) by lia. rewrite IH by lia. now destruct b.
Qed.
Lemma weigh_null j c : j < 40 -> forall k, k + length c <= 30 -> null (weigh j k c) -> existsb (fun b => b) c = false.
Proof.
  intro Hj. induction c as [|b c IH]; intros k H1 H; [easy|]. cbn [weigh length existsb] in *.
  assert (Hb : b = false).
  { specialize (H k). unfold plus in H. rewrite row_diag in H by lia. rewrite Nat.eqb_refl, andb_true_r in H.
    rewrite (weigh_zero _ Hj) in H by lia. now destruct b. }
  subst b. apply (IH (S k)); [lia|]. intro t. specialize (H t). unfold plus in H. now rewrite andb_false_l, xorb_false_l in H.
Qed.
Definition need (j a : nat) : nat := a + (degree j - 1).
Definition copies (j a : nat) : nat := (a + degree j - 1) / degree j.
Lemma copies_ok j a : j < 40 -> a <= copies j a * degree j <= need j a.
Proof.
  intro Hj. destruct (stream_facts Hj) as (_ & _ & L & _). unfold copies, need. pose proof (Nat.div_mod (a + degree j - 1) (degree j) ltac:(lia)) as D.
  pose proof (Nat.mod_upper_bound (a + degree j - 1) (degree j) ltac:(lia)) as M. nia.
Qed.
Fixpoint weigh_all (js : list nat) (cs : list (list bool)) : list (nat -> bool) :=
  match js, cs with j :: js', c :: cs' => weigh j 0 c :: weigh_all js' cs' | _, _ => [] end.
Lemma list_sum_in (l : list nat) x : In x l -> x <= list_sum l.
Proof. induction l as [|y l IH]; cbn; [easy|]. intros [->|H]; [lia|]. specialize (IH H). unfold list_sum in IH. lia. Qed.
Lemma independent js cs M : NoDup js -> Forall (fun j => j < 40) js -> length cs = length js ->
  list_sum (map (fun jc => need (fst jc) (length (snd jc))) (combine js cs)) <= M -> M <= 30 ->
  (forall t, t < M -> total (weigh_all js cs) t = false) -> Forall (fun c => existsb (fun b => b) c = false) cs.
Proof.
  intros Nd Hj L HM H30 H0.
  set (ns := map (fun jc => copies (fst jc) (length (snd jc))) (combine js cs)).
  assert (Hc : Forall (fun jc => fst jc < 40 /\ length (snd jc) <= 30) (combine js cs)).
  { apply Forall_forall. intros [j c] H. split; [rewrite Forall_forall in Hj; apply Hj; eapply in_combine_l, H|].
    pose proof (@list_sum_in _ _ (in_map (fun jc => need (fst jc) (length (snd jc))) _ _ H)) as Q. cbn [fst snd] in Q |- *.
    assert (length c <= need j (length c)) by (unfold need; lia). cbn [fst snd] in HM. lia. }
  assert (KA : killed_all (map pol js) ns (weigh_all js cs)).
  { clear -L Hc. revert cs L ns Hc. induction js as [|j js IH]; intros [|c cs] L ns Hc; try easy; subst ns; cbn; [constructor|].
    inversion Hc as [|? ? [H1 H2] H3]; subst. cbn [fst snd] in *. constructor; [|apply IH; [now injection L|exact H3]].
    apply weigh_killed; [exact H1|lia|]. apply copies_ok. exact H1. }
  assert (CP : ForallOrdPairs coprime (map pol js)).
  { clear -Nd Hj. induction js as [|j js IH]; cbn; [constructor|]. inversion Nd; inversion Hj; subst. constructor; [|auto].
    apply Forall_forall. intros q Hq. apply in_map_iff in Hq. destruct Hq as (i & <- & Hi).
    apply pol_coprime; [easy|rewrite Forall_forall in *; auto|intros ->; easy]. }
  assert (Z : null (total (weigh_all js cs))).
  { assert (MN : exists ds, Forall2 monic (powers (map pol js) ns) ds /\ list_sum ds <= M).
    { cut (exists ds, Forall2 monic (powers (map pol js) ns) ds /\ list_sum ds <= list_sum (map (fun jc => need (fst jc) (length (snd jc))) (combine js cs)));
        [intros (ds & D1 & D2); exists ds; split; [exact D1|lia]|].
      clear -L Hc. subst ns. revert cs L Hc. induction js as [|j js IH]; intros [|c cs] L Hc; try easy; [exists []; split; [constructor|cbn; lia]|].
      inversion Hc as [|? ? [H1 H2] H3]; subst. destruct (IH cs ltac:(now injection L) H3) as (ds & D1 & D2).
      exists (repeat (degree j) (copies j (length c)) ++ ds). cbn [fst snd] in *. split.
      - unfold powers. cbn [map combine concat fst snd]. apply Forall2_app; [|exact D1]. destruct (stream_facts H1) as (L1 & _).
        clear -L1. induction (copies j (length c)); cbn; [constructor|]. constructor; [|easy]. exists (coefs j). auto.
      - rewrite list_sum_app. cbn [combine map list_sum fold_right fst snd]. fold (list_sum (map (fun jc => need (fst jc) (length (snd jc))) (combine js cs))).
        assert (R : forall d n, list_sum (repeat d n) = n * d) by (clear; intro d; induction n as [|n IHn]; [reflexivity|]; cbn; unfold list_sum in IHn; rewrite IHn; lia).
        rewrite R. pose proof (copies_ok (length c) H1). lia. }
    destruct MN as (ds & D1 & D2). eapply acts_monic; [exact D1|apply powers_kill; exact KA|exact D2|exact H0]. }
  pose proof (separate KA CP Z) as S. clear -S L Hc Hj. revert cs L S Hc. induction js as [|j js IH]; intros [|c cs] L S Hc; try easy.
  cbn in S. inversion S as [|? ? S1 S2]; subst. inversion Hj as [|? ? J1 J2]; subst. inversion Hc as [|? ? [H1 H2] H3]; subst.
  constructor; [|apply IH; auto]. cbn [snd] in H2. apply (@weigh_null j c J1 0); [lia|exact S1].
Qed.
