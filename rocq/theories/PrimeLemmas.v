(** The sieve and the number of primes. *)
From Coq Require Import String List ZArith Bool Lia Arith Sorting.Sorted.
From Verif Require Import Base BaseLemmas Sampler SamplerSpec.
Import ListNotations.
Open Scope nat_scope.
Open Scope list_scope.
Set Implicit Arguments.

(** ** Lists *)
Lemma set_nth_some {A} : forall (l : list A) i v, i < length l -> exists l', set_nth l i v = Some l'.
Proof.
  induction l as [|x l IH]; intros i v H; [simpl in H; lia|]. destruct i as [|i]; cbn [set_nth]; [eauto|].
  destruct (IH i v) as (l' & ->); [simpl in H; lia|]. eauto.
Qed.
Lemma set_nth_spec {A} : forall (l : list A) i v l', set_nth l i v = Some l' ->
  length l' = length l /\ forall j, nth_error l' j = if Nat.eqb j i then Some v else nth_error l j.
Proof.
  induction l as [|x l IH]; intros i v l' H; destruct i as [|i]; cbn [set_nth] in H; try discriminate H.
  - injection H as <-. split; [reflexivity|]. intros [|j]; reflexivity.
  - destruct (set_nth l i v) as [l2|] eqn:E; [|discriminate H]. injection H as <-.
    apply IH in E. destruct E as [E1 E2]. split; [simpl; now rewrite E1|]. intros [|j]; [reflexivity|]. apply E2.
Qed.

Definition reached (idy c i : nat) : Prop := exists m, i = idy + m * c.
Lemma strike_spec c half : 0 < c -> forall fuel l idy, length l = half -> half <= fuel + idy ->
  exists l', strike fuel l idy half c = Ok l' /\ length l' = half /\
    forall i, i < half -> (reached idy c i -> nth_error l' i = Some 0) /\
                          (~ reached idy c i -> nth_error l' i = nth_error l i).
Proof.
  intro Hc. induction fuel as [|fuel IH]; intros l idy Hl Hf; cbn [strike].
  - destruct (Nat.ltb_spec idy half); [lia|]. exists l. split; [reflexivity|]. split; [exact Hl|].
    intros i Hi. split; [intros [m ->]; lia|reflexivity].
  - destruct (Nat.ltb_spec idy half) as [H|H].
    + destruct (@set_nth_some _ l idy 0) as (l1 & E1); [lia|]. rewrite E1.
      apply set_nth_spec in E1. destruct E1 as [L1 N1].
      destruct (IH l1 (idy + c)) as (l2 & E2 & L2 & N2); [lia|lia|].
      exists l2. split; [exact E2|]. split; [exact L2|]. intros i Hi. destruct (N2 i Hi) as [A B]. split.
      * intros [m ->]. destruct m as [|m].
        -- simpl. rewrite Nat.add_0_r. rewrite Nat.add_0_r in *.
           destruct (Nat.eq_dec 0 0) as [_|]; [|lia].
           destruct (N2 idy Hi) as [_ B']. rewrite B'; [rewrite N1, Nat.eqb_refl; reflexivity|].
           intros [m E]. lia.
        -- apply A. exists m. simpl. lia.
      * intro Hn. rewrite B.
        -- rewrite N1. destruct (Nat.eqb_spec i idy) as [->|]; [|reflexivity]. exfalso; apply Hn. exists 0. lia.
        -- intros [m ->]. apply Hn. exists (S m). simpl. lia.
    + exists l. split; [reflexivity|]. split; [exact Hl|]. intros i Hi. split; [intros [m ->]; lia|reflexivity].
Qed.

(** ** The sieve *)
Definition struck (c i : nat) : Prop := exists d, 3 <= d < c /\ d * d <= 2 * i + 3 /\ Nat.divide d (2 * i + 3).
Definition sieved (c half : nat) (l : list nat) : Prop :=
  length l = half /\ forall i, i < half ->
    (struck c i -> nth_error l i = Some 0) /\ (~ struck c i -> nth_error l i = Some (2 * i + 3)).

Lemma reached_iff c i : Nat.divide 2 (c + 1) -> 3 <= c ->
  (reached ((c * c - 3) / 2) c i <-> c * c <= 2 * i + 3 /\ Nat.divide c (2 * i + 3)).
Proof.
  intros [h Hh] Hc. assert (E : exists r, c = 2 * r + 3).
  { exists (h - 2). lia. }
  destruct E as [r ->]. set (c := 2 * r + 3) in *.
  assert (Q : c * c - 3 = (2 * (r * r) + 6 * r + 3) * 2) by (unfold c; nia).
  rewrite Q, Nat.div_mul by lia. unfold reached. split.
  - intros [m ->]. split; [unfold c; nia|]. exists (c + 2 * m). unfold c. nia.
  - intros [H1 [q Hq]]. assert (c <= q) by nia.
    assert (X : exists m, q = c + 2 * m).
    { exists ((q - c) / 2). assert (P : (q - c) mod 2 = 0).
      { destruct (Nat.Even_or_Odd q) as [[w Hw]|[w Hw]].
        - exfalso. unfold c in Hq. nia.
        - replace (q - c) with ((w - r - 1) * 2) by (unfold c in *; lia). apply Nat.mod_mul. lia. }
      pose proof (Nat.div_mod (q - c) 2 ltac:(lia)). lia. }
    destruct X as [m ->]. exists m. unfold c in *. nia.
Qed.

Lemma struck_step c i : Nat.divide 2 (c + 1) -> 3 <= c ->
  (struck (c + 2) i <-> struck c i \/ (c * c <= 2 * i + 3 /\ Nat.divide c (2 * i + 3))).
Proof.
  intros [h Hh] Hc. split.
  - intros (d & Hd & Hs & Hv). destruct (Nat.eq_dec d (c + 1)) as [->|H1].
    + destruct Hv as [q Hq]. exfalso. rewrite Hh in Hq. lia.
    + destruct (Nat.eq_dec d c) as [->|H2]; [now right|]. left. exists d. repeat split; try assumption; lia.
  - intros [(d & Hd & Hs & Hv)|[H1 H2]]; [exists d; repeat split; try assumption; lia|].
    exists c. repeat split; try assumption; lia.
Qed.

Lemma struck_dec c i : struck c i \/ ~ struck c i.
Proof.
  unfold struck. induction c as [|c IH]; [right; intros (d & H & _); lia|].
  destruct IH as [(d & H)|IH]; [left; exists d; intuition lia|].
  destruct (le_lt_dec 3 c) as [H3|H3]; [|right; intros (d & H & _); lia].
  destruct (le_lt_dec (c * c) (2 * i + 3)) as [Hs|Hs];
    [destruct (Nat.eq_dec ((2 * i + 3) mod c) 0) as [Hm|Hm]|].
  - left. exists c. repeat split; try lia. apply Nat.mod_divide; lia.
  - right. intros (d & Hd & Hs' & Hv). destruct (Nat.eq_dec d c) as [->|].
    + apply Nat.mod_divide in Hv; lia.
    + apply IH. exists d. repeat split; try assumption; lia.
  - right. intros (d & Hd & Hs' & Hv). destruct (Nat.eq_dec d c) as [->|]; [lia|].
    apply IH. exists d. repeat split; try assumption; lia.
Qed.

Lemma sieve_spec t half : half = (t - 1) / 2 -> 3 <= t -> forall fuel idx l,
  t <= fuel + idx -> sieved (2 * idx + 3) half l ->
  exists c l', sieve fuel t half l idx (2 * idx + 3) = Ok l' /\ sieved c half l' /\ t < c * c.
Proof.
  intros Hhalf Ht. pose proof (Nat.div_mod (t - 1) 2 ltac:(lia)) as Dm.
  pose proof (Nat.mod_upper_bound (t - 1) 2 ltac:(lia)) as Bm.
  induction fuel as [|fuel IH]; intros idx l Hf [Hl Hs]; cbn [sieve].
  - destruct (Nat.leb_spec ((2 * idx + 3) * (2 * idx + 3)) t) as [H|H]; [nia|]. exists (2 * idx + 3), l.
    repeat split; try assumption; now apply Hs.
  - destruct (Nat.leb_spec ((2 * idx + 3) * (2 * idx + 3)) t) as [H|H].
    2: { exists (2 * idx + 3), l. repeat split; try assumption; now apply Hs. }
    set (c := 2 * idx + 3) in *. assert (Hc : 3 <= c) by (unfold c; lia).
    assert (Hodd : Nat.divide 2 (c + 1)) by (exists (idx + 2); unfold c; lia).
    assert (Hidx : idx < half) by (unfold c in *; nia).
    assert (Hnext : 2 * S idx + 3 = c + 2) by (unfold c; lia).
    assert (Hidy : (c * c - 3) / 2 < half).
    { apply Nat.div_lt_upper_bound; [lia|]. nia. }
    destruct (Hs idx Hidx) as [Z0 NZ].
    assert (Hsq : c <= c * c) by nia.
    destruct (struck_dec c idx) as [St|St].
    + rewrite (Z0 St). cbn [Nat.eqb bind]. rewrite Hnext, <- Hnext. apply IH; [lia|].
      rewrite Hnext. split; [exact Hl|]. intros i Hi. destruct (Hs i Hi) as [A B].
      assert (EQ : struck (c + 2) i <-> struck c i).
      { rewrite struck_step by assumption. split; [|tauto]. intros [X|[X1 X2]]; [exact X|].
        destruct St as (d & Hd & Hds & Hv). fold c in Hds, Hv. exists d. repeat split; try lia.
        eapply Nat.divide_trans; eassumption. }
      rewrite EQ. now split.
    + rewrite (NZ St). fold c. replace (Nat.eqb c 0) with false by (symmetry; apply Nat.eqb_neq; lia).
      destruct (@set_nth_some _ l ((c * c - 3) / 2) 0) as (l1 & E1); [lia|]. rewrite E1.
      apply set_nth_spec in E1. destruct E1 as [L1 N1].
      destruct (@strike_spec c half ltac:(lia) half l1 ((c * c - 3) / 2)) as (l2 & E2 & L2 & N2); [lia|lia|].
      rewrite E2. cbn [bind]. rewrite Hnext, <- Hnext. apply IH; [lia|].
      rewrite Hnext. split; [exact L2|]. intros i Hi. destruct (Hs i Hi) as [A B]. destruct (N2 i Hi) as [C D].
      assert (R : reached ((c * c - 3) / 2) c i \/ ~ reached ((c * c - 3) / 2) c i).
      { rewrite reached_iff by assumption. destruct (le_lt_dec (c * c) (2 * i + 3)); [|right; lia].
        destruct (Nat.eq_dec ((2 * i + 3) mod c) 0) as [Hm|Hm]; [left|right].
        - split; [assumption|]. apply Nat.mod_divide; lia.
        - intros [_ Hv]. apply Nat.mod_divide in Hv; lia. }
      split.
      * intro X. apply struck_step in X; try assumption. destruct X as [X|X].
        -- destruct R as [R|R]; [now apply C|]. rewrite (D R), N1.
           destruct (Nat.eqb i ((c * c - 3) / 2)); [reflexivity|]. now apply A.
        -- apply C. now apply reached_iff.
      * intro X. rewrite struck_step in X by assumption.
        assert (R' : ~ reached ((c * c - 3) / 2) c i) by (rewrite reached_iff by assumption; tauto).
        rewrite (D R'), N1. destruct (Nat.eqb_spec i ((c * c - 3) / 2)) as [->|_].
        -- exfalso. apply R'. exists 0. lia.
        -- apply B. tauto.
Qed.

(** ** Primes *)
Lemma is_prime_odd i c : 2 * i + 3 < c * c -> (is_prime (2 * i + 3) <-> ~ struck c i).
Proof.
  intro Hc. split.
  - intros [_ Hp] (d & Hd & Hs & Hv). destruct (Hp d Hv); nia.
  - intro Hn. split; [lia|]. intros d [q Hq].
    destruct (Nat.eq_dec d 1) as [->|H1]; [now left|]. right.
    destruct (Nat.eq_dec q 1) as [->|H2]; [lia|]. exfalso.
    assert (d <> 0 /\ q <> 0) as [] by (split; intros ->; lia).
    assert (d <> 2) by (intros ->; lia). assert (q <> 2) by (intros ->; lia).
    apply Hn. destruct (le_lt_dec d q).
    + exists d. repeat split; [lia|nia|nia|]. exists q. exact Hq.
    + exists q. repeat split; [lia|nia|nia|]. exists d. lia.
Qed.

Lemma is_prime_even i : is_prime (2 * i) -> i = 1.
Proof. intros [_ H]. destruct (H 2) as [E|E]; [exists i; lia|lia|lia]. Qed.
Lemma is_prime_2 : is_prime 2.
Proof. split; [lia|]. intros d [q H]. destruct d as [|[|[|d]]]; [lia|now left|now right|]. exfalso. destruct q; nia. Qed.

Lemma StronglySorted_map_filter (f : nat -> nat) (p : nat -> bool) : (forall i j, i < j -> f i < f j) ->
  forall n s, StronglySorted lt (map f (filter p (seq s n))) /\ Forall (fun x => f s <= x) (map f (filter p (seq s n))).
Proof.
  intros Hf. induction n as [|n IH]; intro s; [simpl; split; constructor|].
  destruct (IH (S s)) as [I1 I2]. cbn [seq filter].
  assert (I3 : Forall (fun x => f s < x) (map f (filter p (seq (S s) n)))).
  { eapply Forall_impl; [|exact I2]. intros a Ha. cbn in Ha. specialize (Hf s (S s)). lia. }
  destruct (p s).
  - cbn [map]. split; [constructor; assumption|]. constructor; [lia|].
    eapply Forall_impl; [|exact I3]. intros a Ha; cbn in Ha; lia.
  - split; [assumption|]. eapply Forall_impl; [|exact I3]. intros a Ha; cbn in Ha; lia.
Qed.

Lemma create_primes_spec t : exists ps, create_primes t = Ok ps /\
  (forall n, In n ps <-> is_prime n /\ n <= t) /\ StronglySorted lt ps.
Proof.
  unfold create_primes. destruct (Nat.eqb_spec t 2) as [->|H2].
  { exists [2]. split; [reflexivity|]. split; [|repeat constructor].
    intro n. simpl. split; [intros [<-|[]]; split; [apply is_prime_2|lia]|].
    intros [[Hp _] Hn]. left. lia. }
  destruct (Nat.ltb_spec t 2) as [H|H].
  { exists []. split; [reflexivity|]. split; [|constructor]. intro n. simpl. split; [tauto|].
    intros [[Hp _] Hn]. lia. }
  set (half := (t - 1) / 2).
  pose proof (Nat.div_mod (t - 1) 2 ltac:(lia)) as Dm. pose proof (Nat.mod_upper_bound (t - 1) 2 ltac:(lia)) as Bm.
  destruct (@sieve_spec t half eq_refl ltac:(lia) t 0 (map (fun i => 2 * i + 3) (seq 0 half))) as (c & l & E & [Hl Hs] & Hc).
  - lia.
  - split; [now rewrite map_length, seq_length|]. intros i Hi. split.
    + intros (d & Hd & _). lia.
    + intros _. rewrite nth_error_map, (nth_error_nth' _ 0) by now rewrite seq_length. rewrite seq_nth by exact Hi. reflexivity.
  - change (2 * 0 + 3) with 3 in E. rewrite E. cbn [bind]. eexists. split; [reflexivity|].
    set (p := fun i => negb (Nat.eqb (nth i l 0) 0)).
    assert (Hp : forall i, i < half -> (p i = true <-> is_prime (2 * i + 3)) /\ nth i l 0 = if p i then 2 * i + 3 else 0).
    { intros i Hi. destruct (Hs i Hi) as [A B].
      assert (Hic : 2 * i + 3 < c * c) by (unfold half in Hi; lia).
      rewrite (is_prime_odd i c Hic). unfold p. destruct (struck_dec c i) as [X|X].
      - rewrite (nth_error_nth _ _ 0 (A X)). simpl. split; [|reflexivity]. split; [discriminate|tauto].
      - rewrite (nth_error_nth _ _ 0 (B X)). replace (Nat.eqb (2 * i + 3) 0) with false by (symmetry; apply Nat.eqb_neq; lia).
        simpl. split; [|reflexivity]. tauto. }
    assert (EL : filter (fun n => negb (Nat.eqb n 0)) l = map (fun i => 2 * i + 3) (filter p (seq 0 half))).
    { assert (L : l = map (fun i => nth i l 0) (seq 0 half)).
      { apply nth_ext with (d := 0) (d' := 0); [now rewrite map_length, seq_length|].
        intros n Hn. symmetry. rewrite (nth_indep (map (fun i => nth i l 0) (seq 0 half)) 0 (nth 0 l 0)) by (rewrite map_length, seq_length; lia).
        rewrite (map_nth (fun i => nth i l 0)), seq_nth by lia. reflexivity. }
      rewrite L at 1. assert (G : Forall (fun i => i < half) (seq 0 half)) by (apply Forall_forall; intros i Hi; apply in_seq in Hi; lia).
      clear E L. induction G as [|i k Hi _ IH]; [reflexivity|]. cbn [map filter].
      destruct (Hp i Hi) as [_ ->]. destruct (p i) eqn:Ep.
      - replace (negb (Nat.eqb (2 * i + 3) 0)) with true by (symmetry; apply negb_true_iff, Nat.eqb_neq; lia).
        cbn [map]. f_equal. exact IH.
      - simpl (negb _). exact IH. }
    rewrite EL. split.
    + intro n. split.
      * intros [<-|Hn]; [split; [apply is_prime_2|lia]|]. apply in_map_iff in Hn. destruct Hn as (i & <- & Hi).
        apply filter_In in Hi. destruct Hi as [Hi Pi]. apply in_seq in Hi. destruct (Hp i ltac:(lia)) as [A _].
        split; [now apply A|]. unfold half in Hi. lia.
      * intros [Pn Hn]. destruct (Nat.Even_or_Odd n) as [[w ->]|[w ->]].
        { left. apply is_prime_even in Pn. lia. }
        destruct w as [|w]; [destruct Pn; lia|]. right. apply in_map_iff. exists w. split; [lia|].
        assert (Hw : w < half) by (unfold half; lia).
        apply filter_In. split; [apply in_seq; lia|]. apply (Hp w Hw). replace (2 * w + 3) with (2 * S w + 1) by lia. exact Pn.
    + destruct (@StronglySorted_map_filter (fun i => 2 * i + 3) p ltac:(cbv beta; intros; lia) half 0) as [S1 S2].
      constructor; [exact S1|]. eapply Forall_impl; [|exact S2]. intros a Ha; cbn in Ha; lia.
Qed.

(** ** There are enough primes: at least [n] up to [4 ^ n] *)
Fixpoint prods (ps : list nat) : list nat :=
  match ps with [] => [1] | p :: ps' => prods ps' ++ map (Nat.mul p) (prods ps') end.
Lemma prods_length ps : length (prods ps) = 2 ^ length ps.
Proof. induction ps as [|p ps IH]; [reflexivity|]. cbn [prods]. rewrite app_length, map_length, IH. simpl. lia. Qed.
Lemma prods_one ps : In 1 (prods ps).
Proof. induction ps; simpl; [tauto|]. apply in_or_app. tauto. Qed.
Lemma prods_toggle ps p q : In p ps -> In q (prods ps) ->
  exists s q', p * q = s * s * q' /\ In q' (prods ps) /\ (s = 1 \/ s = p).
Proof.
  revert q. induction ps as [|a ps IH]; intros q Hp Hq; [destruct Hp|]. cbn [prods] in *.
  apply in_app_or in Hq. destruct Hp as [->|Hp].
  - destruct Hq as [Hq|Hq].
    + exists 1, (p * q). split; [lia|]. split; [|now left]. apply in_or_app. right. now apply in_map.
    + apply in_map_iff in Hq. destruct Hq as (q0 & <- & Hq). exists p, q0. split; [lia|]. split; [|now right].
      apply in_or_app. now left.
  - destruct Hq as [Hq|Hq].
    + destruct (IH q Hp Hq) as (s & q' & E & I & Hs). exists s, q'. split; [exact E|]. split; [|exact Hs].
      apply in_or_app. now left.
    + apply in_map_iff in Hq. destruct Hq as (q0 & <- & Hq). destruct (IH q0 Hp Hq) as (s & q' & E & I & Hs).
      exists s, (a * q'). split; [nia|]. split; [|exact Hs]. apply in_or_app. right. now apply in_map.
Qed.

Lemma prime_divisor : forall n, 2 <= n -> exists p, is_prime p /\ Nat.divide p n.
Proof.
  intro n. induction n as [n IH] using lt_wf_ind. intro Hn.
  assert (D : is_prime n \/ exists d, Nat.divide d n /\ 2 <= d < n).
  { assert (X : forall k, (exists d, Nat.divide d n /\ 2 <= d < k /\ d < n) \/ forall d, Nat.divide d n -> 2 <= d < k -> d < n -> False).
    { induction k as [|k [IHk|IHk]]; [right; intros; lia|left; destruct IHk as (d & ? & ? & ?); exists d; repeat split; try assumption; lia|].
      destruct (Nat.eq_dec k 0) as [->|Hk]; [right; intros; lia|].
      destruct (Nat.eq_dec (n mod k) 0) as [Hm|Hm].
      - destruct (le_lt_dec 2 k); [|right; intros d Hd Hb Hlt; apply (IHk d); try assumption; lia].
        destruct (le_lt_dec n k); [right; intros d Hd Hb Hlt; destruct (Nat.eq_dec d k); [lia|apply (IHk d); try assumption; lia]|].
        left. exists k. split; [apply Nat.mod_divide; assumption|lia].
      - right. intros d Hd Hb Hlt. destruct (Nat.eq_dec d k) as [->|]; [apply Nat.mod_divide in Hd; [contradiction|assumption]|].
        apply (IHk d); try assumption; lia. }
    destruct (X n) as [(d & ? & ? & ?)|Y]; [right; exists d; split; [assumption|lia]|].
    left. split; [exact Hn|]. intros d Hd. assert (d <= n) by (apply Nat.divide_pos_le; [lia|exact Hd]).
    destruct (Nat.eq_dec d n); [now right|]. left.
    destruct d as [|[|d]]; [destruct Hd as [q Hq]; lia|reflexivity|]. exfalso. apply (Y (S (S d))); [exact Hd|lia|lia]. }
  destruct D as [P|(d & Hd & Hb)]; [exists n; split; [exact P|apply Nat.divide_refl]|].
  destruct (IH d) as (p & Hp & Hpd); [lia|lia|]. exists p. split; [exact Hp|]. eapply Nat.divide_trans; eassumption.
Qed.

(** Every number is a square times a product of distinct primes. *)
Lemma square_decomposition ps x : (forall p, is_prime p -> p <= x -> In p ps) -> (forall p, In p ps -> 1 <= p) ->
  forall m, 1 <= m <= x -> exists s q, 1 <= s /\ m = s * s * q /\ In q (prods ps).
Proof.
  intros Hps Hpos m. induction m as [m IH] using lt_wf_ind. intro Hm.
  destruct (Nat.eq_dec m 1) as [->|H1].
  { exists 1, 1. split; [lia|]. split; [reflexivity|apply prods_one]. }
  assert (Hm2 : 2 <= m) by lia. destruct (prime_divisor Hm2) as (p & Hp & [m' Em]).
  assert (P2 : 2 <= p) by (destruct Hp; lia).
  assert (Hm' : 1 <= m' < m) by (split; [destruct m'; lia|nia]).
  destruct (IH m') as (s & q & Hs & E & Hq); [lia|lia|].
  destruct (@prods_toggle ps p q) as (s' & q' & E' & Hq' & Hs'); [apply Hps; [exact Hp|nia]|exact Hq|].
  exists (s * s'), q'. split; [destruct Hs'; subst s'; nia|]. split; [|exact Hq'].
  rewrite Em, E. transitivity (s * s * (p * q)); [nia|]. rewrite E'. nia.
Qed.

Lemma many_primes ps x n : (forall p, is_prime p -> p <= x -> In p ps) -> (forall p, In p ps -> 1 <= p) ->
  4 ^ n <= x -> n <= length ps.
Proof.
  intros Hps Hpos Hx. destruct (le_lt_dec n (length ps)) as [|Hlt]; [assumption|exfalso].
  set (L := map (fun sq => fst sq * fst sq * snd sq) (list_prod (seq 1 (Nat.sqrt x)) (prods ps))).
  assert (Hlen : x <= length L).
  { rewrite <- (seq_length x 1). apply NoDup_incl_length; [apply seq_NoDup|].
    intros m Hm. apply in_seq in Hm. assert (Hm1 : 1 <= m <= x) by lia. destruct (square_decomposition _ Hps Hpos Hm1) as (s & q & Hs & E & Hq).
    apply in_map_iff. exists (s, q). split; [simpl; lia|]. apply in_prod; [|exact Hq].
    apply in_seq. split; [exact Hs|].
    assert (q <> 0) by (intros ->; lia). assert (s <= Nat.sqrt x); [|lia].
    apply Nat.sqrt_le_square. nia. }
  unfold L in Hlen. rewrite map_length, prod_length, seq_length, prods_length in Hlen.
  assert (P4 : 4 ^ n = 2 ^ n * 2 ^ n) by (rewrite <- Nat.pow_mul_l; reflexivity).
  assert (P2 : 2 * 2 ^ length ps <= 2 ^ n).
  { change (2 * 2 ^ length ps) with (2 ^ S (length ps)). apply Nat.pow_le_mono_r; lia. }
  assert (Pp : 0 < 2 ^ length ps) by (apply Nat.neq_0_lt_0, Nat.pow_nonzero; lia).
  pose proof (Nat.sqrt_spec x ltac:(lia)) as [S1 S2].
  assert (2 ^ n <= Nat.sqrt x) by (apply Nat.sqrt_le_square; lia). nia.
Qed.

(** ** The table of bases *)
Lemma sorted_firstn (l : list nat) : StronglySorted lt l -> forall n, StronglySorted lt (firstn n l).
Proof.
  induction 1 as [|a l H IH Hf]; intro n; [rewrite firstn_nil; constructor|]. destruct n; [constructor|].
  cbn [firstn]. constructor; [apply IH|]. apply Forall_forall. intros y Hy.
  apply (proj1 (Forall_forall _ _) Hf). rewrite <- (firstn_skipn n l). apply in_or_app. now left.
Qed.
Lemma sorted_nodup (l : list nat) : StronglySorted lt l -> NoDup l.
Proof.
  induction 1 as [|a l H IH Hf]; constructor; [|exact IH]. intro Hi.
  apply (proj1 (Forall_forall _ _) Hf) in Hi. lia.
Qed.

Lemma enough_primes_spec n : forall fuel order, 4 ^ n <= order * 2 ^ fuel ->
  exists t ps, enough_primes (S fuel) n order = Ok ps /\ create_primes t = Ok ps /\ n <= length ps.
Proof.
  induction fuel as [|fuel IH]; intros order H; destruct (create_primes_spec order) as (ps & E & Hin & Hso);
    cbn [enough_primes]; rewrite E; cbn [bind].
  - rewrite Nat.pow_0_r, Nat.mul_1_r in H.
    assert (n <= length ps).
    { apply many_primes with (x := order); [intros p Hp Hle; now apply Hin|intros p Hp; apply Hin in Hp; destruct Hp as [[? _] _]; lia|exact H]. }
    destruct (Nat.ltb_spec (length ps) n); [lia|]. now exists order, ps.
  - destruct (Nat.ltb_spec (length ps) n) as [Hlt|Hge]; [|now exists order, ps].
    apply IH. rewrite <- Nat.mul_assoc. exact H.
Qed.

Lemma halton_primes_default n given : (match given with None => True | Some l => length l < n end) ->
  exists ps t all, halton_primes given n = Ok ps /\ length ps = n /\ ps = firstn n all /\ create_primes t = Ok all.
Proof.
  intro Hg. unfold halton_primes. set (primes := match given with None => [] | Some l => l end).
  destruct (Nat.ltb_spec (length primes) n) as [H|H].
  - destruct (@enough_primes_spec n (2 * n) (10 * n)) as (t & all & E & C & L).
    { rewrite Nat.pow_mul_r. change (2 ^ 2) with 4. assert (0 < 4 ^ n) by (apply Nat.neq_0_lt_0, Nat.pow_nonzero; lia).
      assert (1 <= n) by lia. nia. }
    rewrite E. cbn [bind]. rewrite firstn_length_le by exact L. rewrite Nat.eqb_refl.
    exists (firstn n all), t, all. split; [reflexivity|]. split; [now rewrite firstn_length_le|]. now split.
  - assert (length primes = 0 /\ n = 0) as [L ->].
    { unfold primes in *. destruct given as [l|]; [lia|]. simpl in H |- *. lia. }
    cbn [bind]. rewrite L. destruct primes; [|discriminate L]. exists [], 0, []. repeat split.
Qed.

Lemma halton_primes_spec n given : (match given with None => True | Some l => length l < n end) ->
  exists ps, halton_primes given n = Ok ps /\ length ps = n /\ StronglySorted lt ps /\
    (forall p, In p ps -> is_prime p) /\
    (forall p q, In q ps -> is_prime p -> p < q -> In p ps).
Proof.
  intro Hg. destruct (halton_primes_default _ _ Hg) as (ps & t & all & E & L & -> & C).
  destruct (create_primes_spec t) as (ps' & C' & Hin & Hso). rewrite C' in C. injection C as <-.
  exists (firstn n ps'). split; [exact E|]. split; [exact L|]. split; [now apply sorted_firstn|].
  assert (Sub : forall p, In p (firstn n ps') -> In p ps').
  { intros p Hp. rewrite <- (firstn_skipn n ps'). apply in_or_app. now left. }
  split; [intros p Hp; now apply Sub, Hin in Hp|].
  intros p q Hq Pp Hlt. assert (Hp : In p ps').
  { apply Hin. split; [exact Pp|]. apply Sub, Hin in Hq. lia. }
  rewrite <- (firstn_skipn n ps') in Hp. apply in_app_or in Hp. destruct Hp as [Hp|Hp]; [exact Hp|exfalso].
  clear - Hso Hq Hp Hlt. revert n Hq Hp. induction Hso as [|a l H IH Hf]; intros n Hq Hp.
  - rewrite firstn_nil in Hq. destruct Hq.
  - destruct n; [destruct Hq|]. cbn [firstn skipn] in *. destruct Hq as [->|Hq]; [|now apply (IH n)].
    assert (X : In p l) by (rewrite <- (firstn_skipn n l); apply in_or_app; now right).
    apply (proj1 (Forall_forall _ _) Hf) in X. lia.
Qed.
