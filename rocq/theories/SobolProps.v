(** Sobol: stratification, range, and independence from earlier calls. *)
From Coq Require Import String List ZArith Bool Reals Lra Lia.
From Flocq Require Import Core.Core.
From Verif Require Import Base BaseLemmas Num NumLaws Values Dimension Space SpaceSpec WarpLemmas DesignLemmas
  Sampler SamplerSpec SamplerProps Sobol SobolLemmas SobolState Samples SpaceProps2 SamplerSamples.
Import ListNotations.
Open Scope nat_scope.
Open Scope list_scope.
Set Implicit Arguments.
Unset Strict Implicit.
Local Arguments Z.pow : simpl never.
Local Arguments Z.of_nat : simpl never.

(** The objects a program can hold: a new one, used any number of times for 1 to 40 dimensions. [total] counts the
    points of the calls that succeeded. *)
Inductive sobol_history {N RNG} (O : numops N) (G : rng_ops N RNG) (skip : Z) (rand : bool) : sobol -> Z -> Prop :=
| history_new s : sobol_new skip rand = Ok s -> sobol_history O G skip rand s 0
| history_call s total dims n g : sobol_history O G skip rand s total -> 1 <= length dims <= 40 ->
    sobol_history O G skip rand (fst (sobol_generate O G s dims n g))
      (total + match snd (snd (sobol_generate O G s dims n g)) with Ok _ => Z.of_nat n | Raise _ => 0 end)%Z.
Definition room (skip total : Z) (n : nat) : Prop := skip = 0%Z \/ (total + Z.of_nat n <= skip)%Z.

Lemma new_settled skip rand s : sobol_new skip rand = Ok s -> (skip < 2 ^ 30)%Z ->
  exists k, skip = Z.of_nat k /\ (Z.of_nat k < 2 ^ 30 - 1)%Z /\ settled k s /\ so_randomize s = rand /\ so_generated s = 0%Z.
Proof.
  unfold sobol_new. intros H Hs. destruct (Z.eqb_spec (Z.land skip (skip - 1)) 0) as [E|]; [|discriminate H].
  cbn [negb] in H. injection H as <-.
  assert (P : (0 <= skip)%Z).
  { destruct (Z_lt_le_dec skip 0) as [L|]; [|assumption]. exfalso.
    assert (Z.land skip (skip - 1) < 0)%Z by (apply Z.land_neg; lia). lia. }
  exists (Z.to_nat skip). rewrite Z2Nat.id by lia. split; [reflexivity|]. split.
  { destruct (Z.eq_dec skip (2 ^ 30 - 1)) as [->|]; [discriminate E|lia]. }
  split; [|split; reflexivity]. split; [cbn; lia|]. cbn [so_dim so_seed]. split; [intros d _ D; lia|]. left. split; [reflexivity|].
  intros d _. lia.
Qed.

Section History.
  Context {N RNG : Type} (O : numops N) (G : rng_ops N RNG).
  Lemma history_settled skip rand s total : sobol_history O G skip rand s total -> (skip < 2 ^ 30)%Z ->
    exists k, skip = Z.of_nat k /\ (Z.of_nat k < 2 ^ 30 - 1)%Z /\ settled k s /\ so_randomize s = rand /\ so_generated s = total.
  Proof.
    intros H Hs. induction H as [s E|s total dims n g H (k & K1 & K2 & K3 & K4 & K5) Hd]; [now apply new_settled|].
    exists k. split; [exact K1|]. split; [exact K2|].
    destruct (generate_all O G n g K3 Hd K2) as (G1 & G2 & G3 & G4). split; [exact G2|]. split; [congruence|].
    rewrite G4, <- K5. f_equal. rewrite G1. destruct (negb _ && _)%bool; reflexivity.
  Qed.

  Lemma room_ok k s total n : so_generated s = total -> room (Z.of_nat k) total n ->
    (negb (Z.of_nat k =? 0) && (Z.of_nat k <? so_generated s + Z.of_nat n))%Z = false.
  Proof.
    intros -> [R|R]; [rewrite R; reflexivity|]. apply andb_false_iff. right. apply Z.ltb_ge. lia.
  Qed.
  Lemma same_stretch skip rand s0 s total dims n g : sobol_new skip rand = Ok s0 -> (skip < 2 ^ 30)%Z ->
    sobol_history O G skip rand s total -> 1 <= length dims <= 40 -> room skip total n ->
    snd (sobol_generate O G s dims n g) = warp_design O dims (snd (sobol_design O G s0 (length dims) n g)).
  Proof.
    intros H0 Hs H Hd Hr. destruct (history_settled H Hs) as (k & K1 & K2 & K3 & K4 & K5).
    destruct (new_settled H0 Hs) as (k' & K1' & K2' & K3' & K4' & K5'). assert (k' = k) as -> by lia.
    destruct (generate_all O G n g K3 Hd K2) as (G1 & _). rewrite G1.
    destruct (design_all O G n g K3' Hd K2') as (s' & -> & _). cbn [snd]. rewrite K4, K4'.
    rewrite (room_ok (k:=k) (total:=total)); [reflexivity|exact K5|]. now rewrite <- K1.
  Qed.
  Lemma history_irrelevant skip rand s0 s total dims n g : sobol_new skip rand = Ok s0 -> (skip < 2 ^ 30)%Z ->
    sobol_history O G skip rand s total -> 1 <= length dims <= 40 -> room skip total n -> room skip 0 n ->
    snd (sobol_generate O G s dims n g) = snd (sobol_generate O G s0 dims n g).
  Proof.
    intros H0 Hs H Hd Hr Hr0. rewrite (same_stretch g H0 Hs H Hd Hr). symmetry.
    exact (same_stretch g H0 Hs (history_new _ _ H0) Hd Hr0).
  Qed.
  Lemma room_0 skip total n : (0 <= total)%Z -> room skip total n -> room skip 0 n.
  Proof. intros Ht [R|R]; [now left|]. right. lia. Qed.
  Lemma total_nonneg skip rand s total : sobol_history O G skip rand s total -> (0 <= total)%Z.
  Proof.
    induction 1; [lia|]. destruct (snd (snd (sobol_generate O G s dims n g))); lia.
  Qed.
  Lemma c46_history skip rand s0 s total dims n g : sobol_new skip rand = Ok s0 -> (skip < 2 ^ 30)%Z ->
    sobol_history O G skip rand s total -> 1 <= length dims <= 40 -> room skip total n ->
    snd (sobol_generate O G s dims n g) = snd (sobol_generate O G s0 dims n g).
  Proof.
    intros H0 Hs H Hd Hr. eapply history_irrelevant; eauto. eapply room_0; [eapply total_nonneg; eassumption|exact Hr].
  Qed.
  Lemma c46_limit skip rand s total d n g : sobol_history O G skip rand s total -> (skip < 2 ^ 30)%Z ->
    1 <= d <= 40 -> (2 ^ 30 <= skip + Z.of_nat n)%Z -> snd (sobol_design O G s d n g) = Raise ValueError.
  Proof.
    intros H Hs Hd Hn. destruct (history_settled H Hs) as (k & K1 & K2 & K3 & K4 & K5).
    destruct (design_all O G n g K3 Hd K2) as (s' & -> & _). cbn [snd]. unfold design_outcome, rows_outcome.
    destruct (Z.leb_spec (Z.of_nat (k + n)) (2 ^ 30 - 1)); [lia|reflexivity].
  Qed.
  Lemma c48_sobol s dims n g s' dims' pts : Forall (wf_dim O) dims ->
    sobol_generate O G s dims n g = (s', (dims', Ok pts)) -> dims' = dims.
  Proof.
    intros Hw H. unfold sobol_generate in H. destruct (negb _ && _)%bool; [discriminate H|].
    destruct (sobol_design O G s (length dims) n g) as [s1 h].
    destruct (warp_design O dims h) as [d2 p2] eqn:E. destruct p2 as [p2|]; [|discriminate H]. injection H as _ <- <-.
    eapply warp_design_back; [exact Hw|exact E].
  Qed.
End History.

(** ** In exact arithmetic *)
Lemma IZR_pow2 k : IZR (2 ^ Z.of_nat k) = (2 ^ k)%R.
Proof. rewrite <- pow_IZR. reflexivity. Qed.
Definition dyad (q : Z) : R := (IZR q / 2 ^ 30)%R.
Lemma quasi_row_R d n : quasi_row Rops d n = map dyad (qrow d n).
Proof. apply map_ext. intro q. unfold recipd, dyad. cbn -[Z.pow IZR pow]. change 30%Z with (Z.of_nat 30). rewrite IZR_pow2. field. Qed.
Lemma pow2_pos k : (0 < 2 ^ k)%R. Proof. apply pow_lt. lra. Qed.
Lemma dyad_part k q c : k <= 30 -> in_part (2 ^ Z.of_nat k) c (dyad q) <-> (q / 2 ^ Z.of_nat (30 - k) = c)%Z.
Proof.
  intro Hk. unfold in_part, dyad. rewrite !IZR_pow2.
  assert (E : (2 ^ 30 = 2 ^ k * 2 ^ (30 - k))%R) by (rewrite <- pow_add; f_equal; lia).
  pose proof (pow2_pos k) as P1. pose proof (pow2_pos (30 - k)) as P2.
  assert (A : forall z, (IZR z / 2 ^ k = IZR (z * 2 ^ Z.of_nat (30 - k)) / 2 ^ 30)%R).
  { intro z. rewrite mult_IZR, IZR_pow2, E. field. split; apply Rgt_not_eq; assumption. }
  rewrite !A. assert (P30 : (0 < / 2 ^ 30)%R) by (apply Rinv_0_lt_compat, pow2_pos). unfold Rdiv.
  assert (Z2 : (0 < 2 ^ Z.of_nat (30 - k))%Z) by (apply Z.pow_pos_nonneg; lia).
  split.
  - intros [H1 H2]. apply Rmult_le_reg_r in H1; [|exact P30]. apply Rmult_lt_reg_r in H2; [|exact P30].
    apply le_IZR in H1. apply lt_IZR in H2. symmetry. apply Z.div_unique with (q - c * 2 ^ Z.of_nat (30 - k))%Z; lia.
  - intros <-. pose proof (Z.div_mod q (2 ^ Z.of_nat (30 - k)) ltac:(lia)) as D. pose proof (Z.mod_pos_bound q _ Z2) as M. split.
    + apply Rmult_le_compat_r; [lra|]. apply IZR_le. lia.
    + apply Rmult_lt_compat_r; [lra|]. apply IZR_lt. lia.
Qed.
Lemma dyad_unit q : (0 <= q < 2 ^ 30)%Z -> (0 <= dyad q < 1)%R.
Proof.
  intros [H1 H2]. unfold dyad. apply IZR_le in H1. apply IZR_lt in H2. change 30%Z with (Z.of_nat 30) in H2. rewrite IZR_pow2 in H2.
  pose proof (pow2_pos 30) as P. split; [apply Rmult_le_pos; [exact H1|apply Rlt_le, Rinv_0_lt_compat; exact P]|]. apply Rmult_lt_reg_r with (2 ^ 30)%R; [exact P|].
  unfold Rdiv. rewrite Rmult_assoc, Rinv_l by (apply Rgt_not_eq; exact P). lra.
Qed.
Lemma dyad_inj p q : dyad p = dyad q -> p = q.
Proof.
  unfold dyad, Rdiv. intro H. apply Rmult_eq_reg_r in H; [now apply eq_IZR|].
  apply Rinv_neq_0_compat, Rgt_not_eq, pow2_pos.
Qed.

Lemma nth_quasi_rows d from n i row : nth_error (quasi_rows Rops d from n) i = Some row <-> i < n /\ row = quasi_row Rops d (from + i).
Proof.
  unfold quasi_rows. rewrite nth_error_map. split.
  - destruct (nth_error (seq from n) i) as [x|] eqn:E; [|discriminate]. intros [= <-].
    assert (L : i < n) by (rewrite <- (seq_length n from); apply nth_error_Some; congruence).
    rewrite (nth_error_nth' _ 0) in E by (now rewrite seq_length). rewrite seq_nth in E by exact L. injection E as <-. auto.
  - intros [L ->]. rewrite (nth_error_nth' _ 0) by (now rewrite seq_length). now rewrite seq_nth.
Qed.
Lemma nth_quasi_row d n j v : nth_error (quasi_row Rops d n) j = Some v <-> j < d /\ v = dyad (qn (drow j) n).
Proof.
  rewrite quasi_row_R. unfold qrow. rewrite map_map, nth_error_map. split.
  - destruct (nth_error (seq 0 d) j) as [x|] eqn:E; [|discriminate]. intros [= <-].
    assert (L : j < d) by (rewrite <- (seq_length d 0); apply nth_error_Some; congruence).
    rewrite (nth_error_nth' _ 0) in E by (now rewrite seq_length). rewrite seq_nth in E by exact L. injection E as <-. auto.
  - intros [L ->]. rewrite (nth_error_nth' _ 0) by (now rewrite seq_length). now rewrite seq_nth.
Qed.

Section Exact.
  Context {RNG : Type} (G : rng_ops R RNG).
  Lemma plain_design skip s total d n g s' h : sobol_history Rops G skip false s total -> (skip < 2 ^ 30)%Z -> 1 <= d <= 40 ->
    sobol_design Rops G s d n g = (s', Ok h) ->
    exists k, skip = Z.of_nat k /\ (Z.of_nat (k + n) <= 2 ^ 30 - 1)%Z /\ h = quasi_rows Rops d k n.
  Proof.
    intros H Hs Hd E. destruct (history_settled H Hs) as (k & K1 & K2 & K3 & K4 & K5).
    destruct (design_all Rops G n g K3 Hd K2) as (s1 & D & _). rewrite D in E. injection E as _ E.
    unfold design_outcome, rows_outcome in E. rewrite K4 in E. exists k. split; [exact K1|].
    destruct (Z.leb_spec (Z.of_nat (k + n)) (2 ^ 30 - 1)); [|discriminate E]. cbn [bind] in E. injection E as <-. auto.
  Qed.
  Lemma c46_strata skip s total d n g s' h : sobol_history Rops G skip false s total -> (skip < 2 ^ 30)%Z -> 1 <= d <= 40 ->
    sobol_design Rops G s d n g = (s', Ok h) ->
    forall k start j c, j < d -> start + 2 ^ k <= n -> (2 ^ Z.of_nat k | skip + Z.of_nat start)%Z -> (0 <= c < 2 ^ Z.of_nat k)%Z ->
      one_in_stretch h start (2 ^ k) (fun row => exists v, nth_error row j = Some v /\ in_part (2 ^ Z.of_nat k) c v).
  Proof.
    intros H Hs Hd E k start j c Hj Hn Hdiv Hc. destruct (plain_design H Hs Hd E) as (from & -> & Hb & ->).
    assert (Dj : directions (drow j)) by (apply drow_directions; unfold dim_max; lia).
    assert (Hk : k <= 30).
    { assert (B : (2 ^ Z.of_nat k < 2 ^ 30)%Z) by (rewrite <- pow2_nat; lia). apply Z.pow_lt_mono_r_iff in B; lia. }
    assert (Div : Nat.divide (2 ^ k) (from + start)).
    { destruct Hdiv as [a Ha]. exists (Z.to_nat a). apply Nat2Z.inj.
      assert (P : (0 < 2 ^ Z.of_nat k)%Z) by (apply Z.pow_pos_nonneg; lia).
      rewrite Nat2Z.inj_mul, pow2_nat, Z2Nat.id by nia. lia. }
    destruct (qn_strata Dj Hk Div Hc) as (i & Hi & Ei). exists (i - from). split.
    - split; [lia|]. eexists. split; [apply nth_quasi_rows; split; [lia|reflexivity]|].
      eexists. split; [apply nth_quasi_row; split; [exact Hj|reflexivity]|]. apply dyad_part; [exact Hk|].
      replace (from + (i - from)) with i by lia. exact Ei.
    - intros i' (Hi' & row & Er & v & Ev & Pv). apply nth_quasi_rows in Er. destruct Er as [_ ->].
      apply nth_quasi_row in Ev. destruct Ev as [_ ->]. apply dyad_part in Pv; [|exact Hk].
      assert (X : from + i' = i); [|lia]. apply (@qn_block_inj _ Dj k _ _ Hk); [|congruence].
      destruct Div as [a Ha]. assert (P : (0 < 2 ^ Z.of_nat k)%Z) by (apply Z.pow_pos_nonneg; lia).
      assert (Q : forall x, from + start <= x < from + start + 2 ^ k -> (Z.of_nat x / 2 ^ Z.of_nat k = Z.of_nat a)%Z).
      { intros x Hx. symmetry. apply Z.div_unique with (Z.of_nat x - Z.of_nat a * 2 ^ Z.of_nat k)%Z; [|lia].
        rewrite <- pow2_nat. nia. }
      rewrite !Q by lia. reflexivity.
  Qed.
  Lemma c46_distinct skip s total d n g s' h : sobol_history Rops G skip false s total -> (skip < 2 ^ 30)%Z -> 1 <= d <= 40 ->
    sobol_design Rops G s d n g = (s', Ok h) ->
    forall i i' j row row' v, nth_error h i = Some row -> nth_error h i' = Some row' ->
      nth_error row j = Some v -> nth_error row' j = Some v -> i = i'.
  Proof.
    intros H Hs Hd E i i' j row row' v E1 E2 E3 E4. destruct (plain_design H Hs Hd E) as (from & -> & Hb & ->).
    apply nth_quasi_rows in E1. apply nth_quasi_rows in E2. destruct E1 as [L1 ->], E2 as [L2 ->].
    apply nth_quasi_row in E3. apply nth_quasi_row in E4. destruct E3 as [Lj ->], E4 as [_ E4].
    assert (Dj : directions (drow j)) by (apply drow_directions; unfold dim_max; lia). apply dyad_inj in E4.
    assert (X : from + i = from + i'); [|lia]. apply (@qn_block_inj _ Dj 30); [lia| |now rewrite E4].
    change (Z.of_nat 30) with 30%Z. rewrite !Z.div_small by lia. reflexivity.
  Qed.
  Lemma quasi_unit d from n : d <= 40 -> shaped (fun x => 0 <= x < 1)%R d n (quasi_rows Rops d from n).
  Proof.
    intro Hd. split; [unfold quasi_rows; now rewrite map_length, seq_length|]. split; apply Forall_forall; intros row Hr;
      apply In_nth_error in Hr; destruct Hr as [i Hr]; apply nth_quasi_rows in Hr; destruct Hr as [_ ->].
    - rewrite quasi_row_R, map_length. apply qrow_len.
    - apply Forall_forall. intros v Hv. apply In_nth_error in Hv. destruct Hv as [j Hv]. apply nth_quasi_row in Hv. destruct Hv as [Hj ->].
      apply dyad_unit. apply qn_range. apply drow_directions. unfold dim_max. lia.
  Qed.

  (** The random shift. *)
  Lemma frac_R x : (0 <= x < 2)%R -> (0 <= frac Rops x < 1)%R /\ (frac Rops x = x \/ frac Rops x = x - 1)%R.
  Proof.
    intros [H1 H2]. unfold frac. cbn -[IZR]. destruct (Rlt_le_dec x 1).
    - replace (Ztrunc x) with 0%Z; [lra|]. symmetry. rewrite Ztrunc_floor by exact H1. apply Zfloor_imp. simpl. lra.
    - replace (Ztrunc x) with 1%Z; [lra|]. symmetry. rewrite Ztrunc_floor by exact H1. apply Zfloor_imp. simpl. lra.
  Qed.
  Context (Gok : rng_ok Rops G).
  Lemma shifts_ok d g : length (fst (draws (rg_random G) d g)) = d /\
    Forall (fun x => 0 <= x < 1)%R (fst (draws (rg_random G) d g)).
  Proof.
    apply draws_all'. intro g1. destruct (proj1 Gok g1) as [A B]. apply Rleb_spec in A. apply Rltb_spec in B. exact (conj A B).
  Qed.
  Lemma shifted_unit h d n g : shaped (fun x => 0 <= x < 1)%R d n h -> shaped (fun x => 0 <= x < 1)%R d n (random_shift Rops G h d g).
  Proof.
    intros (L1 & L2 & L3). destruct (shifts_ok d g) as [S1 S2]. unfold random_shift. set (sh := fst (draws (rg_random G) d g)) in *.
    split; [now rewrite map_length|]. rewrite Forall_forall in *. split.
    - intros row Hr. apply in_map_iff in Hr. destruct Hr as (r & <- & Hr). rewrite map_length, combine_length, S1, (L2 r Hr). lia.
    - apply Forall_forall. intros row Hr. apply in_map_iff in Hr. destruct Hr as (r & <- & Hr). apply Forall_forall. intros v Hv.
      apply in_map_iff in Hv. destruct Hv as ((x & y) & <- & Hxy). cbn [fst snd].
      pose proof (in_combine_l _ _ _ _ Hxy) as Hx. pose proof (in_combine_r _ _ _ _ Hxy) as Hy.
      specialize (L3 r Hr). rewrite Forall_forall in L3. specialize (L3 x Hx). specialize (S2 y Hy). apply frac_R.
      change (nadd Rops x y) with (x + y)%R. lra.
  Qed.
  Lemma c46_range skip rand s total d n g s' h : sobol_history Rops G skip rand s total -> (skip < 2 ^ 30)%Z -> 1 <= d <= 40 ->
    sobol_design Rops G s d n g = (s', Ok h) ->
    length h = n /\ Forall (fun row => length row = d /\ Forall (fun v => 0 <= v < 1)%R row) h.
  Proof.
    intros H Hs Hd E. destruct (history_settled H Hs) as (k & K1 & K2 & K3 & K4 & K5).
    destruct (design_all Rops G n g K3 Hd K2) as (s1 & D & _). rewrite D in E. injection E as _ E.
    unfold design_outcome, rows_outcome in E. rewrite K4 in E.
    destruct (Z.leb_spec (Z.of_nat (k + n)) (2 ^ 30 - 1)); [|discriminate E]. cbn [bind] in E. injection E as <-.
    assert (S1 : shaped (fun x => 0 <= x < 1)%R d n (if rand then random_shift Rops G (quasi_rows Rops d k n) d g else quasi_rows Rops d k n)).
    { pose proof (quasi_unit k n (proj2 Hd)) as Q. destruct rand; [now apply shifted_unit|exact Q]. }
    destruct S1 as (A & B & C). split; [exact A|]. rewrite Forall_forall in *. auto.
  Qed.
  Lemma c46_shift skip s0 s total d n g s0' s' h0 h : sobol_new skip false = Ok s0 -> sobol_history Rops G skip true s total ->
    (skip < 2 ^ 30)%Z -> 1 <= d <= 40 ->
    sobol_design Rops G s0 d n g = (s0', Ok h0) -> sobol_design Rops G s d n g = (s', Ok h) ->
    exists shift, length shift = d /\ Forall (fun x => 0 <= x < 1)%R shift /\
      forall i j row0 row u x v, nth_error h0 i = Some row0 -> nth_error h i = Some row ->
        nth_error row0 j = Some u -> nth_error shift j = Some x -> nth_error row j = Some v ->
        (0 <= v < 1 /\ (v = u + x \/ v = u + x - 1))%R.
  Proof.
    intros N0 H Hs Hd E0 E. destruct (plain_design (history_new _ _ N0) Hs Hd E0) as (k & K1 & Kb & ->).
    destruct (history_settled H Hs) as (k' & K1' & K2 & K3 & K4 & K5). assert (k' = k) as -> by lia.
    destruct (design_all Rops G n g K3 Hd K2) as (s1 & D & _). rewrite D in E. injection E as _ E.
    unfold design_outcome, rows_outcome in E. rewrite K4 in E.
    destruct (Z.leb_spec (Z.of_nat (k + n)) (2 ^ 30 - 1)); [|discriminate E]. cbn [bind] in E. injection E as <-.
    destruct (shifts_ok d g) as [S1 S2]. exists (fst (draws (rg_random G) d g)). split; [exact S1|]. split; [exact S2|].
    intros i j row0 row u x v R0 R1 U X V. unfold random_shift in R1. rewrite nth_error_map, R0 in R1. injection R1 as <-.
    set (sh := fst (draws (rg_random G) d g)) in *. rewrite nth_error_map in V.
    assert (Cx : nth_error (combine row0 sh) j = Some (u, x)).
    { clear -U X. clearbody sh. revert j sh U X. induction row0 as [|a l IH]; intros [|j] [|b sh] U X; try discriminate; cbn in *.
      - congruence.
      - now apply IH. }
    rewrite Cx in V. injection V as <-. cbn [fst snd].
    pose proof (quasi_unit k n (proj2 Hd)) as (_ & _ & Q). rewrite Forall_forall in Q, S2.
    specialize (Q row0 (nth_error_In _ _ R0)). rewrite Forall_forall in Q. specialize (Q u (nth_error_In _ _ U)).
    specialize (S2 x (nth_error_In _ _ X)). change (nadd Rops u x) with (u + x)%R. apply frac_R. lra.
  Qed.

  Lemma sobol_generate_ok skip rand s total dims n g : sobol_history Rops G skip rand s total ->
    1 <= length dims <= 40 -> Forall plain dims -> (skip + Z.of_nat n < 2 ^ 30)%Z -> room skip total n ->
    exists s' pts, sobol_generate Rops G s dims n g = (s', (dims, Ok pts)) /\ length pts = n /\ Forall (in_space Rops dims) pts.
  Proof.
    intros H Hd Hp Hn Hr. assert (Hs : (skip < 2 ^ 30)%Z) by lia. destruct (history_settled H Hs) as (k & K1 & K2 & K3 & K4 & K5).
    unfold sobol_generate. rewrite (proj1 K3), (room_ok (k:=k) (total:=total)); [|exact K5|now rewrite <- K1].
    destruct (design_all Rops G n g K3 Hd K2) as (s1 & D & _). rewrite D.
    unfold design_outcome, rows_outcome. destruct (Z.leb_spec (Z.of_nat (k + n)) (2 ^ 30 - 1)); [|lia]. cbn [bind].
    destruct (@generated dims n (if so_randomize s then random_shift Rops G (quasi_rows Rops (length dims) k n) (length dims) g else quasi_rows Rops (length dims) k n)) as (pts & E & L & F).
    - intros ->. cbn in Hd. lia.
    - exact Hp.
    - assert (S1 : shaped (fun x => 0 <= x < 1)%R (length dims) n (if so_randomize s then random_shift Rops G (quasi_rows Rops (length dims) k n) (length dims) g else quasi_rows Rops (length dims) k n)).
      { pose proof (quasi_unit k n (proj2 Hd)) as Q. destruct (so_randomize s); [now apply shifted_unit|exact Q]. }
      destruct S1 as (A & B & C). split; [exact A|]. split; [exact B|]. eapply Forall_impl; [|exact C]. intros r Hr1.
      eapply Forall_impl; [|exact Hr1]. intros x Hx. unfold unitR. cbn beta in Hx. lra.
    - match goal with |- context [warp_design Rops dims ?h] => assert (E' : warp_design Rops dims h = (dims, Ok pts)) by exact E end. rewrite E'. eexists. eexists. split; [reflexivity|]. auto.
  Qed.
End Exact.

(** ** Samples *)
Definition sob0 (skip : Z) (rand : bool) : sobol := mkSobol skip rand 0 None (-1) (repeat (repeat 0%Z maxcol) dim_max) (-1).
Lemma sob_sample : sobol_history Rops GR 4 false (sob0 4 false) 0 /\
  (2 ^ Z.of_nat 2 | 4 + Z.of_nat 0)%Z /\ room 4 0 4.
Proof. split; [now apply history_new|]. split; [now exists 1%Z|]. right. cbn. lia. Qed.
Lemma sob_run : numR (snd (sobol_design O0 G0 (sob0 0 false) 3 4 1)) =
  Ok [[SpecFloat.S754_zero false; SpecFloat.S754_zero false; SpecFloat.S754_zero false];
      [SpecFloat.S754_finite false 4503599627370496 (-53); SpecFloat.S754_finite false 4503599627370496 (-53); SpecFloat.S754_finite false 4503599627370496 (-53)];
      [SpecFloat.S754_finite false 6755399441055744 (-53); SpecFloat.S754_finite false 4503599627370496 (-54); SpecFloat.S754_finite false 6755399441055744 (-53)];
      [SpecFloat.S754_finite false 4503599627370496 (-54); SpecFloat.S754_finite false 6755399441055744 (-53); SpecFloat.S754_finite false 4503599627370496 (-54)]].
Proof. vm_compute. reflexivity. Qed.
(** Two calls in vain for 41 dimensions and the sequence is another. *)
Definition in_vain (s : sobol) : sobol := fst (sobol_generate O0 G0 s (repeat (int1 KIdentity) 41) 1 1).
Definition used : sobol := fst (sobol_generate O0 G0 (sob0 4 false) [int1 KIdentity] 1 1).
Lemma sob_in_vain : exists p q, show (snd (sobol_generate O0 G0 (sob0 4 false) [int1 KIdentity] 1 1)) = Ok [[VInt p]] /\
  show (snd (sobol_generate O0 G0 (in_vain (in_vain used)) [int1 KIdentity] 1 1)) = Ok [[VInt q]] /\ p <> q.
Proof. vm_compute. do 2 eexists. split; [reflexivity|]. split; [reflexivity|]. discriminate. Qed.
