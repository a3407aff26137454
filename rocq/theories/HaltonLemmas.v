(** Halton and Hammersly designs in exact arithmetic. *)
From Coq Require Import String List ZArith Bool Reals Lra Lia Znumtheory Zpow_facts Psatz Sorting.Sorted.
From Verif Require Import Base Num NumLaws BaseLemmas Values Transformers Dimension Space Sampler SamplerSpec.
From Verif Require Import VdcLemmas PrimeLemmas.
Import ListNotations.
Open Scope nat_scope.
Open Scope list_scope.
Set Implicit Arguments.

Lemma is_prime_Z p : is_prime p -> prime (Z.of_nat p).
Proof.
  intros [H2 Hd]. apply prime_intro; [lia|]. intros n Hn. constructor; try apply Z.divide_1_l.
  intros x X1 X2. assert (D : Nat.divide (Z.to_nat (Z.abs x)) p).
  { destruct X2 as [q Hq]. exists (Z.to_nat (Z.abs q)). apply Nat2Z.inj.
    rewrite Nat2Z.inj_mul, !Z2Nat.id by lia. rewrite <- Z.abs_mul, <- Hq. lia. }
  assert (A : (Z.abs x | n)%Z) by now apply Z.divide_abs_l.
  destruct (Hd _ D) as [E|E].
  - assert (Z.abs x = 1)%Z by lia. destruct (Z.abs_eq_or_opp x) as [Y|Y]; rewrite H in Y.
    + subst x. apply Z.divide_refl.
    + exists (-1)%Z. lia.
  - exfalso. assert (Z.abs x = Z.of_nat p)%Z by lia. rewrite H in A. apply Z.divide_pos_le in A; lia.
Qed.

Lemma cong P n c : (0 < P)%Z -> ((n mod P = c mod P)%Z <-> (P | n - c)%Z).
Proof.
  intro HP. split.
  - intro E. apply Z.mod_divide; [lia|]. rewrite Zminus_mod, E, Z.sub_diag. now apply Z.mod_0_l; lia.
  - intros [q Hq]. replace n with (c + q * P)%Z by lia. now rewrite Z.mod_add by lia.
Qed.

Lemma crt A B a b : (0 < A)%Z -> (0 < B)%Z -> rel_prime A B ->
  exists c, forall n, (n mod (A * B) = c mod (A * B))%Z <-> (n mod A = a mod A /\ n mod B = b mod B)%Z.
Proof.
  intros HA HB HR. destruct (rel_prime_bezout _ _ HR) as [u v E].
  exists (a * (v * B) + b * (u * A))%Z. intro n.
  rewrite !cong by nia. split.
  - intros [q Hq]. split.
    + exists (q * B + b * u - a * u)%Z. replace (v * B)%Z with (1 - u * A)%Z in Hq by lia.
      replace n with (q * (A * B) + (a * (1 - u * A) + b * (u * A)))%Z by lia. ring.
    + exists (q * A + a * v - b * v)%Z. replace (u * A)%Z with (1 - v * B)%Z in Hq by lia.
      replace n with (q * (A * B) + (a * (v * B) + b * (1 - v * B)))%Z by lia. ring.
  - intros [[q Hq] [r Hr]].
    assert (X : (n - (a * (v * B) + b * (u * A)) = (u * r + v * q) * (A * B))%Z).
    { replace n with (n * (u * A + v * B))%Z at 1 by (rewrite E; lia).
      transitivity ((n - b) * u * A + (n - a) * v * B)%Z; [ring|]. rewrite Hq, Hr. ring. }
    exists (u * r + v * q)%Z. exact X.
Qed.

Lemma box_count_pos : forall ps ks, (forall p, In p ps -> 1 <= p) -> (0 < box_count ps ks)%Z.
Proof.
  induction ps as [|p ps IH]; intros [|k ks] H; cbn [box_count]; try lia.
  apply Z.mul_pos_pos; [apply Z.pow_pos_nonneg; [specialize (H p (or_introl eq_refl)); lia|lia]|].
  apply IH. intros q Hq. apply H. now right.
Qed.

Lemma box_rel_prime p : prime (Z.of_nat p) -> forall ps ks k, (forall q, In q ps -> prime (Z.of_nat q)) -> ~ In p ps ->
  rel_prime (Z.of_nat p ^ Z.of_nat k) (box_count ps ks).
Proof.
  intros Hp. induction ps as [|q ps IH]; intros [|k' ks] k Hps Hn; cbn [box_count]; try apply rel_prime_sym, rel_prime_1.
  apply rel_prime_mult.
  - apply rel_prime_Zpower; [lia|lia|]. apply prime_rel_prime; [assumption|].
    intro D. apply prime_div_prime in D; [|assumption|apply Hps; now left]. apply Hn. left. lia.
  - apply IH; [intros q' Hq'; apply Hps; now right|]. intro Hi. apply Hn. now right.
Qed.

Lemma box_residue : forall ps ks js, (forall p, In p ps -> is_prime p) -> NoDup ps -> is_box ps ks js ->
  exists c, forall n, (0 <= n)%Z ->
    (in_box ps ks js (map (fun p => phi (Z.of_nat p) n) ps) <-> (n mod box_count ps ks = c mod box_count ps ks)%Z).
Proof.
  induction ps as [|p ps IH]; intros ks js Hp Hnd Hb; destruct ks as [|k ks], js as [|j js]; cbn [is_box] in Hb; try contradiction.
  - exists 0%Z. intros n _. cbn [map in_box box_count]. rewrite !Z.mod_1_r. tauto.
  - destruct Hb as [Hj Hb]. inversion Hnd as [|? ? Hni Hnd']; subst.
    destruct (IH ks js) as [c Hc]; [intros q Hq; apply Hp; now right|assumption|assumption|].
    assert (Pp : is_prime p) by (apply Hp; now left).
    assert (H1 : (1 < Z.of_nat p)%Z) by (destruct Pp; lia).
    destruct (drev_surj H1 k Hj) as (c0 & _ & E0).
    destruct (@crt (Z.of_nat p ^ Z.of_nat k) (box_count ps ks) c0 c) as [c' Hc'].
    + apply Z.pow_pos_nonneg; lia.
    + apply box_count_pos. intros q Hq. destruct (Hp q (or_intror Hq)); lia.
    + apply box_rel_prime; [now apply is_prime_Z|intros q Hq; apply is_prime_Z, Hp; now right|assumption].
    + exists c'. intros n Hn. cbn [map in_box box_count]. rewrite Hc', <- (Hc n Hn).
      unfold in_part. rewrite (phi_interval H1 k j Hn). rewrite <- E0.
      assert (X : drev (Z.of_nat p) k n = drev (Z.of_nat p) k c0 <-> (n mod Z.of_nat p ^ Z.of_nat k = c0 mod Z.of_nat p ^ Z.of_nat k)%Z).
      { split; [now apply drev_inj|now apply drev_mod]. }
      rewrite X. tauto.
Qed.

Section Rows.
  Context {RNG : Type} (G : rng_ops R RNG).

  Definition rows_of (primes : list nat) (skip : Z) (n : nat) : list (list R) :=
    map (fun j => map (fun p => phi (Z.of_nat p) (Z.of_nat j + skip)) primes) (seq 0 n).
  Lemma mapM_pure {A B} (f : A -> res B) (h : A -> B) l : (forall x, In x l -> f x = Ok (h x)) -> mapM f l = Ok (map h l).
  Proof.
    induction l as [|x l IH]; intro H; [reflexivity|]. cbn [mapM map]. rewrite (H x (or_introl eq_refl)). cbn [bind].
    rewrite IH by (intros y Hy; apply H; now right). reflexivity.
  Qed.
  Lemma halton_rows_spec primes skip n : (forall p, In p primes -> 2 <= p) -> (0 <= skip)%Z ->
    halton_rows Rops primes skip n = Ok (rows_of primes skip n).
  Proof.
    intros Hp Hs. unfold halton_rows, rows_of. apply mapM_pure. intros j Hj. apply mapM_pure. intros p Hpi.
    apply vdc_phi; [specialize (Hp p Hpi)|]; lia.
  Qed.

  Lemma rows_nth primes skip n i : i < n ->
    nth_error (rows_of primes skip n) i = Some (map (fun p => phi (Z.of_nat p) (Z.of_nat i + skip)) primes).
  Proof.
    intro H. unfold rows_of. rewrite nth_error_map, (nth_error_nth' _ 0) by now rewrite seq_length.
    rewrite seq_nth by exact H. reflexivity.
  Qed.

  Lemma rows_boxes ps skip n ks js s : (forall p, In p ps -> is_prime p) -> NoDup ps -> (0 <= skip)%Z -> is_box ps ks js ->
    (Z.of_nat s + box_count ps ks <= Z.of_nat n)%Z ->
    one_in_stretch (rows_of ps skip n) s (Z.to_nat (box_count ps ks)) (in_box ps ks js).
  Proof.
    intros Hp Hnd Hs Hb Hn. destruct (@box_residue ps ks js Hp Hnd Hb) as [c Hc].
    assert (HP : (0 < box_count ps ks)%Z) by (apply box_count_pos; intros q Hq; destruct (Hp q Hq); lia).
    destruct (one_residue (Z.of_nat s + skip) c HP) as (m & Hm & Em & U).
    exists (Z.to_nat (m - skip)). split.
    - split; [lia|]. eexists. split; [apply rows_nth; lia|].
      replace (Z.of_nat (Z.to_nat (m - skip)) + skip)%Z with m by lia. apply Hc; [lia|exact Em].
    - intros i (Hi & row & Hr & Hin). rewrite rows_nth in Hr by lia. injection Hr as <-.
      apply Hc in Hin; [|lia]. assert ((Z.of_nat i + skip)%Z = m) by (apply U; [lia|exact Hin]). lia.
  Qed.

  (** The indices used are not negative. *)
  Definition skip_counts (a : halton_args) : Prop :=
    (0 <= h_min a)%Z /\ (h_min a <= h_max a)%Z \/ (h_min a < 0 /\ h_max a < 0 /\ h_min a <> h_max a)%Z.
  Lemma halton_skip_ok a ps g : rng_ok Rops G -> skip_counts a -> ps <> [] ->
    exists s g', halton_skip G (h_min a) (h_max a) ps g = (Ok s, g') /\ (0 <= s)%Z.
  Proof.
    intros HG Ha Hps. unfold halton_skip.
    destruct (Z.eqb_spec (h_min a) (h_max a)) as [E|NE].
    - do 2 eexists. split; [reflexivity|]. destruct Ha; lia.
    - destruct (Z.ltb_spec (h_min a) 0) as [L1|L1], (Z.ltb_spec (h_max a) 0) as [L2|L2]; cbn [andb orb].
      + destruct ps as [|p ps]; [contradiction|]. do 2 eexists. split; [reflexivity|lia].
      + destruct Ha; lia.
      + destruct Ha; lia.
      + destruct (Z.leb_spec (h_max a) (h_min a)) as [L3|L3]; [destruct Ha; lia|].
        destruct (rg_randint G g (h_min a) (h_max a)) as [s g'] eqn:E. do 2 eexists. split; [reflexivity|].
        destruct HG as (_ & HG & _). pose proof (HG g (h_min a) (h_max a) L3) as B. rewrite E in B. simpl in B. lia.
  Qed.
End Rows.
