(** Halton designs in float64 (C64). *)
From Coq Require Import String List ZArith Bool Reals Lra Lia Permutation Psatz.
From Flocq Require Import Core.Core IEEE754.BinarySingleNaN.
From Verif Require Import Base BaseLemmas Num NumLaws Values Dimension Space SpaceSpec SpaceProps2 F64Arith F64Dim Sampler SamplerSpec VdcLemmas PrimeLemmas HaltonLemmas SamplerBest FloatDesign LatinF VdcFSpec VdcF VdcFBest HaltonFSpec.
Import ListNotations.
Open Scope nat_scope.
Open Scope list_scope.

Lemma near_box_of bases : forall ks js row rowR, Forall2 close45 row rowR -> in_box bases ks js rowR -> near_box bases ks js row.
Proof.
  induction bases as [|p ps IH]; intros ks js row rowR H B; destruct ks, js, H as [|x r row rowR [F C] H]; cbn in B |- *; try contradiction; auto.
  destruct B as [B1 B2]. split; [|now apply (IH _ _ _ _ H)]. split; [exact F|]. unfold in_part in B1. lra.
Qed.

Fixpoint box_of (ps ks : list nat) (i : Z) : list Z :=
  match ps, ks with p :: ps', k :: ks' => drev (Z.of_nat p) k i :: box_of ps' ks' i | _, _ => [] end.
Lemma box_of_in : forall ps ks js i, (0 <= i)%Z -> length ks = length ps -> (forall p, In p ps -> 2 <= p) ->
  (in_box ps ks js (map (fun p => phi (Z.of_nat p) i) ps) <-> js = box_of ps ks i).
Proof.
  induction ps as [|p ps IH]; intros [|k ks] js i Hi Lk H2; try discriminate Lk.
  - destruct js; cbn; split; intro H; try contradiction; try discriminate; auto.
  - pose proof (H2 p (or_introl eq_refl)) as Hp. destruct js as [|j js]; cbn [in_box map box_of]; [split; intro H; [contradiction|discriminate]|].
    rewrite (IH ks js i Hi ltac:(now injection Lk) (fun q Hq => H2 q (or_intror Hq))). unfold in_part. rewrite (@phi_interval (Z.of_nat p) ltac:(lia) k i j Hi).
    split; [intros [-> ->]; reflexivity|intro H; injection H as -> ->; now split].
Qed.
Lemma box_of_box : forall ps ks i, length ks = length ps -> (forall p, In p ps -> 2 <= p) -> is_box ps ks (box_of ps ks i).
Proof.
  induction ps as [|p ps IH]; intros [|k ks] i Lk H2; try discriminate Lk; [exact I|]. cbn [box_of is_box]. pose proof (H2 p (or_introl eq_refl)) as Hp.
  split; [apply drev_bounds; lia|]. apply IH; [now injection Lk|intros q Hq; apply H2; now right].
Qed.

Section Halton.
  Context (L : libm).
  Notation O := (F64 L).
  Context {RNG : Type} (G : rng_ops float RNG) (Gok : rng_ok O G).
  Lemma skip_bound a ps g : skip_counts a -> ps <> [] ->
    exists s g', halton_skip G (h_min a) (h_max a) ps g = (Ok s, g') /\ (0 <= s)%Z /\ exists q, In q ps /\ (s <= Z.max (Z.of_nat q) (Z.max (h_min a) (h_max a)))%Z.
  Proof.
    intros Hs Hps. unfold halton_skip. destruct ps as [|p0 ps]; [contradiction|].
    destruct (Z.eqb_spec (h_min a) (h_max a)) as [Eq|NE].
    - do 2 eexists. split; [reflexivity|]. split; [destruct Hs; lia|]. exists p0. split; [now left|lia].
    - destruct (Z.ltb_spec (h_min a) 0) as [L2|L2], (Z.ltb_spec (h_max a) 0) as [L3|L3]; cbn [andb orb].
      + do 2 eexists. split; [reflexivity|]. split; [lia|]. exists (fold_left Nat.max ps p0). split; [apply fold_max_in|lia].
      + destruct Hs; lia.
      + destruct Hs; lia.
      + destruct (Z.leb_spec (h_max a) (h_min a)) as [L4|L4]; [destruct Hs; lia|].
        destruct (rg_randint G g (h_min a) (h_max a)) as [s g'] eqn:Eg. do 2 eexists. split; [reflexivity|].
        destruct Gok as (_ & HG & _). pose proof (HG g (h_min a) (h_max a) L4) as B. rewrite Eg in B. simpl in B. split; [lia|]. exists p0. split; [now left|lia].
  Qed.
  Lemma row_close ps i : (0 <= i)%Z -> (forall p, In p ps -> 2 <= p) -> (forall p, In p ps -> (Z.of_nat p * Z.max 1 i <= 2 ^ 45)%Z) ->
    exists row, mapM (fun p => vdc O (Z.of_nat p) i) ps = Ok row /\ Forall2 close45 row (map (fun p => phi (Z.of_nat p) i) ps).
  Proof.
    intros Hi. induction ps as [|p ps IH]; intros H2 H45; [exists []; split; [reflexivity|constructor]|].
    destruct IH as (row & E & F); [intros; apply H2; now right|intros; apply H45; now right|].
    pose proof (H2 p (or_introl eq_refl)) as A. pose proof (H45 p (or_introl eq_refl)) as B.
    destruct (@c44_close L (Z.of_nat p) i) as (x & r & Ex & Er & C & _); [nia|exact Hi|nia|]. rewrite vdc_phi in Er by lia. injection Er as <-.
    exists (x :: row). cbn [mapM map]. rewrite Ex. cbn [bind]. rewrite E. split; [reflexivity|]. now constructor.
  Qed.
  Lemma rows_close ps s : (forall p, In p ps -> 2 <= p) -> forall l, (forall j, In j l -> (0 <= Z.of_nat j + s)%Z) ->
    (forall p j, In p ps -> In j l -> (Z.of_nat p * Z.max 1 (Z.of_nat j + s) <= 2 ^ 45)%Z) ->
    exists h, mapM (fun j => mapM (fun p => vdc O (Z.of_nat p) (Z.of_nat j + s)) ps) l = Ok h /\
      Forall2 (Forall2 close45) h (map (fun j => map (fun p => phi (Z.of_nat p) (Z.of_nat j + s)) ps) l).
  Proof.
    intros H2. induction l as [|j l IH]; intros H0 HB; [exists []; split; [reflexivity|constructor]|].
    destruct IH as (h & E & F); [intros; apply H0; now right|intros; apply HB; [assumption|now right]|].
    destruct (@row_close ps (Z.of_nat j + s)) as (row & Er & Fr); [apply H0; now left|exact H2|intros p Hp; apply HB; [exact Hp|now left]|].
    exists (row :: h). cbn [mapM map]. rewrite Er. cbn [bind]. rewrite E. split; [reflexivity|]. now constructor.
  Qed.
  Lemma forall2_nth {A B} (P : A -> B -> Prop) l l' : Forall2 P l l' -> forall i y, nth_error l' i = Some y -> exists x, nth_error l i = Some x /\ P x y.
  Proof. intros F. induction F as [|x y l l' H F IH]; intros [|i] z E; cbn in E |- *; try discriminate; [injection E as <-; eauto|now apply IH]. Qed.

  Lemma c64_float a d n g : 0 < d -> match h_primes a with None => True | Some l => length l < d end -> skip_counts a -> in_reach a d n ->
    exists ps h, first_primes d ps /\ fst (halton_design O G a d n g) = Ok h /\ length h = n /\
      forall ks s, length ks = d -> (Z.of_nat s + box_count ps ks <= Z.of_nat n)%Z ->
        one_per_box ps ks h s (Z.to_nat (box_count ps ks)) (near_box ps ks).
  Proof.
    intros Hd Hg Ha Hr. destruct (halton_primes_spec _ _ Hg) as (ps & E & Ln & S1 & P & D).
    unfold halton_design. rewrite E. destruct (@skip_bound a ps g Ha) as (s & g' & Es & Hs & q & Hq & Hsq).
    { intros ->. simpl in Ln. lia. }
    rewrite Es. cbn [bind fst].
    destruct (@rows_close ps s) with (l := seq 0 n) as (h & Eh & Fh).
    - intros p Hp. now destruct (P p Hp).
    - intros j _. lia.
    - intros p j Hp Hj. apply in_seq in Hj. pose proof (Hr ps E p q Hp Hq) as H.
      transitivity (Z.of_nat p * (Z.of_nat n + Z.max 1 (Z.max (Z.of_nat q) (Z.max (h_min a) (h_max a)))))%Z; [|exact H].
      apply Z.mul_le_mono_nonneg_l; lia.
    - exists ps, h. split; [exact (conj Ln (conj S1 (conj P D)))|]. split; [exact Eh|].
      split; [rewrite (Forall2_len Fh), map_length, seq_length; reflexivity|].
      intros ks s0 Hk Hn. assert (ND : NoDup ps) by now apply sorted_nodup.
      assert (Lk : length ks = length ps) by congruence. assert (P2 : forall p, In p ps -> 2 <= p) by (intros p Hp; now destruct (P p Hp)).
      assert (HP : (0 < box_count ps ks)%Z) by (apply box_count_pos; intros p Hp; specialize (P2 p Hp); lia).
      assert (Rw : forall i, i < n -> nth_error (rows_of ps s n) i = Some (map (fun p => phi (Z.of_nat p) (Z.of_nat i + s)) ps)) by (intros i Hi; now apply rows_nth).
      exists (fun i => box_of ps ks (Z.of_nat i + s)). split.
      + intros i Hi. split; [now apply box_of_box|]. destruct (forall2_nth _ _ _ Fh i _ (Rw i ltac:(lia))) as (rowF & EF & CF). exists rowF. split; [exact EF|].
        apply (@near_box_of ps ks _ rowF _ CF). apply box_of_in; auto. lia.
      + intros js Hb. destruct (@rows_boxes ps s n ks js s0 P ND Hs Hb Hn) as (i & (Hi & row & Er & Br) & U). exists i. split.
        * split; [exact Hi|]. rewrite Rw in Er by lia. injection Er as <-. symmetry. apply (@box_of_in ps ks js (Z.of_nat i + s)); auto. lia.
        * intros i' [Hi' E']. symmetry. apply U. split; [exact Hi'|]. eexists. split; [apply Rw; lia|]. apply box_of_in; auto. lia.
  Qed.
End Halton.
