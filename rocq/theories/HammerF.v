(** Hammersly designs in float64 (C104). *)
From Coq Require Import String List ZArith Bool Reals Lra Lia Psatz.
From Flocq Require Import Core.Core IEEE754.BinarySingleNaN.
From Verif Require Import Base BaseLemmas Num NumLaws Values Dimension Space SpaceSpec SpaceProps2 F64Arith F64Dim Sampler SamplerSpec VdcLemmas PrimeLemmas HaltonLemmas DesignLemmas SamplerBest FloatDesign GeneratorCases LatinF HaltonFSpec HaltonF Hammer HammerFSpec.
Import ListNotations.
Open Scope nat_scope.
Open Scope list_scope.

Section Hammer.
  Context (L : libm).
  Notation O := (F64 L).
  Context {RNG : Type} (G : rng_ops float RNG) (Gok : rng_ok O G).
  Lemma tick_near n i : i < n -> (Z.of_nat n <= 2 ^ 45)%Z -> near_tick n i (lin O n i).
  Proof.
    intros Hi Hn. split; [apply (@lin_F L n i); lia|]. pose proof (@lin_near L n i ltac:(lia) ltac:(lia) Hn) as H.
    assert (E : (/ IZR (2 ^ 51) = 2 * e52)%R).
    { replace (IZR (2 ^ 52)) with (2 * IZR (2 ^ 51))%R by (rewrite <- mult_IZR; f_equal). field. apply not_0_IZR. easy. }
    rewrite E. exact H.
  Qed.
  Lemma c104_float a d n g : 2 <= d -> match h_primes a with None => True | Some l => length l < d - 1 end -> skip_counts a -> in_reach a (d - 1) n ->
    exists ps h, first_primes (d - 1) ps /\ hammersly_design O G a d n g = Ok h /\ length h = n /\
      (forall i pt, nth_error h i = Some pt -> exists row y, pt = row ++ [y] /\ near_tick n i y) /\
      forall ks s, length ks = d - 1 -> (Z.of_nat s + box_count ps ks <= Z.of_nat n)%Z ->
        one_per_box ps ks h s (Z.to_nat (box_count ps ks)) (fun js pt => exists row y, pt = row ++ [y] /\ near_box ps ks js row).
  Proof.
    intros Hd Hg Ha Hr. destruct (@c64_float L _ G Gok a (d - 1) n g ltac:(lia) Hg Ha Hr) as (ps & h & Hp & E & Ln & B).
    assert (Hn : (Z.of_nat n <= 2 ^ 45)%Z).
    { destruct (halton_primes_spec _ _ Hg) as (qs & Eq & Lq & _ & P & _). destruct qs as [|q qs]; [simpl in Lq; lia|].
      pose proof (Hr _ Eq q q (or_introl eq_refl) (or_introl eq_refl)) as H. destruct (P q (or_introl eq_refl)) as (Q & _). nia. }
    unfold hammersly_design. replace (Nat.eqb d 1) with false by (symmetry; apply Nat.eqb_neq; lia). rewrite E. cbn [bind]. rewrite linspace01_init.
    set (h' := map _ (combine h _)). exists ps, h'. split; [exact Hp|]. split; [reflexivity|].
    assert (Nh : forall i, nth_error h' i = match nth_error h i with Some row => Some (row ++ [lin O n i]) | None => None end).
    { intros i. unfold h'. rewrite nth_error_map, combine_nth_error. destruct (nth_error h i) as [row|] eqn:Er; [|reflexivity].
      assert (Hi : i < n) by (rewrite <- Ln; apply nth_error_Some; congruence).
      rewrite nth_error_map, (nth_error_nth' _ 0) by now rewrite seq_length. rewrite seq_nth by exact Hi. reflexivity. }
    split; [unfold h'; rewrite map_length, combine_length, Ln, map_length, seq_length; lia|]. split.
    - intros i pt Ei. rewrite Nh in Ei. destruct (nth_error h i) as [row|] eqn:Er; [|discriminate]. injection Ei as <-. exists row, (lin O n i).
      split; [reflexivity|]. apply tick_near; [rewrite <- Ln; apply nth_error_Some; congruence|exact Hn].
    - intros ks s Hk Hc. destruct (B ks s Hk Hc) as (box & B1 & B2). exists box. split; [|exact B2]. intros i Hi. destruct (B1 i Hi) as (Bi & row & Er & Br).
      split; [exact Bi|]. exists (row ++ [lin O n i]). split; [now rewrite Nh, Er|]. now exists row, (lin O n i).
  Qed.
End Hammer.
