(** Three points of a Latin hypercube in float64. *)
From Coq Require Import String List ZArith Bool Reals Lra Lia Permutation.
From Flocq Require Import Core.Core IEEE754.BinarySingleNaN.
From Verif Require Import Base Num NumLaws Values Dimension Space Samples SpaceProps2 F64Arith F64Dim Sampler LatinFSpec LatinF GeneratorCases.
Import ListNotations.
Open Scope nat_scope.
Open Scope list_scope.

Definition two_thirds : float := fdiv (fofZ 2) (fofZ 3).
Lemma two_thirds_below : is_finite two_thirds = true /\ (B2R two_thirds < INR 2 / INR 3)%R.
Proof.
  split; [now vm_compute|]. assert (E : B2SF two_thirds = SpecFloat.S754_finite false 6004799503160661 (-53)) by now vm_compute.
  rewrite <- SF2R_B2SF, E. unfold SF2R, F2R. cbn [Fnum Fexp cond_Zopp]. 
  change (bpow radix2 (-53)) with (/ IZR (2 ^ 53))%R.
  assert (P : (0 < IZR (2 ^ 53))%R) by (apply IZR_lt; now vm_compute). cbn [INR].
  apply Rmult_lt_reg_r with (IZR (2 ^ 53) * 3)%R; [lra|].
  replace (IZR (Z.pos 6004799503160661) * / IZR (2 ^ 53) * (IZR (2 ^ 53) * 3))%R with (IZR (6004799503160661 * 3)) by (rewrite mult_IZR; field; lra).
  replace ((1 + 1) / (1 + 1 + 1) * (IZR (2 ^ 53) * 3))%R with (IZR (2 ^ 53 * 2)) by (rewrite mult_IZR; field). apply IZR_lt. now vm_compute.
Qed.
Definition below (row : list float) : bool := match row with [v] => is_finite v && fleb v two_thirds | _ => false end.
Lemma c43_refuted : exists h g', lhs_design O0 G0 flat_stats LClassic CNone 0 1 3 0 = (Ok h, g') /\ length h = 3 /\ ~ one_each (exact_part 3) 3 0 h.
Proof.
  assert (C : match lhs_design O0 G0 flat_stats LClassic CNone 0 1 3 0 with (Ok h, _) => Nat.eqb (length h) 3 && forallb below h | _ => false end = true) by (vm_compute; reflexivity).
  destruct (lhs_design O0 G0 flat_stats LClassic CNone 0 1 3 0) as [[h|x] g']; [|discriminate]. apply andb_true_iff in C. destruct C as (C1 & C2). apply Nat.eqb_eq in C1.
  exists h, g'. split; [reflexivity|]. split; [exact C1|]. intros (_ & o & Po & H).
  assert (I : In 2 o) by (apply (Permutation_in _ (Permutation_sym Po)); cbn; auto). apply In_nth_error in I. destruct I as (i & Ei).
  assert (Li : i < 3) by (rewrite <- (seq_length 3 0), <- (Permutation_length Po); apply nth_error_Some; congruence).
  destruct (nth_error h i) as [row|] eqn:Er; [|apply nth_error_None in Er; lia]. destruct (H i row Er) as (k & v & Ek & Ev & _ & V & _). rewrite Ei in Ek. injection Ek as <-.
  rewrite forallb_forall in C2. specialize (C2 row (nth_error_In _ _ Er)). unfold below in C2. destruct row as [|w [|? ?]]; try discriminate. cbn in Ev. injection Ev as ->.
  apply andb_true_iff in C2. destruct C2 as (Fv & Lv). destruct two_thirds_below as (Ft & Bt). apply fleb_finite in Lv; auto. lra.
Qed.
Lemma c43_float_case : rng_ok O0 G0 /\ (Z.of_nat 3 <= 2 ^ 45)%Z /\
  exists h g', lhs_design O0 G0 flat_stats LClassic CNone 0 1 3 0 = (Ok h, g') /\ one_each (near_part 3) 3 0 h.
Proof.
  assert (Gok : rng_ok O0 G0) by apply G0_ok. split; [exact Gok|]. assert (B : (Z.of_nat 3 <= 2 ^ 45)%Z) by now vm_compute. split; [exact B|].
  destruct c43_refuted as (h & g' & E & _). exists h, g'. split; [exact E|].
  pose proof (@c43_float L0 nat G0) as H. fold O0 in H. assert (T : LClassic <> LOtherType) by discriminate. exact (H Gok flat_stats LClassic CNone 0 1 3 0 h g' T B E 0 Nat.lt_0_1).
Qed.
