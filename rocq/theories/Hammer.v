(** Hammersly designs are jointly balanced (C104). *)
From Coq Require Import String List ZArith Bool Reals Lra Lia Psatz.
From Verif Require Import Base BaseLemmas Num NumLaws Values Dimension Space SpaceSpec SpaceProps2 Sampler SamplerSpec VdcLemmas PrimeLemmas HaltonLemmas SamplerBest HammerSpec.
Import ListNotations.
Open Scope nat_scope.
Open Scope list_scope.

Lemma linspace_R n : removelast (linspace01 Rops n) = map (fun i => (INR i * (1 / INR n))%R) (seq 0 n).
Proof.
  unfold linspace01. rewrite seq_S, map_app. cbn [map]. rewrite removelast_last. apply map_ext_in. intros i Hi. apply in_seq in Hi.
  replace (Nat.eqb i n) with false by (symmetry; apply Nat.eqb_neq; lia). cbn [nmul ndiv nofZ Rops]. now rewrite <- !INR_IZR_INZ.
Qed.
Lemma combine_nth_error {A B} (l : list A) : forall (l' : list B) i, nth_error (combine l l') i = match nth_error l i, nth_error l' i with Some a, Some b => Some (a, b) | _, _ => None end.
Proof. induction l as [|a l IH]; intros [|b l'] [|i]; cbn; auto. now destruct (nth_error l i). Qed.

Section Hammer.
  Context {RNG : Type} (G : rng_ops R RNG) (Gok : rng_ok Rops G).
  Lemma c104_boxes a d n g : 2 <= d -> match h_primes a with None => True | Some l => length l < d - 1 end -> skip_counts a ->
    exists ps h, first_primes (d - 1) ps /\ hammersly_design Rops G a d n g = Ok h /\ length h = n /\
      (forall i pt, nth_error h i = Some pt -> exists row, pt = row ++ [(INR i / INR n)%R]) /\
      forall ks js s, is_box ps ks js -> (Z.of_nat s + box_count ps ks <= Z.of_nat n)%Z ->
        one_in_stretch h 0 n (in_box_slab ps ks js n s (Z.to_nat (box_count ps ks))).
  Proof.
    intros Hd Hg Ha. destruct (@c64_boxes _ G Gok a (d - 1) n g ltac:(lia) Hg Ha) as (ps & h & Hp & E & Ln & B).
    unfold hammersly_design. replace (Nat.eqb d 1) with false by (symmetry; apply Nat.eqb_neq; lia). rewrite E. cbn [bind].
    set (xs := removelast (linspace01 Rops n)). set (h' := map _ (combine h xs)). exists ps, h'. split; [exact Hp|]. split; [reflexivity|].
    assert (Nx : forall i, i < n -> nth_error xs i = Some (INR i / INR n)%R).
    { intros i Hi. unfold xs. rewrite linspace_R, nth_error_map, (nth_error_nth' _ 0) by now rewrite seq_length.
      rewrite seq_nth by exact Hi. cbn [option_map]. f_equal. unfold Rdiv. cbn [Nat.add]. ring. }
    assert (Nh : forall i, nth_error h' i = match nth_error h i with Some row => Some (row ++ [(INR i / INR n)%R]) | None => None end).
    { intros i. unfold h'. rewrite nth_error_map, combine_nth_error. destruct (nth_error h i) as [row|] eqn:Er; [|reflexivity].
      rewrite Nx by (rewrite <- Ln; apply nth_error_Some; congruence). reflexivity. }
    split; [unfold h'; rewrite map_length, combine_length, Ln; unfold xs; rewrite linspace_R, map_length, seq_length; lia|].
    split.
    - intros i pt Ei. rewrite Nh in Ei. destruct (nth_error h i) as [row|]; [|discriminate]. injection Ei as <-. now exists row.
    - intros ks js s Hb Hn. destruct Hp as (Lp & S1 & P & D).
      assert (HP : (0 < box_count ps ks)%Z) by (apply box_count_pos; intros q Hq; destruct (P q Hq); lia).
      assert (N0 : (0 < INR n)%R) by (apply lt_0_INR; lia).
      assert (Fr : forall i k, ((INR i / INR n <= INR k / INR n)%R <-> i <= k) /\ ((INR i / INR n < INR k / INR n)%R <-> i < k)).
      { intros i k. split; split; intro H.
        - apply INR_le. apply Rmult_le_reg_r with (/ INR n)%R; [now apply Rinv_0_lt_compat|exact H].
        - apply Rmult_le_compat_r; [apply Rlt_le; now apply Rinv_0_lt_compat|now apply le_INR].
        - apply INR_lt. apply Rmult_lt_reg_r with (/ INR n)%R; [now apply Rinv_0_lt_compat|exact H].
        - apply Rmult_lt_compat_r; [now apply Rinv_0_lt_compat|now apply lt_INR]. }
      destruct (B ks js s Hb Hn) as (i & (Hi & row & Er & Br) & U). exists i. split.
      + split; [lia|]. exists (row ++ [(INR i / INR n)%R]). split; [now rewrite Nh, Er|]. exists row, (INR i / INR n)%R.
        split; [reflexivity|]. split; [exact Br|]. split; apply Fr; lia.
      + intros i' (Hi' & pt & Ep & row' & y & -> & Br' & Hy). rewrite Nh in Ep. destruct (nth_error h i') as [r|] eqn:Er'; [|discriminate].
        injection Ep as Ep. apply app_inj_tail in Ep. destruct Ep as (-> & <-). destruct Hy as (Y1 & Y2). apply Fr in Y1. apply Fr in Y2.
        apply U. split; [lia|]. exists row'. split; [exact Er'|exact Br'].
  Qed.
End Hammer.
Lemma c104_case : is_box [2; 3] [1; 1] [1; 2]%Z /\ (Z.of_nat 4 + box_count [2; 3]%nat [1; 1]%nat <= Z.of_nat 10)%Z /\ skip_counts (mkHalton 0 0 None).
Proof. split; [cbn; lia|]. split; [vm_compute; discriminate|]. left. cbn. lia. Qed.
