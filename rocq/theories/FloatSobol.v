(** The Sobol generator in float64. *)
From Coq Require Import String List ZArith Bool Reals Lra Lia Psatz.
From Flocq Require Import Core.Core IEEE754.BinarySingleNaN.
From Verif Require Import Base BaseLemmas Num NumLaws NormLaws Values Transformers Dimension Space SpaceSpec DimLemmas
  F64Arith F64Dim SampleLemmas Sampler SamplerSpec WarpLemmas DesignLemmas Sobol SobolState SobolSpec SobolLemmas SobolProps FloatDesign.
Import ListNotations.
Open Scope nat_scope.
Open Scope list_scope.
Set Implicit Arguments.
Local Arguments Z.pow : simpl never.

Section Float.
  Context (L : libm) (Pow : pow_ok L).
  Notation O := (F64 L).

  (** A multiple of 2^-30 below 1. *)
  Definition dyadic (x : float) : Prop := is_finite x = true /\ (0 <= B2R x <= 1 - / IZR (2 ^ 30))%R.
  Lemma recipd_F : is_finite (recipd O) = true /\ B2R (recipd O) = (/ IZR (2 ^ 30))%R.
  Proof.
    unfold recipd. cbn [ndiv nofZ F64].
    assert (E : B2SF (fdiv (fofZ 1) (fofZ (2 ^ 30))) = SpecFloat.S754_finite false 4503599627370496 (-82)) by now vm_compute.
    destruct (fdiv (fofZ 1) (fofZ (2 ^ 30))) as [s|s| |s m e B]; try easy. split; [easy|].
    simpl in E. injection E as -> -> ->. simpl. unfold F2R. simpl.
    change (Z.pow_pos 2 82) with (2 ^ 52 * 2 ^ 30)%Z. rewrite mult_IZR. change 4503599627370496%Z with (2 ^ 52)%Z.
    field. split; apply not_0_IZR; easy.
  Qed.
  Lemma dyadic_q q : (0 <= q < 2 ^ 30)%Z -> dyadic (nmul O (nofZ O q) (recipd O)).
  Proof.
    intro Hq. destruct recipd_F as [Fr Er]. cbn [nmul nofZ F64].
    assert (P : (2 ^ 30 <= 2 ^ 53)%Z) by now vm_compute. destruct (fofZ_exact q ltac:(lia)) as [Fq Eq].
    assert (T : (0 < / IZR (2 ^ 30))%R) by (apply Rinv_0_lt_compat, IZR_lt; now vm_compute).
    assert (Tt : (IZR (2 ^ 30) * / IZR (2 ^ 30) = 1)%R) by (apply Rinv_r, not_0_IZR; easy).
    assert (B : (0 <= IZR q <= IZR (2 ^ 30) - 1)%R) by (rewrite <- minus_IZR; split; apply IZR_le; lia).
    assert (M : (0 <= IZR q * / IZR (2 ^ 30) <= 1 - / IZR (2 ^ 30))%R) by (set (t := (/ IZR (2 ^ 30))%R) in *; nra).
    assert (R1 : rnd (1 - / IZR (2 ^ 30)) = (1 - / IZR (2 ^ 30))%R).
    { apply round_generic; [apply valid_rnd_N|]. apply generic_format_FLT with (emin := (-1074)%Z) (prec := 53%Z).
      exists (Float radix2 (2 ^ 30 - 1) (-30)); [|now vm_compute|now vm_compute].
      unfold F2R. cbn [Fnum Fexp]. change (bpow radix2 (-30)) with (/ IZR (2 ^ 30))%R. rewrite minus_IZR. lra. }
    destruct (@fmul_ok (fofZ q) (recipd O) Fq Fr) as [F E]; rewrite ?Eq, ?Er in *.
    { apply Rle_trans with (Rabs (IZR 1)); [rewrite !Rabs_pos_eq; lra|apply big_Z; now vm_compute]. }
    split; [exact F|]. rewrite E. split; [rewrite <- rnd_0; apply rnd_mono; lra|]. rewrite <- R1. apply rnd_mono. lra.
  Qed.
  Lemma dyadic_unit x : dyadic x -> unitF x.
  Proof.
    intros [F B]. apply unit1; [exact F|]. assert (0 < / IZR (2 ^ 30))%R by (apply Rinv_0_lt_compat, IZR_lt; now vm_compute). lra.
  Qed.
  Lemma quasi_F d from n : d <= 40 -> shaped dyadic d n (quasi_rows O d from n).
  Proof.
    intro Hd. split; [unfold quasi_rows; now rewrite map_length, seq_length|]. unfold quasi_rows.
    split; apply Forall_map, Forall_forall; intros i _; unfold quasi_row.
    - rewrite map_length. apply qrow_len.
    - apply Forall_map, Forall_forall. intros q Hq. unfold qrow in Hq. apply in_map_iff in Hq. destruct Hq as (j & <- & Hj).
      apply in_seq in Hj. apply dyadic_q, qn_range, drow_directions. unfold dim_max. lia.
  Qed.

  Context {RNG : Type} (G : rng_ops float RNG) (Gok : rng_ok O G).
  Lemma frac_F x : is_finite x = true -> (0 <= B2R x < 2)%R -> unitF (frac O x).
  Proof.
    intros Fx Bx. unfold frac. cbn [nsub nofZ ntoint F64].
    assert (C : (Zfloor (B2R x) = 0%Z /\ (B2R x < 1)%R) \/ (Zfloor (B2R x) = 1%Z /\ (1 <= B2R x)%R)).
    { destruct (Rlt_le_dec (B2R x) 1) as [H|H]; [left|right]; (split; [apply Zfloor_imp; simpl; lra|exact H]). }
    assert (T : ftoint x = Zfloor (B2R x)).
    { unfold ftoint. rewrite Fx.
      assert (E : Btrunc x = Zfloor (B2R x)).
      { apply eq_IZR. rewrite Btrunc_correct by exact emax64. unfold round, F2R, scaled_mantissa, cexp, FIX_exp. simpl.
        rewrite !Rmult_1_r. rewrite Ztrunc_floor by lra. reflexivity. }
      rewrite E. destruct C as [[-> _] | [-> _]]; reflexivity. }
    rewrite T.
    destruct C as [[-> H] | [-> H]].
    - destruct (fofZ_exact 0 ltac:(now vm_compute)) as [F0 E0].
      destruct (@fsub_ok x (fofZ 0) Fx F0) as [F E]; rewrite ?E0 in *.
      { apply Rle_trans with (Rabs (IZR 1)); [rewrite !Rabs_pos_eq; lra|apply big_Z; now vm_compute]. }
      apply unit1; [exact F|]. rewrite E, Rminus_0_r. split; [rewrite <- rnd_0; apply rnd_mono; lra|apply (@rnd_le_Z _ 1); [now vm_compute|lra]].
    - destruct (fofZ_exact 1 ltac:(now vm_compute)) as [F1 E1].
      destruct (@fsub_ok x (fofZ 1) Fx F1) as [F E]; rewrite ?E1 in *.
      { apply Rle_trans with (Rabs (IZR 1)); [rewrite !Rabs_pos_eq; lra|apply big_Z; now vm_compute]. }
      apply unit1; [exact F|]. rewrite E. split; [rewrite <- rnd_0; apply rnd_mono; lra|apply (@rnd_le_Z _ 1); [now vm_compute|lra]].
  Qed.
  Lemma shifted_F h d n g : shaped dyadic d n h -> shaped unitF d n (random_shift O G h d g).
  Proof.
    intros (L1 & L2 & L3).
    destruct (@draws_all' RNG float (DesignLemmas.unit_draw O) (rg_random G) d g) as [S1 S2]; [intro g1; exact (proj1 Gok g1)|].
    unfold random_shift. set (sh := fst (draws (rg_random G) d g)) in *.
    split; [now rewrite map_length|]. rewrite Forall_forall in *. split.
    - intros row Hr. apply in_map_iff in Hr. destruct Hr as (r & <- & Hr). rewrite map_length, combine_length, S1, (L2 r Hr). lia.
    - apply Forall_forall. intros row Hr. apply in_map_iff in Hr. destruct Hr as (r & <- & Hr). apply Forall_forall. intros v Hv.
      apply in_map_iff in Hv. destruct Hv as ((x & y) & <- & Hxy). cbn [fst snd].
      pose proof (in_combine_l _ _ _ _ Hxy) as Hx. pose proof (in_combine_r _ _ _ _ Hxy) as Hy.
      specialize (L3 r Hr). rewrite Forall_forall in L3. destruct (L3 x Hx) as [Fx Bx]. destruct (S2 y Hy) as [Y0 Y1].
      cbn [nleb nltb nofZ F64 nadd] in *.
      destruct (fofZ_exact 0 ltac:(now vm_compute)) as [F0 E0]. destruct (fofZ_exact 1 ltac:(now vm_compute)) as [F1 E1].
      assert (Y1' : fleb y (fofZ 1) = true).
      { apply fltb_spec in Y1 as (A & B & C). apply fleb_spec. repeat split; auto. lra. }
      destruct (@between_finite _ _ _ F0 F1 Y0 Y1') as (Fy & By). rewrite E0, E1 in By.
      assert (T : (0 < / IZR (2 ^ 30))%R) by (apply Rinv_0_lt_compat, IZR_lt; now vm_compute).
      assert (T1 : (/ IZR (2 ^ 30) <= 1)%R) by (rewrite <- Rinv_1; apply Rinv_le_contravar; [lra|apply IZR_le; now vm_compute]).
      assert (R1 : rnd (2 - / IZR (2 ^ 30)) = (2 - / IZR (2 ^ 30))%R).
      { apply round_generic; [apply valid_rnd_N|]. apply generic_format_FLT with (emin := (-1074)%Z) (prec := 53%Z).
        exists (Float radix2 (2 ^ 31 - 1) (-30)); [|now vm_compute|now vm_compute].
        unfold F2R. cbn [Fnum Fexp]. change (bpow radix2 (-30)) with (/ IZR (2 ^ 30))%R. rewrite minus_IZR.
        replace (IZR (2 ^ 31)) with (2 * IZR (2 ^ 30))%R by (rewrite <- mult_IZR; f_equal). field. apply not_0_IZR. easy. }
      destruct (@fadd_ok x y Fx Fy) as [F E].
      { apply Rle_trans with (Rabs (IZR 2)); [rewrite !Rabs_pos_eq; lra|apply big_Z; now vm_compute]. }
      apply frac_F; [exact F|]. rewrite E. split; [rewrite <- rnd_0; apply rnd_mono; lra|].
      apply Rle_lt_trans with (2 - / IZR (2 ^ 30))%R; [|lra]. rewrite <- R1. apply rnd_mono. lra.
  Qed.

  Lemma sobol_float skip rand s total dims n g : sobol_history O G skip rand s total ->
    1 <= length dims <= 40 -> Forall (samplable L) dims -> (skip + Z.of_nat n < 2 ^ 30)%Z -> room skip total n ->
    exists s' pts, sobol_generate O G s dims n g = (s', (dims, Ok pts)) /\ length pts = n /\ Forall (in_space O dims) pts.
  Proof.
    intros H Hd Hp Hn Hr. assert (Hs : (skip < 2 ^ 30)%Z) by lia. destruct (history_settled H Hs) as (k & K1 & K2 & K3 & K4 & K5).
    unfold sobol_generate. rewrite (proj1 K3), (room_ok (k:=k) (total:=total)); [|exact K5|now rewrite <- K1].
    destruct (design_all O G n g K3 Hd K2) as (s1 & D & _). rewrite D.
    unfold design_outcome, rows_outcome. destruct (Z.leb_spec (Z.of_nat (k + n)) (2 ^ 30 - 1)); [|lia]. cbn [bind].
    destruct (@generatedF L Pow dims n (if so_randomize s then random_shift O G (quasi_rows O (length dims) k n) (length dims) g else quasi_rows O (length dims) k n)) as (pts & E & L1 & F).
    - intros ->. cbn in Hd. lia.
    - exact Hp.
    - pose proof (quasi_F k n (proj2 Hd)) as Q. destruct (so_randomize s); [now apply shifted_F|].
      destruct Q as (A & B & C). split; [exact A|]. split; [exact B|]. eapply Forall_impl; [|exact C]. intros r Hr1.
      eapply Forall_impl; [|exact Hr1]. intros x Hx. now apply dyadic_unit.
    - match goal with |- context [warp_design O dims ?h] => assert (E' : warp_design O dims h = (dims, Ok pts)) by exact E end. rewrite E'. eexists. eexists. split; [reflexivity|]. auto.
  Qed.
End Float.
