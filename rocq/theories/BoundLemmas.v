(** Warped points lie within transformed_bounds (C07). *)
From Coq Require Import String List ZArith Bool Lia Reals Lra.
From Flocq Require Import Core.Core IEEE754.BinarySingleNaN.
From Verif Require Import Base BaseLemmas Num Values Transformers Dimension Space NumLaws F64Arith NormLaws SpaceSpec
  DimLemmas CatLemmas RoundTrip SpaceLemmas F64Dim RealLemmas.
Import ListNotations.
Open Scope list_scope.
Set Implicit Arguments.
Local Arguments Z.pow : simpl never.
Local Arguments fofZ : simpl never.

Lemma pos_sign (e : float) : is_finite e = true -> (0 < B2R e)%R -> Bsign e = false.
Proof.
  intros Fe He. destruct e as [s|s| |s m ex B]; try easy; simpl in *; [lra|]. destruct s; [|easy].
  exfalso. assert (F2R (Float radix2 (Zneg m) ex) < 0)%R by now apply F2R_lt_0. simpl in *. lra.
Qed.

Lemma inf_le (x : float) : is_nan x = false -> fleb (B754_infinity true) x = true /\ fleb x (B754_infinity false) = true.
Proof.
  intros H. unfold fleb. destruct x as [s'|s'| |s' m ex B]; try easy; destruct s'; easy.
Qed.

Lemma fadd_ge x e : is_finite x = true -> is_finite e = true -> (0 < B2R e)%R -> fleb x (fadd x e) = true.
Proof.
  intros Fx Fe He. pose proof (@pos_sign e Fe He) as Se.
  pose proof (Bplus_correct 53 1024 prec64 emax64 mode_NE x e Fx Fe) as H.
  change (round_mode mode_NE) with ZnearestE in H.
  assert (Rx : rnd (B2R x) = B2R x) by (apply round_generic; [apply valid_rnd_N|apply generic_format_B2R]).
  assert (M : (B2R x <= rnd (B2R x + B2R e))%R).
  { apply Rle_trans with (rnd (B2R x)); [lra|]. apply rnd_mono. lra. }
  destruct (Rlt_bool _ _).
  - destruct H as (H & Hf & _). fold (fadd x e) in *. apply fleb_finite; auto. now rewrite H.
  - destruct H as [H Hs]. fold (fadd x e) in *. rewrite Hs, Se in H.
    destruct (fadd x e) as [|s| |]; try easy. simpl in H. injection H as ->.
    apply inf_le; now apply finite_not_nan.
Qed.
Lemma fsub_le x e : is_finite x = true -> is_finite e = true -> (0 < B2R e)%R -> fleb (fsub x e) x = true.
Proof.
  intros Fx Fe He. pose proof (@pos_sign e Fe He) as Se.
  pose proof (Bminus_correct 53 1024 prec64 emax64 mode_NE x e Fx Fe) as H.
  change (round_mode mode_NE) with ZnearestE in H.
  assert (Rx : rnd (B2R x) = B2R x) by (apply round_generic; [apply valid_rnd_N|apply generic_format_B2R]).
  assert (M : (rnd (B2R x - B2R e) <= B2R x)%R).
  { apply Rle_trans with (rnd (B2R x)); [|lra]. apply rnd_mono. lra. }
  destruct (Rlt_bool _ _).
  - destruct H as (H & Hf & _). fold (fsub x e) in *. apply fleb_finite; auto. now rewrite H.
  - destruct H as [H Hs]. fold (fsub x e) in *. rewrite Hs, Se in H.
    destruct (fsub x e) as [|s| |]; try easy. simpl in H. injection H as ->.
    apply inf_le; now apply finite_not_nan.
Qed.

Lemma feps_pos : is_finite feps = true /\ (0 < B2R feps)%R.
Proof.
  assert (F : is_finite feps = true) by now vm_compute. split; [easy|].
  assert (H : fltb (fofZ 0) feps = true) by now vm_compute.
  destruct (fofZ_exact 0 ltac:(now vm_compute)) as [F0 E0].
  rewrite fltb_finite, E0 in H by auto. exact H.
Qed.

Section Bound64.
  Context (L : libm).
  Notation O := (F64 L).

  Lemma norm_transform64 l h xs : is_finite l = true -> is_finite h = true -> is_finite (fsub h l) = true ->
    fltb l h = true -> Forall (fun x => fleb l x = true /\ fleb x h = true) xs ->
    normalize_transform O l h false xs = Ok (map (fun x => fdiv (fsub x l) (fsub h l)) xs).
  Proof.
    intros Fl Fh Fd Hlt Hx. destruct feps_pos as [Fe He]. pose proof (F64_order L) as OL.
    unfold normalize_transform. rewrite !existsb_false.
    - assert (E : neqb O (nsub O h l) (nofZ O 0) = false).
      { pose proof Hlt as Hlt'. apply fltb_finite in Hlt'; auto.
        pose proof (@fsub_pos l h Fl Fh Fd Hlt') as D.
        unfold neqb. apply andb_false_iff. left. apply not_true_is_false. intros C.
        destruct (fofZ_exact 0 ltac:(now vm_compute)) as [F0 E0].
        cbn [nleb nsub nofZ F64] in C. rewrite fleb_finite, E0 in C by auto. lra. }
      rewrite E. reflexivity.
    - eapply Forall_impl; [|exact Hx]. intros x [H1 H2]. simpl. apply (le_nlt OL).
      apply (ol_trans OL _ l); [|exact H1]. now apply fsub_le.
    - eapply Forall_impl; [|exact Hx]. intros x [H1 H2]. simpl. apply (le_nlt OL).
      apply (ol_trans OL _ h); [exact H2|]. now apply fadd_ge.
  Qed.

  Lemma bounded64_ok d : bounded64 L d ->
    exists g, tr_with (O:=O) d g /\ forall v, in_dim O d v -> within (O:=O) (tbounds O d) (g v).
  Proof.
    assert (EX : forall d, exact_dim O d -> bounded_kind d ->
      exists g, tr_with (O:=O) d g /\ forall v, in_dim O d v -> within (O:=O) (tbounds O d) (g v)).
    { intros d' He Hk.
      destruct (@exact_round_trips_bounded _ O (F64_order L) (F64_int L) (F64_norm L) (fun x => eq_refl) d' He) as (g & Hg & Hb).
      exists g. split; [|now apply Hb]. intros xs Hne Hx. now destruct (Hg xs Hne Hx) as (H1 & H2 & _). }
    destruct d as [r|i|c]; intros H.
    - destruct H as [H|(Hw & Hp & Hk & Fl & Fh & Fd)]; [now apply EX|].
      pose proof Hw as (Hlh & _).
      exists (fun v => match v with VFloat x => [VFloat (fdiv (fsub x (r_low r)) (fsub (r_high r) (r_low r)))] | _ => [] end).
      split.
      + intros xs Hne Hx. destruct (in_dim_floats Hx) as (fs & -> & Hf). split.
        * unfold dim_transform, dim_transformer, real_transformer. rewrite Hk, Hp.
          cbn [transform bind as_A1]. rewrite nums_VFloat. cbn [bind].
          rewrite norm_transform64 by easy. cbn [bind]. eexists. split; [reflexivity|].
          simpl. now rewrite !map_map.
        * apply Forall_map, Forall_forall. intros f _. split; [easy|]. repeat constructor. now eexists.
      + intros v Hv. inversion Hv as [? x H1 H2| |]; subst. simpl. rewrite Hk. constructor; [|constructor].
        eexists. split; [reflexivity|]. simpl fst. simpl snd.
        destruct (@norm01 (r_low r) (r_high r) x Fl Fh Fd Hlh H1 H2) as (Fq & Bq).
        destruct (fofZ_exact 0 ltac:(now vm_compute)) as [F0 E0].
        destruct (fofZ_exact 1 ltac:(now vm_compute)) as [F1 E1].
        simpl. split; apply fleb_finite; auto; rewrite ?E0, ?E1; easy.
    - now apply EX.
    - destruct H as [H Hk]. now apply EX.
  Qed.

  Lemma space_within64 dims P : dims <> [] -> Forall (bounded64 L) dims -> P <> [] ->
    Forall (in_space O dims) P ->
    exists Xt, space_transform O dims P = Ok Xt /\ length Xt = length P /\
      Forall (within (O:=O) (space_tbounds O dims)) Xt.
  Proof. apply space_within. exact bounded64_ok. Qed.
End Bound64.

Section BoundR.
  Local Open Scope R_scope.
  Lemma boundedR_ok d : boundedR d ->
    exists g, tr_with (O:=Rops) d g /\ forall v, in_dim Rops d v -> within (O:=Rops) (tbounds Rops d) (g v).
  Proof.
    assert (EX : forall d, exact_dim Rops d -> bounded_kind d ->
      exists g, tr_with (O:=Rops) d g /\ forall v, in_dim Rops d v -> within (O:=Rops) (tbounds Rops d) (g v)).
    { intros d' He Hk.
      destruct (@exact_round_trips_bounded _ Rops Rops_order Rops_int Rops_norm (fun x => eq_refl) d' He) as (g & Hg & Hb).
      exists g. split; [|now apply Hb]. intros xs Hne Hx. now destruct (Hg xs Hne Hx) as (H1 & H2 & _). }
    destruct d as [r|i|c]; intros [H Hb].
    - destruct H as [Hw H]. pose proof Hw as (Hlh & _ & Hk). apply Rltb_spec in Hlh.
      set (w := warpR (r_low r) (r_high r) (r_base r) (r_prior r) (r_kind r)).
      exists (fun v => [VFloat (w (numval v))]). split.
      + intros xs Hne Hx. destruct (in_dim_floats Hx) as (fs & -> & Hf).
        assert (Hf' : Forall (fun x => r_low r <= x <= r_high r) fs).
        { eapply Forall_impl; [|exact Hf]. simpl. intros x [A B]. apply Rleb_spec in A. apply Rleb_spec in B. lra. }
        split.
        * eexists. split; [now apply real_transform_R|]. simpl. now rewrite !map_map.
        * apply Forall_map, Forall_forall. intros f _. split; [easy|]. repeat constructor. now eexists.
      + intros v Hv. inversion Hv as [? x H1 H2| |]; subst. cbn [numval]. apply Rleb_spec in H1. apply Rleb_spec in H2.
        assert (B : exists lo hi, tbounds Rops (DReal r) = [(lo, hi)] /\ lo <= w x <= hi).
        { unfold w. simpl. destruct Hk as [Hk|Hk]; rewrite Hk in *.
          - destruct (r_prior r) eqn:Hp; eexists; eexists; (split; [reflexivity|]); [easy|].
            destruct (Hb eq_refl) as [K|K]; [discriminate|]. unfold warpR, warp1. destruct (H eq_refl) as (Hl & _).
            rewrite K, logb_val by lra. pose proof ln10_pos.
            split; apply Rmult_le_compat_r; try (left; now apply Rinv_0_lt_compat).
            + destruct H1 as [H1| ->]; [left; apply ln_increasing; lra|lra].
            + destruct H2 as [H2| ->]; [left; apply ln_increasing; lra|lra].
          - exists 0, 1. split; [reflexivity|]. now apply warp_unit. }
        destruct B as (lo & hi & -> & B). constructor; [|constructor]. eexists. split; [reflexivity|].
        simpl. split; apply Rleb_spec; easy.
    - destruct H as (Hu & Hw & H). destruct (i_prior i) eqn:Hp; [now apply EX; auto|].
      pose proof (Hb eq_refl) as Hk.
      set (w := warpR (IZR (i_low i)) (IZR (i_high i)) (i_base i) PLogUniform (i_kind i)).
      exists (fun v => [VFloat (w (numval v))]). split.
      + intros xs Hne Hx. destruct (in_dim_ints Hx) as (zs & -> & Hz). rewrite <- Hp in H. split.
        * eexists. split; [now apply int_transform_R|]. simpl. now rewrite !map_map.
        * apply Forall_map, Forall_forall. intros f _. split; [easy|]. repeat constructor. now eexists.
      + intros v Hv. inversion Hv as [|? z Hz|]; subst. cbn [numval tbounds]. rewrite Hk.
        constructor; [|constructor]. eexists. split; [reflexivity|].
        assert (0 <= w (IZR z) <= 1).
        { unfold w. rewrite Hk in *. destruct Hw as (Hlh & _). apply IZR_lt in Hlh.
          apply warp_unit; auto. split; apply IZR_le; lia. }
        simpl. split; apply Rleb_spec; easy.
    - now apply EX.
  Qed.

  Lemma space_withinR dims P : dims <> [] -> Forall boundedR dims -> P <> [] ->
    Forall (in_space Rops dims) P ->
    exists Xt, space_transform Rops dims P = Ok Xt /\ length Xt = length P /\
      Forall (within (O:=Rops) (space_tbounds Rops dims)) Xt.
  Proof. apply space_within. exact boundedR_ok. Qed.
End BoundR.
