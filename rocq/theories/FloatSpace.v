(** Round trips of float64 dimensions and spaces (C03, C04, C05). *)
From Coq Require Import String List ZArith Bool Lia Reals Lra Psatz.
From Flocq Require Import Core.Core IEEE754.BinarySingleNaN.
From Verif Require Import Base BaseLemmas Num Values Transformers Dimension Space NumLaws F64Arith F64Dim NormLaws SpaceSpec
  DimLemmas CatLemmas RoundTrip SpaceLemmas SpaceProps SpaceNear LibmSpec FloatRound FloatLog.
Import ListNotations.
Open Scope list_scope.
Set Implicit Arguments.
Local Open Scope R_scope.
Local Arguments Z.pow : simpl never.

Section FloatSpace.
  Variable L : libm.
  Notation O := (F64 L).

  (** Warping one float. *)
  Definition fwarp1 (p : prior) (base x : float) : float :=
    match p with PUniform => x | PLogUniform => flogb L base x end.
  Definition fwarp (low high base : float) (p : prior) (k : tkind) (x : float) : float :=
    match k with
    | KNormalize => scaled (fwarp1 p base low) (fwarp1 p base high) (fwarp1 p base x)
    | _ => fwarp1 p base x
    end.

  (** What a run of the two warping steps needs. *)
  Definition trip (low high base : float) (p : prior) (k : tkind) (x : float) : Prop :=
    (k = KNormalize ->
      fltb (fadd (fwarp1 p base high) feps) (fwarp1 p base x) = false /\
      fltb (fwarp1 p base x) (fsub (fwarp1 p base low) feps) = false /\
      unit_range (O:=O) (fwarp low high base p k x) = true) /\
    is_finite (unwarp O low high base p k (fwarp low high base p k x)) = true.

  Lemma existsb_none {A} (f : A -> bool) l : Forall (fun x => f x = false) l -> existsb f l = false.
  Proof. induction 1 as [|x l H F IH]; [reflexivity|]. cbn. now rewrite H, IH. Qed.

  Lemma normalize_scaled l h xs : Forall (fun x => fltb (fadd h feps) x = false /\ fltb x (fsub l feps) = false) xs ->
    normalize_transform O l h false xs = Ok (map (scaled l h) xs).
  Proof.
    intros F. unfold normalize_transform. cbn [nltb nadd nsub neps F64].
    rewrite (existsb_none (fun x => fltb (fadd h feps) x)) by (eapply Forall_impl; [|exact F]; now intros x []).
    rewrite (existsb_none (fun x => fltb x (fsub l feps))) by (eapply Forall_impl; [|exact F]; now intros x []).
    unfold scaled. change (neqb O (fsub h l) (nofZ O 0)) with (feqb (fsub h l) (fofZ 0)).
    destruct (feqb (fsub h l) (fofZ 0)); reflexivity.
  Qed.

  Lemma real_transform_F64 r xs : (r_kind r = KIdentity \/ r_kind r = KNormalize) ->
    Forall (trip (r_low r) (r_high r) (r_base r) (r_prior r) (r_kind r)) xs ->
    dim_transform O (DReal r) (map (@VFloat float) xs) =
    Ok (A1 (map (fun x => VFloat (fwarp (r_low r) (r_high r) (r_base r) (r_prior r) (r_kind r) x)) xs)).
  Proof.
    intros Hk Hx. unfold dim_transform, dim_transformer, real_transformer, fwarp.
    destruct Hk as [Hk|Hk]; rewrite Hk in *.
    - destruct (r_prior r); cbn [transform as_A1 bind]; [reflexivity|]. rewrite nums_VFloat. reflexivity.
    - assert (C : Forall (fun x => fltb (fadd (fwarp1 (r_prior r) (r_base r) (r_high r)) feps) x = false /\
                    fltb x (fsub (fwarp1 (r_prior r) (r_base r) (r_low r)) feps) = false) (map (fwarp1 (r_prior r) (r_base r)) xs)).
      { apply Forall_map. eapply Forall_impl; [|exact Hx]. intros x (H & _). destruct (H eq_refl) as (A & B & _). now split. }
      destruct (r_prior r); cbn [transform as_A1 bind]; rewrite nums_VFloat; cbn [bind].
      + cbn [fwarp1] in C. rewrite map_id in C. rewrite normalize_scaled by exact C. cbn [bind]. now rewrite map_map.
      + change (map (fun x : float => VFloat (ndiv O (nlog10 O x) (nlog10 O (r_base r)))) xs)
          with (map (fun x : float => VFloat (flogb L (r_base r) x)) xs).
        rewrite <- (map_map (flogb L (r_base r)) (@VFloat float)). cbn [as_A1 bind]. rewrite nums_VFloat. cbn [bind].
        unfold logb. cbn [ndiv nlog10 F64]. cbn [fwarp1] in *.
        change (fdiv (l_log10 L (r_low r)) (l_log10 L (r_base r))) with (flogb L (r_base r) (r_low r)).
        change (fdiv (l_log10 L (r_high r)) (l_log10 L (r_base r))) with (flogb L (r_base r) (r_high r)).
        rewrite normalize_scaled by exact C. cbn [bind]. now rewrite !map_map.
  Qed.

  Lemma int_transform_F64 i zs : (i_kind i = KIdentity \/ i_kind i = KNormalize) -> i_prior i = PLogUniform ->
    Forall (fun z => trip (fofZ (i_low i)) (fofZ (i_high i)) (i_base i) PLogUniform (i_kind i) (fofZ z)) zs ->
    dim_transform O (DInt i) (map (@VInt float) zs) =
    Ok (A1 (map (fun z => VFloat (fwarp (fofZ (i_low i)) (fofZ (i_high i)) (i_base i) PLogUniform (i_kind i) (fofZ z))) zs)).
  Proof.
    intros Hk Hp Hx. unfold dim_transform, dim_transformer, int_transformer, fwarp. rewrite Hp.
    destruct Hk as [Hk|Hk]; rewrite Hk in *.
    - cbn [transform as_A1 bind]. rewrite nums_VInt. cbn [bind]. rewrite map_map. reflexivity.
    - assert (C : Forall (fun x => fltb (fadd (fwarp1 PLogUniform (i_base i) (fofZ (i_high i))) feps) x = false /\
                    fltb x (fsub (fwarp1 PLogUniform (i_base i) (fofZ (i_low i))) feps) = false) (map (fwarp1 PLogUniform (i_base i)) (map fofZ zs))).
      { rewrite map_map. apply Forall_map. eapply Forall_impl; [|exact Hx]. intros x (H & _). destruct (H eq_refl) as (A & B & _). now split. }
      cbn [transform as_A1 bind]. rewrite nums_VInt. cbn [bind].
      change (map (fun x : float => VFloat (ndiv O (nlog10 O x) (nlog10 O (i_base i)))) (map (nofZ O) zs))
        with (map (fun x : float => VFloat (flogb L (i_base i) x)) (map fofZ zs)).
      rewrite <- (map_map (flogb L (i_base i)) (@VFloat float)). cbn [as_A1 bind]. rewrite nums_VFloat. cbn [bind].
      unfold logb. cbn [ndiv nlog10 nofZ F64]. cbn [fwarp1] in *.
      change (fdiv (l_log10 L (fofZ (i_low i))) (l_log10 L (i_base i))) with (flogb L (i_base i) (fofZ (i_low i))).
      change (fdiv (l_log10 L (fofZ (i_high i))) (l_log10 L (i_base i))) with (flogb L (i_base i) (fofZ (i_high i))).
      rewrite normalize_scaled by exact C. cbn [bind]. now rewrite !map_map.
  Qed.

  (** Coming back. *)
  Definition real_back (r : real_dim float) (x : float) : float :=
    nclip O (r_low r) (r_high r)
      (unwarp O (r_low r) (r_high r) (r_base r) (r_prior r) (r_kind r) (fwarp (r_low r) (r_high r) (r_base r) (r_prior r) (r_kind r) x)).
  Lemma real_inverse_F64 r xs : wf_real O r ->
    Forall (trip (r_low r) (r_high r) (r_base r) (r_prior r) (r_kind r)) xs ->
    dim_inverse O (DReal r) (A1 (map (fun x => VFloat (fwarp (r_low r) (r_high r) (r_base r) (r_prior r) (r_kind r) x)) xs))
    = Ok (map (fun x => VFloat (real_back r x)) xs).
  Proof.
    intros (_ & Hdt & _) Hx. rewrite real_inverse_eq.
    rewrite <- map_map with (g := @VFloat float). rewrite nums_VFloat. cbn [bind].
    assert (B : implb (is_norm (r_kind r)) (forallb (unit_range (O:=O)) (map (fwarp (r_low r) (r_high r) (r_base r) (r_prior r) (r_kind r)) xs)) = true).
    { destruct (r_kind r) eqn:K; try reflexivity. cbn [is_norm implb]. apply forallb_forall.
      intros z Hz. apply in_map_iff in Hz as (x & <- & Hin). rewrite Forall_forall in Hx. destruct (Hx _ Hin) as (H & _). now apply (H eq_refl). }
    rewrite B. f_equal. rewrite map_map. apply map_ext. intros x. unfold post_real, real_back. now rewrite Hdt.
  Qed.
  Lemma int_inverse_F64 i zs : i_prior i = PLogUniform ->
    Forall (fun z => trip (fofZ (i_low i)) (fofZ (i_high i)) (i_base i) PLogUniform (i_kind i) (fofZ z)) zs ->
    dim_inverse O (DInt i) (A1 (map (fun z => VFloat (fwarp (fofZ (i_low i)) (fofZ (i_high i)) (i_base i) PLogUniform (i_kind i) (fofZ z))) zs))
    = Ok (map (fun z => post_int (O:=O) i (unwarp O (fofZ (i_low i)) (fofZ (i_high i)) (i_base i) PLogUniform (i_kind i)
         (fwarp (fofZ (i_low i)) (fofZ (i_high i)) (i_base i) PLogUniform (i_kind i) (fofZ z)))) zs).
  Proof.
    intros Hp Hx. rewrite int_inverse_eq. rewrite Hp.
    rewrite <- map_map with (g := @VFloat float). rewrite nums_VFloat. cbn [bind].
    assert (B : implb (is_norm (i_kind i)) (forallb (unit_range (O:=O)) (map (fun z => fwarp (fofZ (i_low i)) (fofZ (i_high i)) (i_base i) PLogUniform (i_kind i) (fofZ z)) zs)) = true).
    { destruct (i_kind i) eqn:K; try reflexivity. cbn [is_norm implb]. apply forallb_forall.
      intros z Hz. apply in_map_iff in Hz as (x & <- & Hin). rewrite Forall_forall in Hx. destruct (Hx _ Hin) as (H & _). now apply (H eq_refl). }
    rewrite B. f_equal. rewrite map_map. apply map_ext. intros x. unfold int_pre. rewrite Hp. now destruct (i_kind i).
  Qed.

  (** Clipping moves a value no further from a value within the bounds. *)
  Lemma clip_near lo hi (x y : float) : is_finite lo = true -> is_finite hi = true -> is_finite y = true ->
    B2R lo <= B2R x <= B2R hi ->
    is_finite (nclip O lo hi y) = true /\ Rabs (B2R (nclip O lo hi y) - B2R x) <= Rabs (B2R y - B2R x).
  Proof.
    intros Fl Fh Fy Bx. unfold nclip. cbn [nltb F64].
    destruct (fltb y lo) eqn:E1.
    - apply fltb_finite in E1; try easy.
      assert (E2 : fltb hi lo = false). { apply not_true_is_false. intros C. apply fltb_finite in C; try easy. lra. }
      rewrite E2. split; [exact Fl|]. rewrite !Rabs_left1 by lra. lra.
    - destruct (fltb hi y) eqn:E2; [|split; [exact Fy|lra]].
      apply fltb_finite in E2; try easy. split; [exact Fh|]. rewrite !Rabs_pos_eq by lra. lra.
  Qed.

  Lemma unit_range_F64 q : is_finite q = true -> 0 <= B2R q <= 1 -> unit_range (O:=O) q = true.
  Proof.
    intros F B. destruct (@fofZ_exact 0) as [F0 E0]; [now vm_compute|]. destruct (@fofZ_exact 1) as [F1 E1]; [now vm_compute|].
    apply (@unit_range_01 _ O (F64_order L) (F64_norm L)); cbn [nleb nofZ F64]; apply fleb_finite; try easy; lra.
  Qed.

  (** *** Uniform priors *)
  Lemma uniform_trip low high base k x : is_finite low = true -> is_finite high = true -> is_finite x = true ->
    Rabs (B2R low) <= bpow radix2 1022 -> Rabs (B2R high) <= bpow radix2 1022 -> B2R low <= B2R x <= B2R high ->
    (k = KIdentity \/ k = KNormalize) ->
    trip low high base PUniform k x /\
    Rabs (B2R (unwarp O low high base PUniform k (fwarp low high base PUniform k x)) - B2R x) <=
      match k with KNormalize => / IZR (2 ^ 50) * (B2R high - B2R low) | _ => 0 end.
  Proof.
    intros Fl Fh Fx Sl Sh B Hk. destruct Hk as [-> | ->].
    - split; [split; [discriminate|exact Fx]|]. cbn. rewrite Rminus_diag_eq, Rabs_R0 by reflexivity. lra.
    - destruct (@scale_checks low high x Fl Fh Fx B Sl Sh) as [C1 C2].
      destruct (@scaled_back low high x Fl Fh Fx B Sl Sh) as (Fq & Bq & Fo & Eo).
      split; [|exact Eo]. split; [|exact Fo]. intros _. cbn [fwarp1]. split; [exact C1|]. split; [exact C2|]. now apply unit_range_F64.
  Qed.

  (** *** Log-uniform priors *)
  Lemma log_trip_all low high base k x M : good_libm L -> is_finite base = true -> 1 < B2R base ->
    is_finite low = true -> is_finite high = true -> is_finite x = true ->
    0 < B2R low -> B2R low <= B2R x <= B2R high -> Rabs (ln (B2R low)) <= M -> Rabs (ln (B2R high)) <= M -> M <= 500 ->
    (k = KIdentity \/ k = KNormalize) ->
    trip low high base PLogUniform k x /\
    Rabs (B2R (unwarp O low high base PLogUniform k (fwarp low high base PLogUniform k x)) - B2R x) <= / IZR (2 ^ 46) * (1 + M) * B2R x.
  Proof.
    intros (AL & AP & IL) Fb Hb Fl Fh Fx Hl B M1 M2 HM Hk. destruct Hk as [-> | ->].
    - destruct (@log_trip L AL base Fb Hb AP low high x M Fx Hl B M1 M2 HM) as (F1 & F2 & E).
      split; [split; [discriminate|exact F2]|exact E].
    - destruct (@scale_hyps L AL base Fb Hb IL low high x M Fl Fh Fx Hl B M1 M2 HM) as (F1 & F2 & F3 & B' & S1 & S2).
      destruct (@scale_checks _ _ _ F1 F2 F3 B' S1 S2) as [C1 C2].
      destruct (@log_scaled_trip L AL base Fb Hb IL AP low high x M Fl Fh Fx Hl B M1 M2 HM) as (Fq & Bq & Fp & E).
      split; [|exact E]. split; [|exact Fp]. intros _. cbn [fwarp1]. split; [exact C1|]. split; [exact C2|]. now apply unit_range_F64.
  Qed.

  Lemma real_trip r x : float_real L r -> fleb (r_low r) x = true -> fleb x (r_high r) = true ->
    trip (r_low r) (r_high r) (r_base r) (r_prior r) (r_kind r) x /\ close r x (real_back r x).
  Proof.
    intros ((Hlh & _ & Hk) & Fl & Fh & Sl & Sh & Hp) X1 X2. destruct (@between_finite _ _ _ Fl Fh X1 X2) as (Fx & B).
    assert (T : trip (r_low r) (r_high r) (r_base r) (r_prior r) (r_kind r) x /\
      Rabs (B2R (unwarp O (r_low r) (r_high r) (r_base r) (r_prior r) (r_kind r) (fwarp (r_low r) (r_high r) (r_base r) (r_prior r) (r_kind r) x)) - B2R x) <= tolerance r x).
    { unfold tolerance. destruct (r_prior r).
      - apply uniform_trip; auto.
      - destruct (Hp eq_refl) as (G & Fb & Hb & H0 & M1 & M2). apply log_trip_all; auto; [apply Rmax_l|apply Rmax_r|]. now apply Rmax_lub. }
    destruct T as (T & E). split; [exact T|]. destruct T as (_ & F). unfold close, real_back.
    destruct (@clip_near (r_low r) (r_high r) x _ Fl Fh F B) as (F' & E'). split; [exact F'|]. lra.
  Qed.

  Lemma real_near r xs : float_real L r -> Forall (fun x => fleb (r_low r) x = true /\ fleb x (r_high r) = true) xs ->
    exists a ys, dim_transform O (DReal r) (map (@VFloat float) xs) = Ok a /\
      dim_inverse O (DReal r) a = Ok (map (@VFloat float) ys) /\ Forall2 (close r) xs ys.
  Proof.
    intros H Hx. assert (T : Forall (trip (r_low r) (r_high r) (r_base r) (r_prior r) (r_kind r)) xs).
    { eapply Forall_impl; [|exact Hx]. intros x (A & B). now apply real_trip. }
    pose proof H as (Hw & _). eexists. exists (map (real_back r) xs). split; [apply real_transform_F64; [apply Hw|exact T]|].
    rewrite real_inverse_F64 by assumption. rewrite map_map. split; [reflexivity|].
    clear T. induction Hx as [|x xs (A & B) F IH]; cbn [map]; constructor; [now apply real_trip|exact IH].
  Qed.

  (** *** Log-uniform Integer dimensions *)
  Lemma int_log_trip i z : float_log_int L i -> (i_low i <= z <= i_high i)%Z ->
    trip (fofZ (i_low i)) (fofZ (i_high i)) (i_base i) PLogUniform (i_kind i) (fofZ z) /\
    post_int (O:=O) i (unwarp O (fofZ (i_low i)) (fofZ (i_high i)) (i_base i) PLogUniform (i_kind i)
         (fwarp (fofZ (i_low i)) (fofZ (i_high i)) (i_base i) PLogUniform (i_kind i) (fofZ z))) = VInt z.
  Proof.
    intros ((Hlh & Bl & Bh & Hc & Hk) & Hp & G & Fb & Hb & H1 & H39) Hz.
    assert (P39 : (2 ^ 39 <= 2 ^ 53)%Z) by now vm_compute.
    destruct (@fofZ_exact (i_low i) Bl) as [Fl El]. destruct (@fofZ_exact (i_high i) Bh) as [Fh Eh]. destruct (@fofZ_exact z ltac:(lia)) as [Fz Ez].
    assert (R1 : 1 <= IZR (i_low i)) by (apply IZR_le; lia).
    assert (R2 : IZR (i_low i) <= IZR z <= IZR (i_high i)) by (split; apply IZR_le; lia).
    assert (R3 : IZR (i_high i) <= IZR (2 ^ 39)) by (apply IZR_le; lia).
    assert (LN : forall v, 1 <= v <= IZR (2 ^ 39) -> Rabs (ln v) <= 39).
    { intros v (V1 & V2). rewrite Rabs_pos_eq.
      - apply Rle_trans with (ln (bpow radix2 39)); [apply ln_le_M; split; [lra|exact V2]|]. rewrite ln_bpow. pose proof ln2_lt_1. lra.
      - rewrite <- ln_1. apply ln_le_M. lra. }
    destruct (@log_trip_all (fofZ (i_low i)) (fofZ (i_high i)) (i_base i) (i_kind i) (fofZ z) 39 G Fb Hb Fl Fh Fz) as (T & E); [..|lra|exact Hk|].
    { rewrite El. lra. } { rewrite El, Eh, Ez. exact R2. } { rewrite El. apply LN. lra. } { rewrite Eh. apply LN. lra. }
    split; [exact T|]. destruct T as (_ & F). set (y := unwarp _ _ _ _ _ _ _) in *.
    destruct (@clip_near (fofZ (i_low i)) (fofZ (i_high i)) (fofZ z) y Fl Fh F) as (F' & E'); [rewrite El, Eh, Ez; exact R2|].
    unfold post_int. cbn [nofZ ntoint nround F64]. set (c := nclip O _ _ y) in *. rewrite Ez in *.
    assert (D : Rabs (B2R c - IZR z) < / 2).
    { eapply Rle_lt_trans; [exact E'|]. eapply Rle_lt_trans; [exact E|].
      assert (P : IZR (2 ^ 46) = 128 * IZR (2 ^ 39)) by (rewrite <- mult_IZR; f_equal). rewrite P.
      assert (Q : 0 < IZR (2 ^ 39)) by (apply IZR_lt; easy). set (K := IZR (2 ^ 39)) in *.
      apply Rmult_lt_reg_l with (128 * K); [lra|]. replace (128 * K * (/ (128 * K) * (1 + 39) * IZR z)) with ((1 + 39) * IZR z) by (field; lra). lra. }
    rewrite ftoint_fround; [|exact F'|].
    - rewrite (@Znearest_imp (fun x => negb (Z.even x)) (B2R c) z D). now rewrite Hc.
    - apply Rabs_def2 in D. apply Rabs_le. assert (IZR (2 ^ 39) + 1 <= IZR (2 ^ 53)) by (rewrite <- plus_IZR; apply IZR_le; now vm_compute). lra.
  Qed.

  Lemma int_log_roundtrip i zs : float_log_int L i -> Forall (fun z => (i_low i <= z <= i_high i)%Z) zs ->
    exists a, dim_transform O (DInt i) (map (@VInt float) zs) = Ok a /\ dim_inverse O (DInt i) a = Ok (map (@VInt float) zs).
  Proof.
    intros H Hz. pose proof H as (Hw & Hp & _). eexists. split; [apply int_transform_F64; [apply Hw|exact Hp|]|].
    - eapply Forall_impl; [|exact Hz]. intros z B. now apply int_log_trip.
    - rewrite int_inverse_F64; [|exact Hp|].
      + f_equal. apply map_ext_in. intros z Hin. rewrite Forall_forall in Hz. now apply int_log_trip; auto.
      + eapply Forall_impl; [|exact Hz]. intros z B. now apply int_log_trip.
  Qed.

  (** *** Spaces *)
  Definition floatval (v : pyval float) : float := match v with VFloat x => x | VInt z => fofZ z | _ => fofZ 0 end.
  Lemma float_back d : float_dim L d -> exists g k, back_with (O:=O) d g k /\ forall v, in_dim O d v -> near d v (k v).
  Proof.
    assert (EX : forall d, exact_dim O d -> exists g k, back_with (O:=O) d g k /\ forall v, in_dim O d v -> k v = v).
    { clear d. intros d H. destruct (@exact_round_trips _ O (F64_order L) (F64_int L) (F64_norm L) (cast64_F64 L) _ H) as (g & Hg).
      exists g, (fun v => v). split; [now apply rt_back|reflexivity]. }
    destruct d as [r|i|c]; intros H; cbn [float_dim near] in *.
    - exists (fun v => [VFloat (fwarp (r_low r) (r_high r) (r_base r) (r_prior r) (r_kind r) (floatval v))]), (fun v => VFloat (real_back r (floatval v))).
      split.
      + apply (@back_by_map _ O (DReal r) (fun v => fwarp (r_low r) (r_high r) (r_base r) (r_prior r) (r_kind r) (floatval v))); [reflexivity|].
        intros xs Hx. destruct (in_dim_floats Hx) as (fs & -> & Hf).
        assert (T : Forall (trip (r_low r) (r_high r) (r_base r) (r_prior r) (r_kind r)) fs).
        { eapply Forall_impl; [|exact Hf]. intros x (A & B). now apply real_trip. }
        rewrite !map_map. cbn [floatval]. split; [apply real_transform_F64; [apply H|exact T]|apply real_inverse_F64; [apply H|exact T]].
      + intros v Hv. inversion Hv as [r' x A B| |]; subst. exists x, (real_back r x). split; [reflexivity|]. split; [reflexivity|]. now apply real_trip.
    - destruct H as [H|H]; [now apply EX|].
      exists (fun v => [VFloat (fwarp (fofZ (i_low i)) (fofZ (i_high i)) (i_base i) PLogUniform (i_kind i) (floatval v))]), (fun v => v).
      split; [|reflexivity].
      apply (@back_by_map _ O (DInt i) (fun v => fwarp (fofZ (i_low i)) (fofZ (i_high i)) (i_base i) PLogUniform (i_kind i) (floatval v))); [reflexivity|].
      intros xs Hx. destruct (in_dim_ints Hx) as (zs & -> & Hz). pose proof H as (Hw & Hp & _).
      assert (T : Forall (fun z => trip (fofZ (i_low i)) (fofZ (i_high i)) (i_base i) PLogUniform (i_kind i) (fofZ z)) zs).
      { eapply Forall_impl; [|exact Hz]. intros z B. now apply int_log_trip. }
      rewrite map_id, !map_map. cbn [floatval]. split; [apply int_transform_F64; [apply Hw|exact Hp|exact T]|].
      rewrite int_inverse_F64 by assumption. f_equal. apply map_ext_in. intros z Hin. rewrite Forall_forall in Hz. now apply int_log_trip; auto.
    - now apply EX.
  Qed.

  Lemma space_near dims P : dims <> [] -> Forall (float_dim L) dims -> P <> [] -> Forall (in_space O dims) P ->
    exists Xt P', space_transform O dims P = Ok Xt /\ length Xt = length P /\
      Forall2 (fun p row => length row = t_n_dims dims /\
         exists parts, Forall2 (fun dv part => warped_by (O:=O) (fst dv) (snd dv) part /\ length part = tsize (fst dv))
                               (combine dims p) parts /\
           row = concat parts) P Xt /\
      space_inverse O dims Xt = Ok P' /\
      Forall2 (fun p p' => Forall2 (fun dv w => near (fst dv) (snd dv) w) (combine dims p) p') P P'.
  Proof. apply space_back_of. exact float_back. Qed.
End FloatSpace.
