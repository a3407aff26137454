(** Random sampling stays in the space (C06). *)
From Coq Require Import String List ZArith Bool Lia Reals Lra.
From Flocq Require Import Core.Core IEEE754.BinarySingleNaN.
From Verif Require Import Base BaseLemmas Num Values Transformers Dimension Space NumLaws F64Arith NormLaws SpaceSpec
  DimLemmas CatLemmas RoundTrip SpaceLemmas F64Dim.
Import ListNotations.
Open Scope list_scope.
Set Implicit Arguments.
Local Arguments Z.pow : simpl never.
Local Arguments fofZ : simpl never.

Section SampleLemmas.
  Context (L : libm) {RNG : Type} (G : rng_ops float RNG).
  Notation O := (F64 L).
  Context (Gok : rng_ok O G) (Pow : pow_ok L).

  Lemma draws_all {A} (P : A -> Prop) f n : forall g, (forall g, P (fst (f g))) ->
    length (fst (draws (RNG:=RNG) f n g)) = n /\ Forall P (fst (draws f n g)).
  Proof.
    induction n as [|n IH]; intros g H; simpl; [easy|].
    destruct (f g) as [x g1] eqn:E. destruct (IH g1 H) as [Hl Hf].
    destruct (draws f n g1) as [xs g2]. simpl in *. split; [lia|]. constructor; [|easy].
    specialize (H g). now rewrite E in H.
  Qed.

  Lemma nisnan_F64 x : nisnan O x = is_nan x.
  Proof.
    unfold nisnan. simpl. destruct (is_nan x) eqn:E.
    - destruct x; easy.
    - rewrite fleb_E by easy. unfold Rleb'. destruct (Rle_dec _ _); [easy|lra].
  Qed.

  (** Any draw from an interval with finite ends is a number. *)
  Lemma draw_num lo hi g : fin_interval lo hi ->
    is_nan (fst (uniform_draw O G lo (fsub hi lo) g)) = false.
  Proof.
    intros (Fl & _ & Fs). unfold uniform_draw. destruct Gok as [GR _]. specialize (GR g).
    destruct (rg_random G g) as [u g']. simpl in *.
    destruct GR as [U0 U1]. apply fadd_not_nan; [|easy].
    destruct (fofZ_exact 0 ltac:(now vm_compute)) as [F0 _].
    destruct (fofZ_exact 1 ltac:(now vm_compute)) as [F1 _].
    apply fmul_not_nan; [|easy].
    apply (@between_finite (fofZ 0) (fofZ 1) u); auto.
    apply fltb_spec in U1 as (A & B & C). apply fleb_spec. repeat split; auto. lra.
  Qed.

  Lemma fsub_1_0 : fsub (fofZ 1) (fofZ 0) = fofZ 1.
  Proof.
    assert (E : B2SF (fsub (fofZ 1) (fofZ 0)) = B2SF (fofZ 1)) by now vm_compute.
    now apply B2SF_inj.
  Qed.

  (** A draw for a normalised dimension. *)
  Lemma unit_draw_range g :
    let z := fst (uniform_draw O G (fofZ 0) (fofZ 1) g) in
    is_finite z = true /\ (0 <= B2R z <= 1 + / IZR (2 ^ 52))%R.
  Proof.
    unfold uniform_draw. destruct Gok as [GR _]. specialize (GR g).
    destruct (rg_random G g) as [u g']. simpl in *. destruct GR as [U0 U1].
    destruct fone'_val as [F1 E1].
    destruct (@unit_draw u fone' U0 U1 F1) as [Fm Bm].
    - rewrite E1. assert (0 < / IZR (2 ^ 52))%R; [|lra]. apply Rinv_0_lt_compat. apply IZR_lt. now vm_compute.
    - fold fone'. destruct (@fadd_0 _ Fm) as [Fa Ea]. split; [easy|]. rewrite Ea. rewrite E1 in Bm. exact Bm.
  Qed.

  Lemma unit_draw_ok g : unit_range (O:=O) (fst (uniform_draw O G (fofZ 0) (fofZ 1) g)) = true.
  Proof.
    destruct (unit_draw_range g) as [Fz Bz]. set (z := fst _) in *.
    destruct fone'_val as [F1 E1].
    assert (H1 : fleb z fone' = true) by (apply fleb_finite; auto; rewrite E1; lra).
    destruct (fofZ_exact 0 ltac:(now vm_compute)) as [F0 E0].
    assert (H0 : fleb (fofZ 0) z = true) by (apply fleb_finite; auto; rewrite E0; lra).
    unfold unit_range. pose proof (F64_order L) as OL.
    rewrite (le_nlt OL).
    2:{ apply (ol_trans OL _ fone'); [exact H1|now vm_compute]. }
    rewrite (le_nlt OL); [easy|].
    apply (ol_trans OL _ (fofZ 0)); [now vm_compute|exact H0].
  Qed.

  (** Un-warping a draw gives a number. *)
  Lemma unwarp_num low high base p k z :
    fin_interval (warp_end L p base low) (warp_end L p base high) ->
    (p = PLogUniform -> fltb (fofZ 0) base = true) ->
    (k = KNormalize -> is_finite z = true) -> is_nan z = false ->
    is_nan (unwarp O low high base p k z) = false.
  Proof.
    intros (Fl & Fd & _) Hb Hz Nz. unfold unwarp, warp_end in *. cbn [nadd nmul nsub ndiv nlog10 npow F64].
    destruct p, k; try exact Nz; try (apply Pow; [now apply Hb|]); try exact Nz;
      (apply fadd_not_nan; [apply fmul_not_nan; auto|exact Fl]).
  Qed.

  Lemma real_samples r n g : samplable L (DReal r) ->
    exists vs g', dim_rvs O G (DReal r) n g = (Ok vs, g') /\ length vs = n /\ Forall (in_dim O (DReal r)) vs.
  Proof.
    intros (Hw & Hi & Hb). pose proof Hw as (Hlh & Hdt & Hk).
    assert (K : exists lo sc, dim_rvs_spec O (DReal r) = RVUniform lo sc /\
              forall g, let z := fst (uniform_draw O G lo sc g) in
                implb (is_norm (r_kind r)) (unit_range (O:=O) z) = true /\
                is_nan (unwarp O (r_low r) (r_high r) (r_base r) (r_prior r) (r_kind r) z) = false).
    { simpl. destruct Hk as [Hk|Hk]; rewrite Hk.
      - destruct (r_prior r) eqn:Hp; eexists; eexists; (split; [reflexivity|]); intros g1; (split; [reflexivity|]).
        + apply draw_num. exact Hi.
        + apply unwarp_num; auto; try discriminate. apply draw_num. exact Hi.
      - exists (fofZ 0), (fofZ 1). split; [reflexivity|]. intros g1. cbv zeta. cbn [is_norm implb].
        split; [apply unit_draw_ok|]. destruct (unit_draw_range g1) as [Fz _].
        apply unwarp_num; auto using finite_not_nan. }
    destruct K as (lo & sc & E & K). unfold dim_rvs. rewrite E.
    destruct (@draws_all float (fun z => implb (is_norm (r_kind r)) (unit_range (O:=O) z) = true /\
      is_nan (unwarp O (r_low r) (r_high r) (r_base r) (r_prior r) (r_kind r) z) = false)
      (uniform_draw O G lo sc) n g K) as [Hl Hf].
    destruct (draws (uniform_draw O G lo sc) n g) as [us g']. cbn [fst] in Hl, Hf.
    rewrite real_inverse_eq, nums_VFloat. cbn [bind].
    assert (B : implb (is_norm (r_kind r)) (forallb (unit_range (O:=O)) us) = true).
    { destruct (is_norm (r_kind r)); [|easy]. apply forallb_forall. rewrite Forall_forall in Hf.
      intros z Hz. now apply Hf. }
    rewrite B. eexists. exists g'. split; [reflexivity|]. split; [now rewrite map_length|].
    apply Forall_map. eapply Forall_impl; [|exact Hf]. intros z (_ & Hz).
    apply (@post_real_in _ O (F64_order L) (fun x => eq_refl)); [exact Hw|]. now rewrite nisnan_F64.
  Qed.

  Lemma ints_in i n g lo : wf_int i -> i_kind i = KIdentity -> i_prior i = PUniform -> lo = i_low i ->
    exists vs g', dim_rvs O G (DInt i) n g = (Ok vs, g') /\ length vs = n /\ Forall (in_dim O (DInt i)) vs.
  Proof.
    intros Hw Hk Hp ->. pose proof Hw as (Hlh & Hl & Hh & Hc & _). unfold dim_rvs. simpl. rewrite Hk, Hp.
    destruct Gok as (_ & GI & _).
    destruct (@draws_all Z (fun z => (i_low i <= z < i_high i + 1)%Z)
                (fun g => rg_randint G g (i_low i) (i_high i + 1)) n g) as [Hn Hf].
    { intros g1. apply GI. lia. }
    destruct (draws _ n g) as [zs g']. cbn [fst] in Hn, Hf.
    destruct (@int_roundtrip _ O (F64_order L) (F64_int L) (F64_norm L) i zs) as (a & Ha & Hb); auto.
    { rewrite Hk. discriminate. }
    { eapply Forall_impl; [|exact Hf]. intros z Hz. cbv beta in *. lia. }
    assert (Ea : a = A1 (map (@VInt float) zs)).
    { unfold dim_transform in Ha. simpl in Ha. unfold int_transformer in Ha. rewrite Hk, Hp in Ha. simpl in Ha. congruence. }
    subst a. exists (map (@VInt float) zs), g'.
    split; [exact (f_equal (fun x => (x, g')) Hb)|]. split; [now rewrite map_length|].
    apply Forall_map. eapply Forall_impl; [|exact Hf]. intros z Hz. cbv beta in Hz. constructor. lia.
  Qed.

  Lemma int_samples i n g : samplable L (DInt i) ->
    exists vs g', dim_rvs O G (DInt i) n g = (Ok vs, g') /\ length vs = n /\ Forall (in_dim O (DInt i)) vs.
  Proof.
    intros (Hw & Hi & Hb). pose proof Hw as (Hlh & Hl & Hh & Hc & Hk).
    destruct Hk as [Hk|Hk].
    { destruct (i_prior i) eqn:Hp; [now apply ints_in with (i_low i)|].
      (* log-uniform, not normalised *)
      unfold dim_rvs. simpl. rewrite Hk, Hp.
      set (lo := logb O (i_base i) (fofZ (i_low i))). set (hi := logb O (i_base i) (fofZ (i_high i))).
      destruct (@draws_all float (fun z => is_nan z = false) (uniform_draw O G lo (fsub hi lo)) n g) as [Hn Hf].
      { intros g1. apply draw_num. exact Hi. }
      destruct (draws _ n g) as [us g']. cbn [fst] in Hn, Hf.
      pose proof (@int_inverse_eq _ O i (map (@VFloat float) us)) as E.
      rewrite nums_VFloat in E. cbn [bind] in E. rewrite Hk in E. cbn [is_norm implb] in E.
      eexists. exists g'. split; [exact (f_equal (fun x => (x, g')) E)|]. split; [now rewrite map_length|].
      apply Forall_map. eapply Forall_impl; [|exact Hf]. intros z Hz.
      apply (@post_int_in _ O (F64_order L) (F64_int L)); [exact Hw|].
      unfold int_pre. rewrite Hk. rewrite Hp. cbn [is_norm]. rewrite nisnan_F64. apply unwarp_num; auto; discriminate. }
    unfold dim_rvs. simpl. rewrite Hk.
    destruct (@draws_all float (fun z => unit_range (O:=O) z = true /\ is_finite z = true)
               (uniform_draw O G (fofZ 0) (fofZ 1)) n g) as [Hn Hf].
    { intros g1. split; [apply unit_draw_ok|apply unit_draw_range]. }
    destruct (draws _ n g) as [us g']. cbn [fst] in Hn, Hf.
    pose proof (@int_inverse_eq _ O i (map (@VFloat float) us)) as E.
    rewrite nums_VFloat in E. cbn [bind] in E. rewrite Hk in E. cbn [is_norm implb] in E.
    assert (B : forallb (unit_range (O:=O)) us = true).
    { apply forallb_forall. rewrite Forall_forall in Hf. intros z Hz. now apply Hf. }
    rewrite B in E.
    eexists. exists g'. split; [exact (f_equal (fun x => (x, g')) E)|]. split; [now rewrite map_length|].
    apply Forall_map. eapply Forall_impl; [|exact Hf]. intros z (_ & Hz).
    apply (@post_int_in _ O (F64_order L) (F64_int L)); [exact Hw|].
    unfold int_pre. rewrite Hk. cbn [is_norm].
    destruct (i_prior i) eqn:Hp.
    - apply (@to_num_nofZ_num _ O (F64_order L)).
    - rewrite nisnan_F64. apply unwarp_num; auto using finite_not_nan.
  Qed.

  Lemma cat_samples c n g : samplable L (DCat c) ->
    exists vs g', dim_rvs O G (DCat c) n g = (Ok vs, g') /\ length vs = n /\ Forall (in_dim O (DCat c)) vs.
  Proof.
    intros (Hw & Hn & Hp). pose proof Hw as (Hne & Hh & Hd).
    destruct (tkind_eqb (c_kind c) KNormalize) eqn:Hk.
    - assert (K : c_kind c = KNormalize) by now destruct (c_kind c). clear Hk.
      unfold dim_rvs. simpl. rewrite K.
      set (m := (Z.of_nat (length (c_cats c)) - 1)%Z).
      destruct (@draws_all float (fun z => unit_range (O:=O) z = true /\ 
         (0 <= ftoint (fround (fadd (fmul z (fsub (fofZ m) (fofZ 0))) (fofZ 0))) <= m)%Z)
               (uniform_draw O G (fofZ 0) (fofZ 1)) n g) as [Hl Hf].
      { intros g1. split; [apply unit_draw_ok|]. destruct (unit_draw_range g1) as [Fz Bz].
        apply label_range; auto. unfold m. destruct (c_cats c); [easy|]. simpl length in *. lia. }
      destruct (draws _ n g) as [us g']. cbn [fst] in Hl, Hf.
      unfold cat_transformer. rewrite K. cbn [inverse_transform as_A1 bind].
      rewrite nums_VFloat. cbn [bind]. rewrite normalize_inverse_eq.
      assert (B : forallb (unit_range (O:=O)) us = true).
      { apply forallb_forall. rewrite Forall_forall in Hf. intros z Hz. now apply Hf. }
      rewrite B. cbn [bind as_A1]. rewrite <- map_map with (f := fun x => ftoint (fround (fadd (fmul x (fsub (fofZ m) (fofZ 0))) (fofZ 0)))) (g := @VInt float).
      set (is := map (fun x => ftoint _) us).
      assert (His : Forall (fun z => (0 <= z <= m)%Z) is).
      { unfold is. apply Forall_map. eapply Forall_impl; [|exact Hf]. now intros z []. }
      assert (Hil : length is = n) by (unfold is; now rewrite map_length).
      clearbody is. clear Hf B us Hl.
      pose proof (Permutation.Permutation_sym (@label_order_perm _ O (c_cats c) Hh Hd)) as Pm.
      assert (X : exists xs, Forall2 (fun v i => nth_error (label_order (O:=O) (c_cats c)) i = Some v) xs (map Z.to_nat is) /\ incl xs (c_cats c)).
      { clear Hil. induction His as [|z is Hz His IH]; [exists []; split; [constructor|easy]|].
        destruct IH as (xs & Hx & Hi).
        assert (Lt : Z.to_nat z < length (label_order (O:=O) (c_cats c))).
        { rewrite (Permutation.Permutation_length Pm). unfold m in Hz. lia. }
        destruct (nth_error (label_order (O:=O) (c_cats c)) (Z.to_nat z)) as [v|] eqn:E.
        - exists (v :: xs). split; [constructor; auto|]. intros w [<-|Hw']; [|auto].
          apply (Permutation.Permutation_in _ Pm). now apply nth_error_In in E.
        - apply nth_error_None in E. lia. }
      destruct X as (xs & Hx & Hi).
      pose proof (@label_inverse_all _ O (F64_order L) (F64_int L) c xs (map Z.to_nat is) (map (@VInt float) is) Hw Hn Hx) as E.
      cbn [inverse_transform as_A1 bind] in E. unfold float in E |- *. rewrite E.
      + cbn [bind as_A1]. exists xs, g'. split; [exact (f_equal (fun l => (Ok l, g')) (np_asarray_cats Hw Hi))|].
        split; [apply Forall2_len in Hx; rewrite map_length in Hx; transitivity (length is); [exact Hx|exact Hil]|].
        apply Forall_forall. intros v Hv. constructor. now apply Hi.
      + clear -His. induction His as [|z is Hz His IH]; constructor; auto. simpl. f_equal. f_equal. lia.
    - unfold dim_rvs. simpl.
      assert (E : match c_kind c with
         | KNormalize => RVUniform (fofZ 0) (fofZ 1) | _ => RVDiscrete (cat_prior O c) end = RVDiscrete (cat_prior O c))
        by now destruct (c_kind c).
      rewrite E. clear E.
      assert (Pl : length (cat_prior O c) = length (c_cats c)).
      { unfold cat_prior. destruct (c_prior c); [easy|apply repeat_length]. }
      destruct Gok as (_ & _ & GC & _).
      destruct (@draws_all nat (fun i => i < length (c_cats c)) (fun g => rg_choice G g (cat_prior O c)) n g) as [Hl Hf].
      { intros g1. rewrite <- Pl. apply GC. destruct (cat_prior O c); [|easy]. destruct (c_cats c); easy. }
      destruct (draws _ n g) as [is g']. cbn [fst] in Hl, Hf.
      assert (X : exists vs, mapM (fun i => match nth_error (c_cats c) i with Some v => Ok v | None => Raise IndexError end) is = Ok vs
                   /\ length vs = length is /\ incl vs (c_cats c)).
      { clear Hl. induction Hf as [|i is Hi Hf IH]; [exists []; easy|].
        destruct IH as (vs & Ev & Ll & Hin). simpl.
        destruct (nth_error (c_cats c) i) as [v|] eqn:E; [|apply nth_error_None in E; lia].
        cbn [bind]. rewrite Ev. cbn [bind]. exists (v :: vs). split; [easy|]. split; [simpl; lia|].
        intros w [<-|Hw']; auto. now apply nth_error_In in E. }
      destruct X as (vs & Ev & Ll & Hin). rewrite Ev. exists vs, g'. split; [reflexivity|]. split; [lia|].
      apply Forall_forall. intros v Hv. constructor. now apply Hin.
  Qed.

  Lemma dim_samples d n g : samplable L d ->
    exists vs g', dim_rvs O G d n g = (Ok vs, g') /\ length vs = n /\ Forall (in_dim O d) vs.
  Proof. destruct d; [apply real_samples|apply int_samples|apply cat_samples]. Qed.

  Lemma column_samples dims n g : Forall (samplable L) dims ->
    exists P g', rvs_columns O G dims n g = (Ok (columns (length dims) P), g') /\ length P = n /\
      Forall (in_space O dims) P.
  Proof.
    intros F. revert g. induction F as [|d dims Hd F IH]; intros g.
    - exists (repeat [] n), g. split; [reflexivity|]. split; [apply repeat_length|].
      apply Forall_forall. intros p Hp. apply repeat_spec in Hp as ->. constructor.
    - simpl. destruct (dim_samples n g Hd) as (vs & g1 & E & Hl & Hv). rewrite E.
      destruct (IH g1) as (P & g2 & E2 & HP & HS). rewrite E2.
      exists (map (fun vp => fst vp :: snd vp) (combine vs P)), g2.
      assert (M1 : map (fun p => hd VNone p) (map (fun vp : _ * _ => fst vp :: snd vp) (combine vs P)) = vs).
      { rewrite map_map. simpl. clear -Hl HP. subst n. revert P HP. induction vs as [|v vs IH]; intros [|p P] H; simpl in *; try easy.
        f_equal. apply IH. lia. }
      assert (M2 : map (fun p : list _ => tl p) (map (fun vp : pyval float * _ => fst vp :: snd vp) (combine vs P)) = P).
      { rewrite map_map. simpl. clear -Hl HP. subst n. revert P HP. induction vs as [|v vs IH]; intros [|p P] H; simpl in *; try easy.
        f_equal. apply IH. lia. }
      split; [|split].
      + cbn [columns length]. f_equal. f_equal. f_equal; [now symmetry|]. f_equal. now symmetry.
      + rewrite map_length, combine_length. lia.
      + apply Forall_map. apply Forall_forall. intros [v p] Hin. simpl. constructor.
        * apply in_combine_l in Hin. rewrite Forall_forall in Hv. auto.
        * apply in_combine_r in Hin. rewrite Forall_forall in HS. exact (HS _ Hin).
  Qed.

  Lemma space_samples dims n g : dims <> [] -> Forall (samplable L) dims ->
    exists P g', space_rvs O G dims n g = (Ok P, g') /\ length P = n /\ Forall (in_space O dims) P.
  Proof.
    intros Hne F. destruct (column_samples n g F) as (P & g' & E & HP & HS). exists P, g'.
    unfold space_rvs. rewrite E. cbn [bind]. split; [|easy]. apply (f_equal (fun x => (x, g'))).
    apply transpose_columns; [now destruct dims|].
    eapply Forall_impl; [|exact HS]. intros p. apply in_space_length.
  Qed.
End SampleLemmas.
