(** Round trips over exact reals, all priors (C04, C05). *)
From Coq Require Import String List ZArith Bool Lia Reals Lra.
From Flocq Require Import Core.Core.
From Verif Require Import Base BaseLemmas Num Values Transformers Dimension Space NumLaws NormLaws SpaceSpec
  DimLemmas CatLemmas RoundTrip SpaceLemmas.
Import ListNotations.
Open Scope list_scope.
Set Implicit Arguments.
Local Arguments Z.pow : simpl never.
Local Open Scope R_scope.
Notation rdim := (dim R).

Lemma ln10_pos : 0 < ln 10.
Proof. rewrite <- ln_1. apply ln_increasing; lra. Qed.
Lemma ln_neq0 b : 0 < b -> b <> 1 -> ln b <> 0.
Proof. intros H H1 E. apply H1. rewrite <- ln_1 in E. apply ln_inv in E; lra. Qed.

(** log10 x / log10 b is the base-b logarithm. *)
Lemma logb_val b x : 0 < b -> b <> 1 -> logb Rops b x = ln x / ln b.
Proof.
  intros Hb H1. unfold logb. simpl. pose proof ln10_pos. pose proof (ln_neq0 Hb H1). field. lra.
Qed.
Lemma pow_logb b x : 0 < b -> b <> 1 -> 0 < x -> Rpower b (logb Rops b x) = x.
Proof.
  intros Hb H1 Hx. rewrite logb_val by easy. unfold Rpower.
  replace (ln x / ln b * ln b) with (ln x) by (field; now apply ln_neq0). now apply exp_ln.
Qed.
Lemma logb_lt b x y : 1 < b -> 0 < x -> x < y -> logb Rops b x < logb Rops b y.
Proof.
  intros Hb Hx Hxy. rewrite !logb_val by lra.
  assert (0 < ln b) by (rewrite <- ln_1; apply ln_increasing; lra).
  apply Rmult_lt_compat_r; [now apply Rinv_0_lt_compat|]. apply ln_increasing; lra.
Qed.
Lemma logb_le b x y : 1 < b -> 0 < x -> x <= y -> logb Rops b x <= logb Rops b y.
Proof. intros Hb Hx [H| ->]; [left; now apply logb_lt|lra]. Qed.

(** The documented warping. *)
Definition warp1 (p : prior) (base x : R) : R :=
  match p with PUniform => x | PLogUniform => logb Rops base x end.
Definition warpR (low high base : R) (p : prior) (k : tkind) (x : R) : R :=
  match k with
  | KNormalize => (warp1 p base x - warp1 p base low) / (warp1 p base high - warp1 p base low)
  | _ => warp1 p base x
  end.

Lemma warp1_mono p k base low x y : log_ok p k base low -> k = KNormalize -> low <= x -> x < y ->
  warp1 p base x < warp1 p base y.
Proof.
  intros H Hk Hx Hxy. destruct p; [easy|]. destruct (H eq_refl) as (Hl & Hb & _ & H1).
  apply logb_lt; [now apply H1|lra|lra].
Qed.

Lemma unwarp_warp low high base p k x : log_ok p k base low -> low <= x <= high -> low < high ->
  unwarp Rops low high base p k (warpR low high base p k x) = x.
Proof.
  intros H Hx Hlh. unfold unwarp, warpR. simpl.
  assert (E : forall y, (match p with PUniform => y | PLogUniform => ln y / ln 10 / (ln base / ln 10) end) = warp1 p base y)
    by (intros y; now destruct p).
  rewrite !E.
  assert (W : match p with PUniform => warp1 p base x | PLogUniform => Rpower base (warp1 p base x) end = x).
  { destruct p; [easy|]. destruct (H eq_refl) as (Hl & Hb & Hb1 & _). apply pow_logb; auto. lra. }
  destruct (tkind_eqb k KNormalize) eqn:K.
  - assert (k = KNormalize) as -> by now destruct k.
    pose proof (@warp1_mono p KNormalize base low low high H eq_refl ltac:(lra) Hlh) as D.
    replace ((warp1 p base x - warp1 p base low) / (warp1 p base high - warp1 p base low) *
      (warp1 p base high - warp1 p base low) + warp1 p base low) with (warp1 p base x) by (field; lra).
    exact W.
  - assert (Ek : forall A (a b : A), match k with KNormalize => a | _ => b end = b) by (intros; now destruct k).
    rewrite !Ek. exact W.
Qed.

Lemma warp_unit low high base p x : log_ok p KNormalize base low -> low <= x <= high -> low < high ->
  0 <= warpR low high base p KNormalize x <= 1.
Proof.
  intros H Hx Hlh. unfold warpR.
  pose proof (@warp1_mono p KNormalize base low low high H eq_refl ltac:(lra) Hlh) as D.
  assert (A : warp1 p base low <= warp1 p base x).
  { destruct (Req_dec low x) as [->|Hn]; [lra|]. left. apply (@warp1_mono p KNormalize base low); auto; lra. }
  assert (B : warp1 p base x <= warp1 p base high).
  { destruct (Req_dec x high) as [->|Hn]; [lra|]. left. apply (@warp1_mono p KNormalize base low); auto; lra. }
  split.
  - apply Rmult_le_pos; [lra|]. left. apply Rinv_0_lt_compat. lra.
  - apply Rmult_le_reg_r with (warp1 p base high - warp1 p base low); [lra|].
    unfold Rdiv. rewrite Rmult_assoc, Rinv_l; lra.
Qed.

Lemma existsb_false {A} (f : A -> bool) l : Forall (fun x => f x = false) l -> existsb f l = false.
Proof. induction 1 as [|x l Hx H IH]; simpl; [easy|]. now rewrite Hx. Qed.

(** Normalize.transform (not is_int) on values inside its interval. *)
Lemma normalize_floats lo hi xs : lo < hi -> Forall (fun x => lo <= x <= hi) xs ->
  normalize_transform Rops lo hi false xs = Ok (map (fun x => (x - lo) / (hi - lo)) xs).
Proof.
  intros Hlh Hx. unfold normalize_transform. rewrite !existsb_false.
  - assert (E : neqb Rops (nsub Rops hi lo) (nofZ Rops 0) = false) by (apply Rneqb_false; simpl; lra).
    rewrite E. reflexivity.
  - eapply Forall_impl; [|exact Hx]. intros x [H1 H2]. simpl. apply Rltb_false. lra.
  - eapply Forall_impl; [|exact Hx]. intros x [H1 H2]. simpl. apply Rltb_false. lra.
Qed.

Lemma warp1_range p base low high xs : log_ok p KNormalize base low -> low < high ->
  Forall (fun x => low <= x <= high) xs ->
  Forall (fun x => warp1 p base low <= x <= warp1 p base high) (map (warp1 p base) xs).
Proof.
  intros H Hlh Hx. apply Forall_map. eapply Forall_impl; [|exact Hx]. intros x B. cbv beta in B.
  destruct p; [easy|]. destruct (H eq_refl) as (Hl & Hb & Hb1 & Hn). specialize (Hn eq_refl).
  split; apply logb_le; auto; lra.
Qed.

Lemma real_transform_R r xs : wf_real Rops r -> log_ok (r_prior r) (r_kind r) (r_base r) (r_low r) ->
  Forall (fun x => r_low r <= x <= r_high r) xs ->
  dim_transform Rops (DReal r) (map (@VFloat R) xs) =
  Ok (A1 (map (fun x => VFloat (warpR (r_low r) (r_high r) (r_base r) (r_prior r) (r_kind r) x)) xs)).
Proof.
  intros (Hlh & _ & Hk) H Hx. apply Rltb_spec in Hlh.
  unfold dim_transform, dim_transformer, real_transformer, warpR.
  destruct Hk as [Hk|Hk]; rewrite Hk in *.
  - destruct (r_prior r); cbn [transform as_A1 bind]; [reflexivity|].
    rewrite nums_VFloat. cbn [bind]. reflexivity.
  - pose proof (warp1_range H Hlh Hx) as B.
    pose proof (@warp1_mono (r_prior r) KNormalize (r_base r) (r_low r) (r_low r) (r_high r) H eq_refl ltac:(lra) Hlh) as D.
    destruct (r_prior r); cbn [transform as_A1 bind]; rewrite nums_VFloat; cbn [bind].
    + simpl in B, D. rewrite map_id in B. rewrite normalize_floats by easy. cbn [bind]. now rewrite map_map.
    + cbn [warp1] in B, D.
      change (map (fun x : R => VFloat (ndiv Rops (nlog10 Rops x) (nlog10 Rops (r_base r)))) xs)
        with (map (fun x : R => VFloat (logb Rops (r_base r) x)) xs).
      rewrite <- (map_map (logb Rops (r_base r)) (@VFloat R)). cbn [as_A1 bind]. rewrite nums_VFloat. cbn [bind].
      rewrite normalize_floats by easy. cbn [bind]. now rewrite !map_map.
Qed.

Lemma unit_range_R z : 0 <= z <= 1 -> unit_range (O:=Rops) z = true.
Proof. intros H. unfold unit_range. simpl. rewrite !(proj2 (Rltb_false _ _)); [easy|lra..]. Qed.

Lemma real_inverse_R r xs : wf_real Rops r -> log_ok (r_prior r) (r_kind r) (r_base r) (r_low r) ->
  Forall (fun x => r_low r <= x <= r_high r) xs ->
  dim_inverse Rops (DReal r) (A1 (map (fun x => VFloat (warpR (r_low r) (r_high r) (r_base r) (r_prior r) (r_kind r) x)) xs))
  = Ok (map (@VFloat R) xs).
Proof.
  intros (Hlh & Hdt & Hk) H Hx. apply Rltb_spec in Hlh. rewrite real_inverse_eq.
  rewrite <- map_map with (g := @VFloat R). rewrite nums_VFloat. cbn [bind].
  assert (B : implb (is_norm (r_kind r)) (forallb (unit_range (O:=Rops)) (map (warpR (r_low r) (r_high r) (r_base r) (r_prior r) (r_kind r)) xs)) = true).
  { destruct Hk as [Hk|Hk]; rewrite Hk in *; [easy|]. cbn [is_norm implb]. apply forallb_forall.
    intros z Hz. apply in_map_iff in Hz as (x & <- & Hin). apply unit_range_R. rewrite Forall_forall in Hx.
    apply warp_unit; auto. }
  rewrite B. f_equal. rewrite map_map. apply map_ext_in. intros x Hin. rewrite Forall_forall in Hx.
  specialize (Hx x Hin). rewrite unwarp_warp by easy. unfold post_real. simpl.
  rewrite (clip_id Rops_order); [easy|apply Rleb_spec; lra..].
Qed.

Lemma real_roundtrip_R r xs : wf_real Rops r -> log_ok (r_prior r) (r_kind r) (r_base r) (r_low r) ->
  Forall (fun x => r_low r <= x <= r_high r) xs ->
  exists a, dim_transform Rops (DReal r) (map (@VFloat R) xs) = Ok a /\
            dim_inverse Rops (DReal r) a = Ok (map (@VFloat R) xs).
Proof.
  intros Hw H Hx. eexists. split; [now apply real_transform_R|now apply real_inverse_R].
Qed.

(** Integer dimensions with a log-uniform prior. *)
Lemma int_transform_R i zs : wf_int i -> i_prior i = PLogUniform ->
  log_ok (i_prior i) (i_kind i) (i_base i) (IZR (i_low i)) ->
  Forall (fun z => (i_low i <= z <= i_high i)%Z) zs ->
  dim_transform Rops (DInt i) (map (@VInt R) zs) =
  Ok (A1 (map (fun z => VFloat (warpR (IZR (i_low i)) (IZR (i_high i)) (i_base i) PLogUniform (i_kind i) (IZR z))) zs)).
Proof.
  intros (Hlh & _ & _ & _ & Hk) Hp H Hz. apply IZR_lt in Hlh.
  assert (Hx : Forall (fun x => IZR (i_low i) <= x <= IZR (i_high i)) (map IZR zs)).
  { apply Forall_map. eapply Forall_impl; [|exact Hz]. intros z [A B]. split; now apply IZR_le. }
  rewrite Hp in H.
  unfold dim_transform, dim_transformer, int_transformer, warpR. rewrite Hp.
  destruct Hk as [Hk|Hk]; rewrite Hk in *.
  - cbn [transform as_A1 bind]. rewrite nums_VInt. cbn [bind]. rewrite map_map. reflexivity.
  - pose proof (warp1_range H Hlh Hx) as B.
    pose proof (@warp1_mono PLogUniform KNormalize (i_base i) (IZR (i_low i)) (IZR (i_low i)) (IZR (i_high i)) H eq_refl ltac:(lra) Hlh) as D.
    cbn [transform as_A1 bind]. rewrite nums_VInt. cbn [bind].
    change (map (fun x : R => VFloat (ndiv Rops (nlog10 Rops x) (nlog10 Rops (i_base i)))) (map (nofZ Rops) zs))
      with (map (fun x : R => VFloat (logb Rops (i_base i) x)) (map IZR zs)).
    rewrite <- (map_map (logb Rops (i_base i)) (@VFloat R)). cbn [as_A1 bind]. rewrite nums_VFloat. cbn [bind]. cbn [warp1] in B, D.
    change (nofZ Rops) with IZR.
    rewrite normalize_floats by easy. cbn [bind]. now rewrite !map_map.
Qed.

Lemma int_inverse_R i zs : wf_int i -> i_prior i = PLogUniform ->
  log_ok (i_prior i) (i_kind i) (i_base i) (IZR (i_low i)) ->
  Forall (fun z => (i_low i <= z <= i_high i)%Z) zs ->
  dim_inverse Rops (DInt i) (A1 (map (fun z => VFloat (warpR (IZR (i_low i)) (IZR (i_high i)) (i_base i) PLogUniform (i_kind i) (IZR z))) zs))
  = Ok (map (@VInt R) zs).
Proof.
  intros Hw Hp H Hz. pose proof Hw as (Hlh & _ & _ & _ & Hk). apply IZR_lt in Hlh. rewrite Hp in H.
  rewrite int_inverse_eq. rewrite <- map_map with (g := @VFloat R). rewrite nums_VFloat. cbn [bind].
  assert (B : implb (is_norm (i_kind i)) (forallb (unit_range (O:=Rops)) (map (fun z => warpR (IZR (i_low i)) (IZR (i_high i)) (i_base i) PLogUniform (i_kind i) (IZR z)) zs)) = true).
  { destruct Hk as [Hk|Hk]; rewrite Hk in *; [easy|]. cbn [is_norm implb]. apply forallb_forall.
    intros z Hin. apply in_map_iff in Hin as (x & <- & Hin). apply unit_range_R. rewrite Forall_forall in Hz.
    specialize (Hz x Hin). apply warp_unit; auto. split; apply IZR_le; lia. }
  rewrite B. f_equal. rewrite map_map. apply map_ext_in. intros z Hin. rewrite Forall_forall in Hz.
  specialize (Hz z Hin). rewrite Hp. change (nofZ Rops) with IZR.
  rewrite unwarp_warp; [|easy|split; apply IZR_le; lia|easy].
  assert (E : int_pre (O:=Rops) i (IZR z) = IZR z).
  { unfold int_pre. rewrite Hp. now destruct (i_kind i). }
  rewrite E. exact (@post_int_id _ Rops Rops_order Rops_int i z Hw Hz).
Qed.

Lemma int_roundtrip_R i zs : wf_int i -> i_prior i = PLogUniform ->
  log_ok (i_prior i) (i_kind i) (i_base i) (IZR (i_low i)) ->
  Forall (fun z => (i_low i <= z <= i_high i)%Z) zs ->
  exists a, dim_transform Rops (DInt i) (map (@VInt R) zs) = Ok a /\
            dim_inverse Rops (DInt i) a = Ok (map (@VInt R) zs).
Proof.
  intros Hw Hp H Hx. eexists. split; [now apply int_transform_R|now apply int_inverse_R].
Qed.

(** *** Whole spaces *)
Definition numval (v : pyval R) : R := match v with VFloat x => x | VInt z => IZR z | _ => 0 end.

Lemma rt_by_map (d : rdim) (w : pyval R -> R) : is_cat d = false ->
  (forall xs, Forall (in_dim Rops d) xs ->
     dim_transform Rops d xs = Ok (A1 (map (fun v => VFloat (w v)) xs)) /\
     dim_inverse Rops d (A1 (map (fun v => VFloat (w v)) xs)) = Ok xs) ->
  rt_with (O:=Rops) d (fun v => [VFloat (w v)]).
Proof.
  intros Hc HH xs Hne Hx. destruct (HH xs Hx) as [T I].
  assert (Ts : tsize d = 1%nat) by (destruct d; easy).
  split; [|split].
  - eexists. split; [exact T|]. simpl. now rewrite map_map.
  - apply Forall_forall. intros v _. split; [now rewrite Ts|]. repeat constructor. now eexists.
  - intros rows F. unfold arrange. rewrite Ts. cbn [Nat.eqb]. rewrite <- I. symmetry. apply dim_inverse_cong.
    + now destruct d.
    + simpl. erewrite (@nums_sing_concat _ Rops _ (fun v => VFloat (w v))); eauto.
      apply Forall_forall. intros v _. now eexists.
    + exists (map w xs). rewrite <- map_map with (g := @VFloat R). apply nums_VFloat.
Qed.

Lemma ideal_round_trips d : ideal_dim d -> exists g, rt_with (O:=Rops) d g.
Proof.
  intros H. destruct d as [r|i|c].
  - destruct H as [Hw H]. eexists. apply rt_by_map with
      (w := fun v => warpR (r_low r) (r_high r) (r_base r) (r_prior r) (r_kind r) (numval v)); [easy|].
    intros xs Hx. destruct (in_dim_floats Hx) as (fs & -> & Hf).
    assert (Hf' : Forall (fun x => r_low r <= x <= r_high r) fs).
    { eapply Forall_impl; [|exact Hf]. simpl. intros x [A B]. apply Rleb_spec in A. apply Rleb_spec in B. lra. }
    rewrite map_map. cbn [numval]. split; [now apply real_transform_R|now apply real_inverse_R].
  - destruct H as (Hu & Hw & H). destruct (i_prior i) eqn:Hp.
    + apply (@exact_round_trips _ Rops Rops_order Rops_int Rops_norm (fun x => eq_refl)). now apply Hu.
    + eexists. apply rt_by_map with
        (w := fun v => warpR (IZR (i_low i)) (IZR (i_high i)) (i_base i) PLogUniform (i_kind i) (numval v)); [easy|].
      intros xs Hx. destruct (in_dim_ints Hx) as (zs & -> & Hz).
      rewrite map_map. cbn [numval]. rewrite <- Hp in H. split; [now apply int_transform_R|now apply int_inverse_R].
  - apply (@exact_round_trips _ Rops Rops_order Rops_int Rops_norm (fun x => eq_refl)). exact H.
Qed.

Lemma space_roundtrip_R dims P : dims <> [] -> Forall ideal_dim dims -> P <> [] ->
  Forall (in_space Rops dims) P ->
  exists Xt, space_transform Rops dims P = Ok Xt /\ length Xt = length P /\
    Forall2 (fun p row => length row = t_n_dims dims /\
       exists parts, Forall2 (fun dv part => warped_by (O:=Rops) (fst dv) (snd dv) part /\ length part = tsize (fst dv))
                             (combine dims p) parts /\
         row = concat parts) P Xt /\
    space_inverse Rops dims Xt = Ok P.
Proof. apply space_roundtrip_of. exact ideal_round_trips. Qed.
