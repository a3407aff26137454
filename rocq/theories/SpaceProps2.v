(** Instances, concrete cases and counterexamples for C04-C07. *)
From Coq Require Import String List ZArith Bool Lia Reals Lra Permutation.
From Verif Require Import Base BaseLemmas Num Values Transformers Dimension Space NumLaws F64Arith NormLaws SpaceSpec
  DimLemmas CatLemmas RoundTrip SpaceLemmas F64Dim SampleLemmas RealLemmas BoundLemmas SpaceProps Samples.
Import ListNotations.
Open Scope list_scope.

Lemma real_identity_F64 L r xs : wf_real (F64 L) r -> r_prior r = PUniform -> r_kind r = KIdentity ->
  Forall (fun x => fleb (r_low r) x = true /\ fleb x (r_high r) = true) xs ->
  exists a, dim_transform (F64 L) (DReal r) (map (@VFloat float) xs) = Ok a /\
            dim_inverse (F64 L) (DReal r) a = Ok (map (@VFloat float) xs).
Proof. apply (real_identity_roundtrip (O:=F64 L)); [apply F64_order|reflexivity]. Qed.

(** ** Real samples *)
Definition rreal (p : prior) (base : R) (k : tkind) : real_dim R := mkReal 1%R 8%R p base k None DT64.

Lemma rreal_wf p b k : k = KIdentity \/ k = KNormalize -> wf_real Rops (rreal p b k).
Proof.
  intros Hk. split; [|split; [easy|exact Hk]]. simpl. unfold Rltb. destruct (Rlt_dec 1 8); [easy|lra].
Qed.

Lemma C04_sample :
  wf_real Rops (rreal PLogUniform 2 KNormalize) /\
  log_ok PLogUniform KNormalize 2 1 /\ Forall (fun x => 1 <= x <= 8)%R [1%R; 4%R; 8%R].
Proof.
  split; [apply rreal_wf; now right|]. split.
  - intros _. repeat split; lra.
  - repeat constructor; lra.
Qed.

Lemma C04_identity_sample :
  wf_dim O0 (real1 KIdentity) /\
  rmap (map view) (a <- dim_transform O0 (real1 KIdentity) [VFloat fhalf; VFloat (fofZ (-5))] ;;
   dim_inverse O0 (real1 KIdentity) a) = Ok [view (VFloat fhalf); view (VFloat (fofZ (-5)))].
Proof. split; [apply wf_real1; auto|now vm_compute]. Qed.

Definition rint : int_dim R := mkInt 1 100 PLogUniform 10%R KNormalize None int64.
Lemma rint_wf : wf_int rint.
Proof.
  split; [now vm_compute|]. split; [now vm_compute|]. split; [now vm_compute|].
  split; [|now right]. intros z Hz. apply int64_id. simpl in Hz. lia.
Qed.
Definition rspace : list (dim R) :=
  [DReal (rreal PLogUniform 2 KNormalize); DInt rint; DReal (rreal PUniform 10 KIdentity);
   DCat (mkCat [VStr "b"; VStr "a"; VStr "c"]%string None KOnehot None)].
Definition rpoint : point R := [VFloat 4%R; VInt 7; VFloat 2%R; VStr "c"%string].

Lemma wf_cat_str k n : wf_cat Rops (mkCat [VStr "b"; VStr "a"; VStr "c"]%string None k n).
Proof.
  repeat split; simpl; try easy.
  - exists TyStr. repeat constructor.
  - repeat constructor.
  - repeat constructor.
Qed.
Lemma rspace_ideal : Forall ideal_dim rspace.
Proof.
  constructor; [|constructor; [|constructor; [|constructor; [|constructor]]]].
  - split; [apply rreal_wf; now right|]. intros _. simpl. repeat split; lra.
  - split; [easy|]. split; [apply rint_wf|]. intros _. simpl. repeat split; lra.
  - split; [apply rreal_wf; now left|]. intros E. discriminate E.
  - split; [apply wf_cat_str|]. split; [now left|now vm_compute].
Qed.
Lemma rpoint_in : in_space Rops rspace rpoint.
Proof.
  assert (Q : forall x y, (x <= y)%R -> Rleb' x y = true)
    by (intros x y H; unfold Rleb'; now destruct (Rle_dec x y)).
  constructor; [constructor; simpl; apply Q; lra|].
  constructor; [constructor; simpl; lia|].
  constructor; [constructor; simpl; apply Q; lra|].
  constructor; [constructor; simpl; auto|constructor].
Qed.
Lemma rpoints_in n : Forall (in_space Rops rspace) (repeat rpoint n).
Proof. induction n; simpl; constructor; [apply rpoint_in|assumption]. Qed.
Lemma C05_real_sample : Forall ideal_dim rspace /\ Forall (in_space Rops rspace) [rpoint; rpoint].
Proof. split; [apply rspace_ideal|apply (rpoints_in 2)]. Qed.

Lemma C07_real_sample : Forall boundedR rspace /\ Forall (in_space Rops rspace) [rpoint].
Proof.
  split; [|apply (rpoints_in 1)].
  pose proof rspace_ideal as H. unfold rspace in *.
  repeat match goal with
  | H : Forall _ (_ :: _) |- _ => apply Forall_cons_iff in H; destruct H
  | |- Forall _ (_ :: _) => apply Forall_cons
  | |- Forall _ [] => constructor
  end; (split; [assumption|]); cbn; auto; discriminate.
Qed.

(** ** Sampling with a concrete generator *)
Definition G0 : rng_ops float nat := {|
  rg_random := fun g => ((if Nat.even g then fofZ 0 else fhalf), S g);
  rg_randint := fun g lo hi => ((lo + Z.of_nat g mod (hi - lo))%Z, S g);
  rg_choice := fun g p => (Nat.modulo g (length p), S g);
  rg_perm := fun g n => (rev (seq 0 n), S g);
  rg_multinomial := fun g p => (Nat.modulo g (length p), S g);
  rg_seed := fun z => Z.to_nat z |}.

Lemma G0_ok L : rng_ok (F64 L) G0.
Proof.
  assert (M : forall g (p : list float), p <> [] -> Nat.modulo g (length p) < length p).
  { intros g p Hp. apply Nat.mod_upper_bound. now destruct p. }
  split; [|split; [|split; [|split]]]; try exact M.
  - intros g. cbn [rg_random G0 fst]. destruct (Nat.even g); split; now vm_compute.
  - intros g lo hi H. cbn [rg_randint G0 fst].
    pose proof (Z.mod_pos_bound (Z.of_nat g) (hi - lo)). lia.
  - intros g n. cbn [rg_perm G0 fst]. apply Permutation_sym, Permutation_rev.
Qed.
Lemma L0_pow : pow_ok L0.
Proof.
  intros b y H _. cbn [l_pow L0]. destruct b; try reflexivity. discriminate H.
Qed.

Lemma C06_sample :
  rng_ok O0 G0 /\ pow_ok L0 /\ Forall (samplable L0) space4 /\
  rmap (map (map view)) (fst (space_rvs O0 G0 space4 3 1)) =
  Ok [[VFloat (SpecFloat.S754_finite false 5629499534213122 (-51)); VInt (-3); VStr "a"; VInt 3];
      [VFloat (SpecFloat.S754_finite true 5629499534213120 (-50)); VInt 5; VStr "c"; VInt 7];
      [VFloat (SpecFloat.S754_finite false 5629499534213122 (-51)); VInt (-3); VStr "b"; VInt 3]]%string.
Proof.
  split; [apply G0_ok|]. split; [apply L0_pow|]. split.
  - constructor; [|constructor; [|constructor; [|constructor; [|constructor]]]].
    + split; [apply wf_real1; auto|]. split; [split; [|split]; now vm_compute|]. intros E; discriminate E.
    + split; [apply wf_int1; auto|]. split; [split; [|split]; now vm_compute|]. intros E; discriminate E.
    + split; [apply wf_cat3|]. now vm_compute.
    + split; [apply wf_cat2|]. now vm_compute.
  - now vm_compute.
Qed.

(** ** C07 in float64: sample and counterexamples *)
Lemma C07_sample :
  Forall (bounded64 L0) [real1 KNormalize; int1 KNormalize; cat3 KOnehot] /\
  Forall (in_space O0 [real1 KNormalize; int1 KNormalize; cat3 KOnehot])
    [[VFloat fhalf; VInt 5; VStr "c"%string]].
Proof.
  split.
  - constructor; [|constructor; [|constructor; [|constructor]]].
    + right. split; [apply (wf_real1 KNormalize); auto|]. repeat split; now vm_compute.
    + split; [apply wf_int1; auto|]. split; [easy|intros _; now vm_compute].
    + split; [split; [apply wf_cat3|split; [now left|now vm_compute]]|discriminate].
  - constructor; [|constructor].
    constructor; [constructor; now vm_compute|]. constructor; [constructor; simpl; lia|].
    constructor; [constructor; simpl; auto|constructor].
Qed.

Lemma label_bounds_wrong L : exists d v y,
  wf_dim (F64 L) d /\ in_dim (F64 L) d v /\
  dim_transform (F64 L) d [v] = Ok (A1 [y]) /\ ~ within (O := F64 L) (tbounds (F64 L) d) [y].
Proof.
  exists (DCat (mkCat [VStr "a"; VStr "b"; VStr "c"]%string None KLabel None)), (VStr "c"%string), (VInt 2).
  split; [|split; [|split]].
  - repeat split; simpl; try easy.
    + exists TyStr. repeat constructor.
    + repeat constructor.
    + repeat constructor.
  - constructor. simpl. auto.
  - reflexivity.
  - intros H. inversion H as [|b x bs row [y [Hy [_ H2]]] _ E1 E2]. subst.
    injection Hy as <-. revert H2. cbn [nleb F64]. now vm_compute.
Qed.

Lemma int_log_bounds_wrong : exists d v y,
  ideal_dim d /\ in_dim Rops d v /\
  dim_transform Rops d [v] = Ok (A1 [y]) /\ ~ within (O := Rops) (tbounds Rops d) [y].
Proof.
  exists (DInt (mkInt 10 100 PLogUniform 10%R KIdentity None int64)), (VInt 10),
    (VFloat (logb Rops 10%R 10%R)).
  split; [|split; [|split]].
  - split; [easy|]. split.
    + split; [now vm_compute|]. split; [now vm_compute|]. split; [now vm_compute|].
      split; [|now left]. intros z Hz. apply int64_id. simpl in Hz. lia.
    + intros _. simpl. repeat split; lra.
  - constructor. simpl. lia.
  - reflexivity.
  - intros H. inversion H as [|b x bs row [y [Hy [H1 _]]] _ E1 E2]. subst.
    injection Hy as <-. revert H1. cbn [nleb Rops fst nofZ logb i_low]. unfold logb, Rleb'. simpl.
    destruct (Rle_dec _ _) as [H1|]; [|easy]. intros _.
    assert (ln 10 <> 0)%R. { intros E. assert (ln 1 < ln 10)%R by (apply ln_increasing; lra). rewrite ln_1 in *. lra. }
    assert (ln 10 / ln 10 / (ln 10 / ln 10) = 1)%R by (field; auto). lra.
Qed.

Lemma real_log_bounds_wrong : exists d v y,
  ideal_dim d /\ in_dim Rops d v /\
  dim_transform Rops d [v] = Ok (A1 [y]) /\ ~ within (O := Rops) (tbounds Rops d) [y].
Proof.
  exists (DReal (rreal PLogUniform 2 KIdentity)), (VFloat 8%R), (VFloat (logb Rops 2%R 8%R)).
  assert (Q : (0 < ln 2 < ln 8 /\ ln 8 < ln 10)%R).
  { rewrite <- ln_1. repeat split; apply ln_increasing; lra. }
  split; [|split; [|split]].
  - split; [apply rreal_wf; now left|]. intros _. simpl. repeat split; lra.
  - constructor; simpl; unfold Rleb'; destruct (Rle_dec _ _); auto; lra.
  - reflexivity.
  - intros H. inversion H as [|b x bs row [y [Hy [_ H2]]] _ E1 E2]. subst.
    injection Hy as <-. revert H2. cbn [nleb Rops snd nofZ logb]. unfold logb, Rleb'. simpl.
    destruct (Rle_dec _ _) as [H1|]; [|easy]. intros _.
    assert (E : (ln 8 / ln 10 / (ln 2 / ln 10) = ln 8 / ln 2)%R) by (field; lra). rewrite E in H1.
    assert (1 < ln 8 / ln 2)%R. { apply Rmult_lt_reg_r with (ln 2); [lra|]. unfold Rdiv.
      rewrite Rmult_assoc, Rinv_l; lra. }
    assert (ln 8 / ln 10 < 1)%R. { apply Rmult_lt_reg_r with (ln 10); [lra|]. unfold Rdiv.
      rewrite Rmult_assoc, Rinv_l; lra. }
    lra.
Qed.

(** ** Bounds that are not kept (C01) *)
(** A float32 Real dimension returns a number above its upper bound. *)
Lemma float32_out_of_bounds L : exists r z v,
  nltb (F64 L) (r_low r) (r_high r) = true /\ r_dtype r = DT32 /\ fleb z (r_high r) = true /\
  dim_inverse (F64 L) (DReal r) (A1 [VFloat z]) = Ok [VFloat v] /\ fltb (r_high r) v = true.
Proof.
  pose (h := fdiv (fofZ 1) (fofZ 10)).
  exists (mkReal (fofZ 0) h PUniform (fofZ 10) KIdentity None DT32), h, (fcast DT32 (nclip (F64 L) (fofZ 0) h h)).
  repeat split; now vm_compute.
Qed.
(** An int8 Integer dimension with bounds beyond the dtype wraps around. *)
Lemma int8_wraps L : exists i z,
  (i_low i < i_high i)%Z /\ (i_low i <= z <= i_high i)%Z /\
  exists w, dim_inverse (F64 L) (DInt i) (A1 [VInt z]) = Ok [VInt w] /\ (w < i_low i)%Z.
Proof.
  exists (mkInt 0 200 PUniform (fofZ 10) KIdentity None int8), 200%Z.
  split; [now vm_compute|]. split; [simpl; lia|]. exists (-56)%Z. split; now vm_compute.
Qed.
(** A NaN handed to an Integer dimension comes back far below the lower bound. *)
Lemma int_nan_escapes L : exists i z,
  wf_int i /\ nisnan (F64 L) z = true /\
  exists w, dim_inverse (F64 L) (DInt i) (A1 [VFloat z]) = Ok [VInt w] /\ (w < i_low i)%Z.
Proof.
  exists (mkInt (-3) 12 PUniform (fofZ 10) KIdentity None int64), (fdiv (fofZ 0) (fofZ 0)).
  split; [apply (wf_int1 KIdentity); auto|]. split; [now vm_compute|].
  exists (- 2 ^ 63)%Z. split; now vm_compute.
Qed.
(** The string encoding does not give booleans back. *)
Lemma string_bool_lost L : exists c v w,
  wf_cat (F64 L) c /\ c_kind c = KString /\ In v (c_cats c) /\
  (a <- dim_transform (F64 L) (DCat c) [v] ;; dim_inverse (F64 L) (DCat c) a) = Ok [w] /\ w <> v.
Proof.
  exists (mkCat [VBool true; VBool false] None KString None), (VBool false), (VBool true).
  split; [|split; [|split; [|split]]]; try easy.
  - repeat split; simpl; try easy.
    + exists TyBool. repeat constructor.
    + repeat constructor.
    + repeat constructor.
  - simpl. auto.
Qed.
