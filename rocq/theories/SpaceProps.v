(** Float64 instances of the space lemmas, and the concrete cases shown beside the theorems. *)
From Coq Require Import String List ZArith Bool Lia.
From Verif Require Import Base BaseLemmas Num Values Transformers Dimension Space NumLaws F64Arith NormLaws SpaceSpec
  DimLemmas CatLemmas RoundTrip SpaceLemmas Samples.
Import ListNotations.
Open Scope list_scope.
Local Arguments Z.pow : simpl never.

Lemma cast64_F64 L : forall x, ncast (F64 L) DT64 x = x.
Proof. easy. Qed.

Lemma inverse_in_bounds_F64 : forall L d l vs,
  wf_dim (F64 L) d -> is_cat d = false -> dim_inverse (F64 L) d (A1 l) = Ok vs ->
  length vs = length l /\
  forall k w v z u, nth_error l k = Some w -> nth_error vs k = Some v ->
    to_num (F64 L) w = Some z -> unwarp_dim (F64 L) d z = Some u -> nisnan (F64 L) u = false ->
    in_dim (F64 L) d v /\ contains (F64 L) d v = Ok true.
Proof.
  intros L d l vs Hw Hc H.
  destruct (@inverse_in_dim _ (F64 L) (F64_order L) (F64_int L) (@cast64_F64 L) d l vs Hw Hc H) as [Hl Hin].
  split; [easy|]. intros k w v z u H1 H2 H3 H4 H5. pose proof (Hin k w v z u H1 H2 H3 H4 H5) as I.
  split; [easy|]. now apply in_dim_contains.
Qed.

Lemma inverse_defined_F64 : forall L d zs,
  is_cat d = false ->
  (dim_kind d = KNormalize ->
     Forall (fun z => fltb (fadd (fofZ 1) feps) z = false /\ fltb z (fsub (fofZ 0) feps) = false) zs) ->
  exists vs, dim_inverse (F64 L) d (A1 (map (@VFloat float) zs)) = Ok vs /\ length vs = length zs.
Proof.
  intros L d zs Hc Hz. destruct (@inverse_total _ (F64 L) d zs Hc) as [vs H].
  - intros K. eapply Forall_impl; [|exact (Hz K)]. intros z [A B]. unfold unit_range. cbn [nltb nadd nofZ neps nsub F64]. now rewrite A, B.
  - exists vs. split; [easy|].
    destruct d as [r|i|c]; [| |easy].
    + rewrite real_inverse_eq, nums_VFloat in H. cbn [bind] in H. destruct (implb _ _); [|easy].
      injection H as <-. now rewrite map_length.
    + rewrite int_inverse_eq, nums_VFloat in H. cbn [bind] in H. destruct (implb _ _); [|easy].
      injection H as <-. now rewrite map_length.
Qed.

Lemma cat_inverse_in_F64 : forall L c a vs,
  wf_cat (F64 L) c -> c_kind c = KOnehot \/ c_kind c = KLabel \/ c_kind c = KNormalize ->
  dim_inverse (F64 L) (DCat c) a = Ok vs -> Forall (fun v => In v (c_cats c)) vs.
Proof.
  intros L c a vs Hw Hk H. pose proof (@cat_inverse_in _ (F64 L) c a vs Hw Hk H) as F.
  eapply Forall_impl; [|exact F]. intros v Hv. now inversion Hv.
Qed.

Lemma cat_roundtrip_F64 : forall L c xs,
  wf_cat (F64 L) c -> (Z.of_nat (length (c_cats c)) <= 2 ^ 50)%Z ->
  (c_kind c = KString -> Forall (str_ok (O := F64 L)) (c_cats c)) ->
  xs <> [] -> incl xs (c_cats c) ->
  exists a, dim_transform (F64 L) (DCat c) xs = Ok a /\ dim_inverse (F64 L) (DCat c) a = Ok xs.
Proof. intros L c xs. exact (@cat_roundtrip _ (F64 L) (F64_order L) (F64_int L) (F64_norm L) c xs). Qed.

Lemma int_roundtrip_F64 : forall L i zs,
  wf_int i -> i_prior i = PUniform ->
  (i_kind i = KNormalize ->
     Z.abs (i_low i) <= 2 ^ 50 /\ Z.abs (i_high i) <= 2 ^ 50 /\ i_high i - i_low i <= 2 ^ 50)%Z ->
  Forall (fun z => (i_low i <= z <= i_high i)%Z) zs ->
  exists a, dim_transform (F64 L) (DInt i) (map (@VInt float) zs) = Ok a /\
            dim_inverse (F64 L) (DInt i) a = Ok (map (@VInt float) zs).
Proof. intros L i zs. exact (@int_roundtrip _ (F64 L) (F64_order L) (F64_int L) (F64_norm L) i zs). Qed.

Lemma space_roundtrip_F64 : forall L dims P,
  dims <> [] -> Forall (exact_dim (F64 L)) dims -> P <> [] -> Forall (in_space (F64 L) dims) P ->
  exists Xt, space_transform (F64 L) dims P = Ok Xt /\ length Xt = length P /\
    Forall2 (fun p row =>
      length row = t_n_dims dims /\
      exists parts,
        Forall2 (fun dv part => warped_by (O := F64 L) (fst dv) (snd dv) part /\
                                length part = tsize (fst dv)) (combine dims p) parts /\
        row = concat parts) P Xt /\
    space_inverse (F64 L) dims Xt = Ok P.
Proof.
  intros L dims P.
  exact (@space_exact_roundtrip _ (F64 L) (F64_order L) (F64_int L) (F64_norm L) (@cast64_F64 L) dims P).
Qed.

(** *** Samples *)
Lemma int64_id z : (Z.abs z <= 2 ^ 53)%Z -> int_cast int64 z = z.
Proof.
  intros H. unfold int_cast, int64. cbn [id_bits id_signed andb].
  assert (E : (2 ^ 53 = 9007199254740992)%Z) by now vm_compute. rewrite E in H.
  assert (E' : (2 ^ 64 = 18446744073709551616)%Z) by now vm_compute.
  assert (E'' : (2 ^ (64 - 1) = 9223372036854775808)%Z) by now vm_compute. rewrite E', E''.
  destruct (Z_lt_ge_dec z 0) as [Hn|Hn].
  - replace (z mod 18446744073709551616)%Z with (z + 18446744073709551616)%Z.
    + rewrite (proj2 (Z.leb_le _ _)) by lia. lia.
    + rewrite <- (Z_mod_plus z 1) by lia. rewrite Z.mod_small; lia.
  - rewrite Z.mod_small by lia. destruct (Z.leb_spec 9223372036854775808 z); lia.
Qed.

Lemma wf_int1 k : k = KIdentity \/ k = KNormalize -> wf_dim O0 (int1 k).
Proof.
  intros Hk. split; [easy|]. split; [now vm_compute|]. split; [now vm_compute|]. split; [|exact Hk].
  intros z Hz. cbn [i_low i_high i_dtype] in *. apply int64_id. assert (2 ^ 53 = 9007199254740992)%Z by now vm_compute. lia.
Qed.
Lemma wf_real1 k : k = KIdentity \/ k = KNormalize -> wf_dim O0 (real1 k).
Proof. intros Hk. split; [now vm_compute|]. split; [easy|exact Hk]. Qed.
Lemma wf_cat3 k : wf_dim O0 (cat3 k).
Proof.
  repeat split; simpl; try easy.
  - exists TyStr. repeat constructor.
  - repeat constructor.
  - repeat constructor.
Qed.
Lemma wf_cat2 k : wf_dim O0 (cat2 k).
Proof.
  repeat split; simpl; try easy.
  - exists TyInt. repeat constructor.
  - repeat constructor.
  - repeat constructor.
Qed.

Lemma C01_sample :
  wf_dim O0 (int1 KIdentity) /\
  dim_inverse O0 (int1 KIdentity) (A1 [VFloat (fofZ 99); VFloat (fofZ (-99)); VFloat fhalf])
  = Ok [VInt 12; VInt (-3); VInt 0].
Proof. split; [apply wf_int1; auto|]. now vm_compute. Qed.

Lemma C01_defined_sample :
  Forall (fun z => fltb (fadd (fofZ 1) feps) z = false /\ fltb z (fsub (fofZ 0) feps) = false)
    [fofZ 0; fhalf; fofZ 1] /\
  dim_inverse O0 (int1 KNormalize) (A1 [VFloat (fofZ 0); VFloat fhalf; VFloat (fofZ 1)])
  = Ok [VInt (-3); VInt 4; VInt 12].
Proof. split; [repeat constructor; now vm_compute|now vm_compute]. Qed.

Lemma C01_cat_sample :
  wf_dim O0 (cat3 KOnehot) /\
  dim_inverse O0 (cat3 KOnehot) (A2 [[VFloat fhalf; VFloat (fofZ 2); VFloat (fofZ (-1))]])
  = Ok [VStr "a"%string].
Proof. split; [apply wf_cat3|now vm_compute]. Qed.

Lemma C02_sample :
  wf_dim O0 (cat3 KNormalize) /\
  (a <- dim_transform O0 (cat3 KNormalize) [VStr "c"; VStr "a"; VStr "b"; VStr "a"]%string ;;
   dim_inverse O0 (cat3 KNormalize) a) = Ok [VStr "c"; VStr "a"; VStr "b"; VStr "a"]%string.
Proof. split; [apply wf_cat3|now vm_compute]. Qed.

Lemma C03_sample :
  wf_dim O0 (int1 KNormalize) /\
  (a <- dim_transform O0 (int1 KNormalize) [VInt (-3); VInt 7; VInt 12] ;;
   dim_inverse O0 (int1 KNormalize) a) = Ok [VInt (-3); VInt 7; VInt 12].
Proof. split; [apply wf_int1; auto|now vm_compute]. Qed.

Lemma C05_sample :
  let P := [[VFloat (fofZ 3); VInt 5; VStr "c"; VInt 3]; [VFloat fhalf; VInt (-3); VStr "b"; VInt 7]]%string in
  Forall (exact_dim O0) space4 /\ Forall (in_space O0 space4) P /\
  rmap (map (map view)) (Xt <- space_transform O0 space4 P ;; space_inverse O0 space4 Xt)
  = Ok (map (map view) P) /\
  t_n_dims space4 = 6.
Proof.
  intros P. split; [|split; [|split]].
  - constructor; [split; [apply wf_real1; auto|now split]|].
    constructor; [split; [apply wf_int1; auto|split; [easy|intros _; now vm_compute]]|].
    constructor; [split; [apply wf_cat3|split; [now left|now vm_compute]]|].
    constructor; [split; [apply wf_cat2|split; [now right; right|now vm_compute]]|].
    constructor.
  - assert (R : forall x, fleb (fofZ (-5)) x = true -> fleb x (fofZ 10) = true ->
                 in_dim O0 (real1 KIdentity) (VFloat x)) by (intros x H1 H2; now constructor).
    constructor; [|constructor; [|constructor]].
    + constructor; [apply R; now vm_compute|].
      constructor; [constructor; simpl; lia|]. constructor; [constructor; simpl; auto|].
      constructor; [constructor; simpl; auto|constructor].
    + constructor; [apply R; now vm_compute|].
      constructor; [constructor; simpl; lia|]. constructor; [constructor; simpl; auto|].
      constructor; [constructor; simpl; auto|constructor].
  - now vm_compute.
  - reflexivity.
Qed.
