(** Dimension-level lemmas for C01-C04. *)
From Coq Require Import String List ZArith Bool Lia Permutation.
From Verif Require Import Base BaseLemmas Num Values Transformers Dimension NumLaws NormLaws SpaceSpec
  DimLemmas CatLemmas.
Import ListNotations.
Open Scope list_scope.
Set Implicit Arguments.
Local Arguments Z.pow : simpl never.

Section RoundTrip.
  Context {N : Type} {O : numops N} (OL : order_laws O) (IL : int_laws O) (NL : norm_laws O).
  Context (cast64 : forall x, ncast O DT64 x = x).
  Notation val := (pyval N).

  Lemma nums_length l zs : nums O l = Ok zs -> length zs = length l.
  Proof. apply mapM_length. Qed.

  (** *** C01, numeric dimensions *)
  Lemma inverse_in_dim d l vs : wf_dim O d -> is_cat d = false ->
    dim_inverse O d (A1 l) = Ok vs ->
    length vs = length l /\
    forall k w v z u, nth_error l k = Some w -> nth_error vs k = Some v ->
      to_num O w = Some z -> unwarp_dim O d z = Some u -> nisnan O u = false ->
      in_dim O d v.
  Proof.
    intros Hw Hc H. destruct d as [r|i|c]; [| |easy].
    - rewrite real_inverse_eq in H. apply bind_ok in H as (zs & Hz & H).
      destruct (implb _ _); [|easy]. injection H as <-.
      split; [rewrite map_length; now apply nums_length|].
      intros k w v z u Hk Hv Hwz Hu Hn.
      apply nums_ok in Hz. rewrite nth_error_map in Hv.
      destruct (nth_error zs k) as [z'|] eqn:Hzk; [|easy]. injection Hv as <-.
      apply Forall2_nth in Hz as [_ Hz]. specialize (Hz _ _ _ Hk Hzk). rewrite Hz in Hwz.
      injection Hwz as ->. injection Hu as <-. now apply post_real_in.
    - rewrite int_inverse_eq in H. apply bind_ok in H as (zs & Hz & H).
      destruct (implb _ _); [|easy]. injection H as <-.
      split; [rewrite map_length; now apply nums_length|].
      intros k w v z u Hk Hv Hwz Hu Hn.
      apply nums_ok in Hz. rewrite nth_error_map in Hv.
      destruct (nth_error zs k) as [z'|] eqn:Hzk; [|easy]. injection Hv as <-.
      apply Forall2_nth in Hz as [_ Hz]. specialize (Hz _ _ _ Hk Hzk). rewrite Hz in Hwz.
      injection Hwz as ->. injection Hu as <-. apply post_int_in; auto.
      unfold int_pre. destruct (i_kind i), (i_prior i); try easy. now apply to_num_nofZ_num.
  Qed.

  (** The only failures: non-numbers, and values outside [0, 1] (tolerance 1e-8) for normalised
      dimensions. *)
  Lemma inverse_total d zs : is_cat d = false ->
    (dim_kind d = KNormalize -> Forall (fun z => unit_range (O:=O) z = true) zs) ->
    exists vs, dim_inverse O d (A1 (map (@VFloat N) zs)) = Ok vs.
  Proof.
    intros Hc H. destruct d as [r|i|c]; [| |easy].
    - rewrite real_inverse_eq, nums_VFloat. cbn [bind].
      assert (E : implb (is_norm (r_kind r)) (forallb (unit_range (O:=O)) zs) = true).
      { simpl in H. destruct (r_kind r); try easy. simpl. apply forallb_forall.
        now apply Forall_forall, H. }
      rewrite E. eexists; reflexivity.
    - rewrite int_inverse_eq, nums_VFloat. cbn [bind].
      assert (E : implb (is_norm (i_kind i)) (forallb (unit_range (O:=O)) zs) = true).
      { simpl in H. destruct (i_kind i); try easy. simpl. apply forallb_forall.
        now apply Forall_forall, H. }
      rewrite E. eexists; reflexivity.
  Qed.

  (** *** C01, categorical *)
  Lemma cat_inverse_in c a vs : wf_cat O c ->
    (c_kind c = KOnehot \/ c_kind c = KLabel \/ c_kind c = KNormalize) ->
    dim_inverse O (DCat c) a = Ok vs -> Forall (in_dim O (DCat c)) vs.
  Proof.
    intros (Hne & Hh & Hd) Hk H. unfold dim_inverse in H.
    apply bind_ok in H as (a' & Ha & H). apply bind_ok in H as (l & Hl & H). injection H as <-.
    assert (G : Forall (fun v => In v (c_cats c)) l).
    { unfold cat_transformer in Ha. destruct Hk as [Hk|[Hk|Hk]]; rewrite Hk in Ha; simpl in Ha.
      - rewrite cat_classes_distinct in Ha by easy. simpl in Ha.
        apply bind_ok in Ha as (ys & Hys & Ha). apply bind_ok in Ha as (l0 & Hl0 & Ha).
        injection Ha as <-. simpl in Hl. injection Hl as <-.
        apply Forall_forall. intros v Hv. destruct (mapM_in _ _ _ Hl0 Hv) as (i & _ & Hi).
        unfold cat_mapping in Hi. fold (keyed (c_cats c)) in Hi.
        rewrite keyed_mapping, invert_keyed in Hi by easy. now apply inv_lookup_enum_inv in Hi.
      - apply bind_ok in Ha as (l1 & Hl1 & Ha). apply bind_ok in Ha as (l0 & Hl0 & Ha).
        injection Ha as <-. simpl in Hl. injection Hl as <-.
        apply Forall_forall. intros v Hv. destruct (mapM_in _ _ _ Hl0 Hv) as (i & _ & Hi).
        eapply label_inverse_In; eauto.
      - apply bind_ok in Ha as (a1 & _ & Ha).
        apply bind_ok in Ha as (l1 & Hl1 & Ha). apply bind_ok in Ha as (l0 & Hl0 & Ha).
        injection Ha as <-. simpl in Hl. injection Hl as <-.
        apply Forall_forall. intros v Hv. destruct (mapM_in _ _ _ Hl0 Hv) as (i & _ & Hi).
        eapply label_inverse_In; eauto. }
    rewrite np_asarray_homog.
    - eapply Forall_impl; [|exact G]. intros v Hv. now constructor.
    - apply homogeneous_incl with (c_cats c); [easy|]. intros v Hv. rewrite Forall_forall in G. auto.
  Qed.

  (** *** Membership as the API tests it *)
  Lemma in_dim_contains d v : wf_dim O d -> in_dim O d v -> contains O d v = Ok true.
  Proof.
    intros Hw H. destruct H as [r x H1 H2|i z H|c v H]; simpl.
    - unfold leb_chain. simpl. now rewrite H1, H2.
    - unfold leb_chain. simpl. destruct H as [H1 H2].
      rewrite (proj2 (Z.leb_le _ _) H1), (proj2 (Z.leb_le _ _) H2). easy.
    - destruct Hw as (_ & _ & Hd & _). f_equal. unfold py_in. apply existsb_exists.
      exists v. split; [easy|]. rewrite Forall_forall in Hd. auto.
  Qed.

  (** *** Numerically equal columns are inverted alike *)
  Definition num_kind (d : dim N) : bool :=
    match d with DCat c => match c_kind c with KIdentity | KString => false | _ => true end | _ => true end.
  Definition rows_nums (a b : arr val) : Prop :=
    match a, b with
    | A1 l, A1 m => nums O l = nums O m
    | A2 l, A2 m => Forall2 (fun r s => nums O r = nums O s) l m
    | _, _ => False
    end.

  Lemma nums_eq_Forall2 l m zs : nums O l = nums O m -> nums O l = Ok zs ->
    Forall2 (fun v w => to_num O v = to_num O w) l m.
  Proof.
    intros E H. rewrite H in E. symmetry in E. rewrite nums_ok in *. 
    revert m E. induction H as [|v z l zs Hv H IH]; intros m E; inversion E; subst; constructor.
    - congruence.
    - now apply IH.
  Qed.

  Lemma label_inverse_cong cats l m zs : nums O l = nums O m -> nums O l = Ok zs ->
    mapM (label_inverse1 O cats) l = mapM (label_inverse1 O cats) m.
  Proof.
    intros E H. pose proof (nums_eq_Forall2 _ _ E H) as F. clear E H.
    induction F as [|v w l m Hvw F IH]; simpl; [easy|]. rewrite IH. unfold label_inverse1. now rewrite Hvw.
  Qed.

  Lemma dim_inverse_cong d a b : num_kind d = true -> rows_nums a b ->
    (exists zs, match a with A1 l => nums O l = Ok zs | A2 _ => True end) ->
    dim_inverse O d a = dim_inverse O d b.
  Proof.
    intros Hk E Hz. destruct d as [r|i|c].
    - destruct a as [l|l], b as [m|m]; try easy.
      + rewrite !real_inverse_eq. simpl in E. now rewrite E.
      + unfold dim_inverse, real_transformer. destruct (r_kind r), (r_prior r); reflexivity.
    - destruct a as [l|l], b as [m|m]; try easy.
      + rewrite !int_inverse_eq. simpl in E. now rewrite E.
      + unfold dim_inverse, int_transformer. destruct (i_kind i), (i_prior i); reflexivity.
    - unfold dim_inverse, cat_transformer. simpl in Hk.
      destruct a as [l|l], b as [m|m]; try easy; simpl in E.
      + destruct Hz as [zs Hz]. pose proof (nums_eq_Forall2 _ _ E Hz) as F.
        destruct (c_kind c) eqn:K; try easy; simpl.
        * now rewrite E.
        * assert (X : mapM (lb_inverse1 O (match cat_classes O (c_cats c) with Ok x => x | _ => [] end)) (map (fun v => [v]) l) =
                  mapM (lb_inverse1 O (match cat_classes O (c_cats c) with Ok x => x | _ => [] end)) (map (fun v => [v]) m)).
          { clear -F. induction F as [|v w l m Hvw F IH]; simpl; [easy|]. rewrite IH.
            unfold lb_inverse1, nums. simpl. now rewrite Hvw. }
          destruct (cat_classes O (c_cats c)); simpl; [|easy]. now rewrite X.
        * now rewrite (label_inverse_cong _ _ _ E Hz).
      + destruct (c_kind c); try easy; simpl.
        assert (X : forall cl, mapM (lb_inverse1 O cl) l = mapM (lb_inverse1 O cl) m).
        { intros cl. clear -E. induction E as [|v w l m Hvw F IH]; simpl; [easy|]. rewrite IH.
          unfold lb_inverse1. now rewrite Hvw. }
        destruct (cat_classes O (c_cats c)); simpl; [|easy]. now rewrite X.
  Qed.

  (** *** C02 *)
  Lemma cats_indices (cats xs : list val) : incl xs cats ->
    exists is, Forall2 (fun v i => nth_error cats i = Some v) xs is.
  Proof.
    induction xs as [|v xs IH]; intros H; [now exists []|].
    destruct IH as [is His]; [intros w Hw; apply H; now right|].
    destruct (In_nth_error cats v) as [i Hi]; [apply H; now left|].
    exists (i :: is). now constructor.
  Qed.

  Lemma Forall2_mapM {A B} (f : A -> res B) l m : Forall2 (fun x y => f x = Ok y) l m -> mapM f l = Ok m.
  Proof. intros H. now apply mapM_ok. Qed.

  Lemma onehot_transform c xs is : wf_cat O c -> c_kind c = KOnehot -> xs <> [] ->
    Forall2 (fun v i => nth_error (c_cats c) i = Some v) xs is ->
    dim_transform O (DCat c) xs = Ok (A2 (map (hot_row (N:=N) (length (c_cats c))) is)).
  Proof.
    intros (Hne & Hh & Hd) Hk Hx His. unfold dim_transform. simpl. unfold cat_transformer. rewrite Hk. simpl.
    rewrite cat_classes_distinct by easy.
    assert (E : mapM (lookup O (cat_mapping O (c_cats c))) xs = Ok is).
    { unfold cat_mapping. fold (keyed (c_cats c)). rewrite keyed_mapping by easy.
      apply Forall2_mapM. eapply Forall2_weaken; [|exact His].
      intros v i Hi. now apply lookup_keyed. }
    rewrite E. simpl. rewrite lb_transform_seq; [easy|]. destruct His; easy.
  Qed.

  Lemma onehot_inverse c xs is a : wf_cat O c -> c_kind c = KOnehot ->
    Forall2 (fun v i => nth_error (c_cats c) i = Some v) xs is ->
    Forall2 (fun r i => nums O r = nums O (hot_row (N:=N) (length (c_cats c)) i)) (rows_of a) is ->
    dim_inverse O (DCat c) a = Ok xs.
  Proof.
    intros (Hne & Hh & Hd) Hk His Ha. unfold dim_inverse, cat_transformer. rewrite Hk. simpl.
    rewrite cat_classes_distinct by easy. simpl.
    assert (E : mapM (lb_inverse1 O (seq 0 (length (c_cats c)))) (rows_of a) = Ok is).
    { apply Forall2_mapM. clear -Ha His OL NL. revert xs His.
      induction Ha as [|r i rows is Hr Ha IH]; intros xs His; inversion His as [|v ? xs' ? Hv Hvs]; subst; constructor.
      - apply (lb_inverse_hot OL NL); [|easy]. apply nth_error_Some. congruence.
      - eapply IH; eauto. }
    rewrite E. simpl.
    assert (E2 : mapM (inv_lookup (invert_mapping (cat_mapping O (c_cats c)))) is = Ok xs).
    { unfold cat_mapping. fold (keyed (c_cats c)). rewrite keyed_mapping, invert_keyed by easy.
      apply Forall2_mapM. clear -His. induction His; constructor; auto. now apply inv_lookup_enum. }
    rewrite E2. simpl. f_equal. apply np_asarray_homog.
    apply homogeneous_incl with (c_cats c); [easy|].
    clear -His. induction His as [|v i xs is Hv His IH]; [easy|].
    intros w [<-|Hw]; [now apply nth_error_In in Hv|auto].
  Qed.

  Definition label_nums (is : list nat) : list val := map (fun i => VInt (Z.of_nat i)) is.

  Lemma label_transform_ok c xs is : wf_cat O c ->
    Forall2 (fun v i => nth_error (label_order (O:=O) (c_cats c)) i = Some v) xs is ->
    transform O (TLabelEnc (c_cats c)) (A1 xs) = Ok (A1 (label_nums is)).
  Proof.
    intros (Hne & Hh & Hd) His. simpl.
    assert (Hi : incl xs (c_cats c)).
    { pose proof (Permutation_sym (label_order_perm Hh Hd)) as P.
      clear -His P. induction His as [|v i xs is Hv His IH]; [easy|].
      intros w [<-|Hw]; [|auto]. apply nth_error_In in Hv. now apply (Permutation_in _ P). }
    rewrite np_asarray_homog by now apply homogeneous_incl with (c_cats c).
    assert (E : mapM (lookup O (label_mapping O (c_cats c))) xs = Ok is).
    { rewrite label_mapping_eq, keyed_mapping by now apply label_order_distinct.
      apply Forall2_mapM. eapply Forall2_weaken; [|exact His]. intros v i Hv.
      apply lookup_keyed; [now apply label_order_distinct|easy]. }
    now rewrite E.
  Qed.

  Lemma label_inverse_all c xs is l : wf_cat O c -> (Z.of_nat (length (c_cats c)) <= 2 ^ 50)%Z ->
    Forall2 (fun v i => nth_error (label_order (O:=O) (c_cats c)) i = Some v) xs is ->
    Forall2 (fun v i => to_num O v = Some (nofZ O (Z.of_nat i))) l is ->
    inverse_transform O (TLabelEnc (c_cats c)) (A1 l) = Ok (A1 xs).
  Proof.
    intros (Hne & Hh & Hd) Hb His Hl. simpl.
    assert (E : mapM (label_inverse1 O (invert_mapping (label_mapping O (c_cats c)))) l = Ok xs).
    { apply Forall2_mapM. revert xs His. induction Hl as [|w i l is Hw Hl IH]; intros xs His;
        inversion His as [|v ? xs' ? Hv Hvs]; subst; constructor; auto.
      eapply (label_inverse_ok OL IL); eauto.
      assert (i < length (c_cats c)).
      { rewrite (Permutation_length (label_order_perm Hh Hd)). apply nth_error_Some. congruence. }
      assert (2 ^ 50 <= 2 ^ 53)%Z by now vm_compute. lia. }
    now rewrite E.
  Qed.

  Lemma np_asarray_cats c xs : wf_cat O c -> incl xs (c_cats c) -> np_asarray O xs = xs.
  Proof. intros (_ & Hh & _) Hi. apply np_asarray_homog. now apply homogeneous_incl with (c_cats c). Qed.

  Lemma label_indices c xs : wf_cat O c -> incl xs (c_cats c) ->
    exists is, Forall2 (fun v i => nth_error (label_order (O:=O) (c_cats c)) i = Some v) xs is /\
      Forall (fun i => i < length (c_cats c)) is.
  Proof.
    intros (Hne & Hh & Hd) Hi. pose proof (label_order_perm Hh Hd) as P.
    destruct (@cats_indices (label_order (O:=O) (c_cats c)) xs) as [is His].
    - intros v Hv. apply (Permutation_in _ P). auto.
    - exists is. split; [easy|]. rewrite (Permutation_length P).
      clear -His. induction His as [|v i xs is Hv His IH]; constructor; auto.
      apply nth_error_Some. congruence.
  Qed.

  (** Normalising whole numbers. *)
  Lemma norm_ints_transform l h zs : (Z.abs l <= 2 ^ 50)%Z -> (Z.abs h <= 2 ^ 50)%Z -> (h - l <= 2 ^ 50)%Z ->
    (l < h)%Z -> Forall (fun z => (l <= z <= h)%Z) zs ->
    normalize_transform O (nofZ O l) (nofZ O h) true (map (nofZ O) zs) =
    Ok (map (fun z => ndiv O (nsub O (nofZ O z) (nofZ O l)) (nsub O (nofZ O h) (nofZ O l))) zs).
  Proof.
    intros Hl Hh Hs Hlh Hz. unfold normalize_transform.
    assert (B : (2 ^ 50 <= 2 ^ 53)%Z) by now vm_compute.
    assert (R : forall z, (l <= z <= h)%Z -> neqb O (nround O (nofZ O z)) (nofZ O z) = true).
    { intros z Hz'. apply (nl_round NL). lia. }
    assert (E1 : existsb (fun x => nltb O (nofZ O h) (nround O x)) (map (nofZ O) zs) = false).
    { apply not_true_is_false. intros H. apply existsb_exists in H as (x & Hx & H).
      apply in_map_iff in Hx as (z & <- & Hx). rewrite Forall_forall in Hz. specialize (Hz _ Hx).
      specialize (R z Hz). unfold neqb in R. apply andb_true_iff in R as [R1 _].
      assert (nltb O (nofZ O h) (nofZ O z) = true) by (eapply lt_le_trans; eauto).
      rewrite (le_nlt OL) in H0; [easy|]. apply (ol_Z OL). lia. }
    assert (E2 : existsb (fun x => nltb O (nround O x) (nofZ O l)) (map (nofZ O) zs) = false).
    { apply not_true_is_false. intros H. apply existsb_exists in H as (x & Hx & H).
      apply in_map_iff in Hx as (z & <- & Hx). rewrite Forall_forall in Hz. specialize (Hz _ Hx).
      specialize (R z Hz). unfold neqb in R. apply andb_true_iff in R as [_ R1].
      assert (nltb O (nofZ O z) (nofZ O l) = true) by (eapply le_lt_trans; eauto).
      rewrite (le_nlt OL) in H0; [easy|]. apply (ol_Z OL). lia. }
    rewrite E1, E2. rewrite (nl_span NL) by easy.
    f_equal. rewrite map_map. apply map_ext_in. intros z Hin.
    rewrite Forall_forall in Hz. specialize (Hz _ Hin). rewrite (il_id IL) by lia. reflexivity.
  Qed.

  Lemma unit_range_01 q : nleb O (nofZ O 0) q = true -> nleb O q (nofZ O 1) = true -> unit_range (O:=O) q = true.
  Proof.
    intros H0 H1. unfold unit_range. destruct (nl_eps NL) as [E1 E2].
    rewrite (le_nlt OL); [|eapply (ol_trans OL); eauto].
    rewrite (le_nlt OL); [easy|]. eapply (ol_trans OL); eauto.
  Qed.

  Lemma norm_ints_inverse l h zs qs : (Z.abs l <= 2 ^ 50)%Z -> (Z.abs h <= 2 ^ 50)%Z -> (h - l <= 2 ^ 50)%Z ->
    (l < h)%Z -> Forall (fun z => (l <= z <= h)%Z) zs ->
    qs = map (fun z => ndiv O (nsub O (nofZ O z) (nofZ O l)) (nsub O (nofZ O h) (nofZ O l))) zs ->
    normalize_inverse O (nofZ O l) (nofZ O h) true qs = Ok (map (@VInt N) zs).
  Proof.
    intros Hl Hh Hs Hlh Hz ->. rewrite normalize_inverse_eq.
    assert (E : forallb (unit_range (O:=O)) (map (fun z => ndiv O (nsub O (nofZ O z) (nofZ O l)) (nsub O (nofZ O h) (nofZ O l))) zs) = true).
    { apply forallb_forall. intros q Hq. apply in_map_iff in Hq as (z & <- & Hin).
      rewrite Forall_forall in Hz. specialize (Hz _ Hin).
      destruct (nl_back NL Hl Hh Hs Hlh Hz) as (_ & H0 & H1). now apply unit_range_01. }
    rewrite E. f_equal. rewrite map_map. apply map_ext_in. intros z Hin.
    rewrite Forall_forall in Hz. specialize (Hz _ Hin).
    destruct (nl_back NL Hl Hh Hs Hlh Hz) as (Hb & _). simpl in Hb. simpl. now rewrite Hb.
  Qed.

  Lemma norm_zero_transform zs : Forall (fun z => z = 0%Z) zs ->
    normalize_transform O (nofZ O 0) (nofZ O 0) true (map (nofZ O) zs) =
    Ok (map (fun _ => nmul O (nofZ O 0) (nofZ O 0)) zs).
  Proof.
    intros Hz. unfold normalize_transform.
    pose proof (nl_round NL 0 ltac:(now vm_compute)) as R. unfold neqb in R. apply andb_true_iff in R as [R1 R2].
    assert (E1 : existsb (fun x => nltb O (nofZ O 0) (nround O x)) (map (nofZ O) zs) = false).
    { apply not_true_is_false. intros H. apply existsb_exists in H as (x & Hx & H).
      apply in_map_iff in Hx as (z & <- & Hx). rewrite Forall_forall in Hz. rewrite (Hz _ Hx) in H.
      rewrite (le_nlt OL) in H; easy. }
    assert (E2 : existsb (fun x => nltb O (nround O x) (nofZ O 0)) (map (nofZ O) zs) = false).
    { apply not_true_is_false. intros H. apply existsb_exists in H as (x & Hx & H).
      apply in_map_iff in Hx as (z & <- & Hx). rewrite Forall_forall in Hz. rewrite (Hz _ Hx) in H.
      rewrite (le_nlt OL) in H; easy. }
    rewrite E1, E2, (nl_zero NL). f_equal. rewrite map_map. apply map_ext_in. intros z Hin.
    rewrite Forall_forall in Hz. now rewrite (Hz _ Hin).
  Qed.
  Lemma norm_zero_inverse zs : Forall (fun z => z = 0%Z) zs ->
    normalize_inverse O (nofZ O 0) (nofZ O 0) true (map (fun _ => nmul O (nofZ O 0) (nofZ O 0)) zs) =
    Ok (map (@VInt N) zs).
  Proof.
    intros Hz. rewrite normalize_inverse_eq.
    assert (E : forallb (unit_range (O:=O)) (map (fun _ : Z => nmul O (nofZ O 0) (nofZ O 0)) zs) = true).
    { apply forallb_forall. intros q Hq. apply in_map_iff in Hq as (z & <- & Hin).
      unfold unit_range. destruct (nl_zero_range NL) as [-> ->]. easy. }
    rewrite E. f_equal. rewrite map_map. apply map_ext_in. intros z Hin.
    rewrite Forall_forall in Hz. rewrite (Hz _ Hin). simpl. now rewrite (nl_zero_back NL).
  Qed.

  (** Range of the integers normalised by a categorical dimension. *)
  Lemma norm_cats_roundtrip n is : n <> 0 -> (Z.of_nat n <= 2 ^ 50)%Z -> Forall (fun i => i < n) is ->
    exists qs,
      normalize_transform O (nofZ O 0) (nofZ O (Z.of_nat n - 1)) true (map (fun i => nofZ O (Z.of_nat i)) is) = Ok qs /\
      length qs = length is /\
      normalize_inverse O (nofZ O 0) (nofZ O (Z.of_nat n - 1)) true qs = Ok (label_nums is).
  Proof.
    intros Hn Hb His.
    assert (Hz : Forall (fun z => (0 <= z <= Z.of_nat n - 1)%Z) (map Z.of_nat is)).
    { apply Forall_map. eapply Forall_impl; [|exact His]. simpl. intros; lia. }
    unfold label_nums. rewrite <- (map_map Z.of_nat (nofZ O)), <- (map_map Z.of_nat (@VInt N)).
    assert (Zp : (0 < 2 ^ 50)%Z) by now vm_compute.
    destruct (Nat.eq_dec n 1) as [->|Hn1].
    - change (Z.of_nat 1 - 1)%Z with 0%Z in *.
      assert (Hz0 : Forall (fun z => z = 0%Z) (map Z.of_nat is)) by (eapply Forall_impl; [|exact Hz]; simpl; intros; lia).
      eexists. split; [now apply norm_zero_transform|]. split; [now rewrite !map_length|].
      now apply norm_zero_inverse.
    - eexists. split; [apply norm_ints_transform; auto; lia|]. split; [now rewrite !map_length|].
      apply norm_ints_inverse; auto; lia.
  Qed.

  Lemma cat_roundtrip c xs : wf_cat O c -> (Z.of_nat (length (c_cats c)) <= 2 ^ 50)%Z ->
    (c_kind c = KString -> Forall (str_ok (O:=O)) (c_cats c)) ->
    xs <> [] -> incl xs (c_cats c) ->
    exists a, dim_transform O (DCat c) xs = Ok a /\ dim_inverse O (DCat c) a = Ok xs.
  Proof.
    intros Hw Hb Hs Hx Hi. pose proof Hw as (Hne & Hh & Hd).
    destruct (c_kind c) eqn:K.
    - exists (A1 xs). unfold dim_transform, dim_inverse. simpl. unfold cat_transformer. rewrite K. simpl.
      split; [easy|]. f_equal. eapply np_asarray_cats; eauto.
    - destruct (label_indices Hw Hi) as (is & His & Hr).
      destruct (@norm_cats_roundtrip (length (c_cats c)) is) as (qs & E1 & Hlen & E2); auto.
      { now destruct (c_cats c). }
      exists (A1 (map (@VFloat N) qs)). unfold dim_transform, dim_inverse. simpl. unfold cat_transformer. rewrite K.
      pose proof (label_transform_ok Hw His) as T.
      pose proof (@label_inverse_all c xs is (label_nums is) Hw Hb His) as I.
      cbn [transform inverse_transform] in *. rewrite T. cbn [bind as_A1].
      unfold label_nums at 1. rewrite <- (map_map Z.of_nat (@VInt N)), nums_VInt, map_map. cbn [bind].
      rewrite E1. cbn [bind]. split; [easy|].
      rewrite nums_VFloat. cbn [bind]. rewrite E2. cbn [bind as_A1]. cbn [as_A1 bind] in I. rewrite I.
      + cbn [bind as_A1]. f_equal. eapply np_asarray_cats; eauto.
      + unfold label_nums. clear. induction is; simpl; constructor; auto.
    - destruct (cats_indices Hi) as [is His].
      eexists. split; [eapply onehot_transform; eauto|].
      eapply onehot_inverse; eauto. simpl. clear. induction is; simpl; constructor; auto.
    - exists (A1 (map (fun v => VStr (py_str O v)) xs)). unfold dim_transform, dim_inverse. simpl.
      unfold cat_transformer. rewrite K. simpl. split; [easy|].
      assert (E : mapM (fun v => py_construct O match c_cats c with [] => TyStr | v0 :: _ => type_of v0 end (py_str O v))
                (map (fun v => VStr (py_str O v)) xs) = Ok xs).
      { rewrite mapM_map. rewrite <- (map_id xs) at 2. apply mapM_pure. intros v Hv.
        cbn [py_str]. apply Hi in Hv. specialize (Hs eq_refl). rewrite Forall_forall in Hs.
        destruct Hh as [t Ht]. rewrite Forall_forall in Ht.
        destruct (c_cats c) as [|v0 cs]; [easy|].
        rewrite (Ht v0) by now left. rewrite <- (Ht v) by easy. now apply construct_str, Hs. }
      rewrite E. simpl. f_equal. eapply np_asarray_cats; eauto.
    - destruct (label_indices Hw Hi) as (is & His & Hr).
      exists (A1 (label_nums is)). unfold dim_transform, dim_inverse. simpl. unfold cat_transformer. rewrite K.
      rewrite (label_transform_ok Hw His). split; [easy|].
      rewrite (@label_inverse_all c xs is (label_nums is) Hw Hb His).
      + cbn [bind as_A1]. f_equal. eapply np_asarray_cats; eauto.
      + unfold label_nums. clear. induction is; simpl; constructor; auto.
  Qed.

  (** *** C03 *)
  Lemma clip_int_id lo hi z : (Z.abs lo <= 2 ^ 53)%Z -> (Z.abs hi <= 2 ^ 53)%Z -> (lo <= z <= hi)%Z ->
    nclip O (nofZ O lo) (nofZ O hi) (nofZ O z) = nofZ O z.
  Proof. intros H1 H2 H3. apply (clip_id OL); apply (ol_Z OL); lia. Qed.

  Lemma post_int_id i z : wf_int i -> (i_low i <= z <= i_high i)%Z -> post_int (O:=O) i (nofZ O z) = VInt z.
  Proof.
    intros (Hlh & Hl & Hh & Hc & _) Hz. unfold post_int. rewrite clip_int_id by easy.
    rewrite (il_id IL) by lia. now rewrite Hc.
  Qed.

  Lemma int_roundtrip i zs : wf_int i -> i_prior i = PUniform ->
    (i_kind i = KNormalize -> Z.abs (i_low i) <= 2 ^ 50 /\ Z.abs (i_high i) <= 2 ^ 50 /\ i_high i - i_low i <= 2 ^ 50)%Z ->
    Forall (fun z => (i_low i <= z <= i_high i)%Z) zs ->
    exists a, dim_transform O (DInt i) (map (@VInt N) zs) = Ok a /\ dim_inverse O (DInt i) a = Ok (map (@VInt N) zs).
  Proof.
    intros Hw Hp Hb Hz. pose proof Hw as (Hlh & Hl & Hh & Hc & Hk).
    destruct Hk as [K|K].
    - exists (A1 (map (@VInt N) zs)). split.
      + unfold dim_transform. simpl. unfold int_transformer. now rewrite K, Hp.
      + rewrite int_inverse_eq, nums_VInt. cbn [bind]. rewrite K. simpl. f_equal. rewrite map_map.
        apply map_ext_in. intros z Hin. rewrite Forall_forall in Hz. specialize (Hz _ Hin).
        unfold int_pre, unwarp. rewrite K, Hp. now apply post_int_id.
    - destruct (Hb K) as (B1 & B2 & B3).
      pose proof (norm_ints_transform B1 B2 B3 Hlh Hz) as T.
      eexists. split.
      + unfold dim_transform. simpl. unfold int_transformer. rewrite K, Hp. cbn [transform bind as_A1].
        rewrite nums_VInt. cbn [bind]. rewrite T. reflexivity.
      + rewrite int_inverse_eq, nums_VFloat. cbn [bind]. rewrite K. cbn [is_norm implb].
        assert (E : forallb (unit_range (O:=O)) (map (fun z => ndiv O (nsub O (nofZ O z) (nofZ O (i_low i))) (nsub O (nofZ O (i_high i)) (nofZ O (i_low i)))) zs) = true).
        { apply forallb_forall. intros q Hq. apply in_map_iff in Hq as (z & <- & Hin).
          rewrite Forall_forall in Hz. specialize (Hz _ Hin).
          destruct (nl_back NL B1 B2 B3 Hlh Hz) as (_ & H0 & H1). now apply unit_range_01. }
        rewrite E. f_equal. rewrite map_map. apply map_ext_in. intros z Hin.
        rewrite Forall_forall in Hz. specialize (Hz _ Hin).
        unfold int_pre, unwarp. rewrite K, Hp.
        destruct (nl_back NL B1 B2 B3 Hlh Hz) as (Hback & _). cbn zeta in Hback. rewrite Hback.
        now apply post_int_id.
  Qed.

  (** C04, identity transform in float arithmetic. *)
  Lemma real_identity_roundtrip r xs : wf_real O r -> r_prior r = PUniform -> r_kind r = KIdentity ->
    Forall (fun x => nleb O (r_low r) x = true /\ nleb O x (r_high r) = true) xs ->
    exists a, dim_transform O (DReal r) (map (@VFloat N) xs) = Ok a /\
              dim_inverse O (DReal r) a = Ok (map (@VFloat N) xs).
  Proof.
    intros (Hlh & Hdt & _) Hp Hk Hx. exists (A1 (map (@VFloat N) xs)). split.
    - unfold dim_transform. simpl. unfold real_transformer. now rewrite Hk, Hp.
    - rewrite real_inverse_eq, nums_VFloat. cbn [bind]. rewrite Hk. simpl. f_equal.
      apply map_ext_in. intros x Hin. rewrite Forall_forall in Hx. destruct (Hx _ Hin) as [H1 H2].
      unfold unwarp, post_real. rewrite Hp, Hdt, cast64. now rewrite (clip_id OL).
  Qed.
End RoundTrip.
