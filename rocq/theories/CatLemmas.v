(** Lemmas about categorical encoders (C01 for Categorical, C02). *)
From Coq Require Import String List ZArith Bool Lia Permutation DecimalString DecimalZ DecimalPos.
From Verif Require Import Base BaseLemmas Num Values Transformers Dimension NumLaws NormLaws SpaceSpec DimLemmas.
Import ListNotations.
Open Scope list_scope.
Set Implicit Arguments.

Section CatLemmas.
  Context {N : Type} {O : numops N} (OL : order_laws O) (IL : int_laws O) (NL : norm_laws O).
  Notation val := (pyval N).

  (** *** Python equality *)
  Lemma neqb_sym x y : neqb O x y = neqb O y x.
  Proof. unfold neqb. apply andb_comm. Qed.
  Lemma py_eqb_sym a b : py_eqb O a b = py_eqb O b a.
  Proof.
    destruct a, b; simpl; try easy; try apply neqb_sym.
    - apply Z.eqb_sym.
    - apply Z.eqb_sym.
    - apply Z.eqb_sym.
    - now destruct b, b0.
    - apply String.eqb_sym.
  Qed.

  (** *** Homogeneous lists are not converted by numpy *)
  Lemma has_ty_homog t t' (l : list val) : Forall (fun v => type_of v = t) l -> l <> [] ->
    has_ty t' l = pytype_eqb t t'.
  Proof.
    intros H Hn. destruct l as [|v l]; [easy|]. clear Hn.
    inversion H as [|? ? Hv Hl]; subst. unfold has_ty. simpl.
    destruct (pytype_eqb (type_of v) t') eqn:E; [easy|]. simpl.
    induction Hl as [|w l Hw Hl IH]; [easy|]. simpl. rewrite Hw, E. simpl. apply IH. inversion H; subst. now inversion H3; constructor.
  Qed.
  Lemma np_asarray_homog (l : list val) : homogeneous l -> np_asarray O l = l.
  Proof.
    intros [t H]. unfold np_asarray. destruct l as [|v l]; [easy|].
    assert (E : forall w, In w (v :: l) -> np_convert O (np_dtype (v :: l)) w = w).
    { intros w Hw. rewrite Forall_forall in H. pose proof (H w Hw) as Ht.
      unfold np_dtype. rewrite !(@has_ty_homog t) by (easy || now apply Forall_forall).
      destruct t, w; simpl in *; try easy. }
    transitivity (map (fun w => w) (v :: l)); [|apply map_id]. apply map_ext_in. intros w Hw. now apply E.
  Qed.
  Lemma homogeneous_incl (l m : list val) : homogeneous m -> incl l m -> homogeneous l.
  Proof.
    intros [t H] Hi. exists t. rewrite Forall_forall in *. auto.
  Qed.

  (** *** Distinct lists *)
  Lemma distinct_nth (l : list val) i j a b : distinct O l -> nth_error l i = Some a -> nth_error l j = Some b ->
    py_eqb O a b = true -> i = j.
  Proof.
    intros [_ H]. revert i j. induction H as [|x l Hx H IH]; intros [|i] [|j]; simpl; try easy.
    - intros Ha Hb E. injection Ha as ->. rewrite Forall_forall in Hx.
      apply nth_error_In in Hb. specialize (Hx _ Hb). congruence.
    - intros Ha Hb E. injection Hb as ->. rewrite Forall_forall in Hx.
      apply nth_error_In in Ha. specialize (Hx _ Ha). rewrite py_eqb_sym in E. congruence.
    - intros Ha Hb E. f_equal. eapply IH; eauto.
  Qed.
  Lemma distinct_perm (l m : list val) : Permutation l m -> distinct O l -> distinct O m.
  Proof.
    intros P [H1 H2]. split.
    - now apply (Permutation_Forall P).
    - revert H2. clear H1. induction P; intros H.
      + constructor.
      + inversion H; subst. constructor; [now apply (Permutation_Forall P)|auto].
      + inversion H as [|? ? Hy Hxl]; subst. inversion Hxl as [|? ? Hx Hl]; subst.
        inversion Hy as [|? ? Hyx Hyl]; subst.
        constructor; [constructor; [now rewrite py_eqb_sym|easy]|now constructor].
      + auto.
  Qed.

  Definition keyed (l : list val) : list (val * nat) := map (fun iv => (snd iv, fst iv)) (enumerate l).
  Lemma keyed_nth l i : nth_error (keyed l) i = option_map (fun v => (v, i)) (nth_error l i).
  Proof.
    unfold keyed, enumerate. rewrite nth_error_map, enumerate_from_nth. now destruct (nth_error l i).
  Qed.
  Lemma keyed_distinct l : distinct O l -> ForallOrdPairs (fun a b => py_eqb O (fst a) (fst b) = false) (keyed l).
  Proof.
    intros [_ H]. unfold keyed, enumerate. generalize 0. induction H as [|x l Hx H IH]; intros k; simpl; constructor.
    - rewrite Forall_forall in *. intros [v i] Hin. apply in_map_iff in Hin as ([j w] & E & Hin).
      injection E as <- <-. simpl. apply Hx. rewrite <- (enumerate_from_snd (S k) l).
      change w with (snd (j, w)). now apply in_map.
    - apply IH.
  Qed.
  Lemma keyed_mapping l : distinct O l -> dict_of (py_eqb O) (keyed l) = keyed l.
  Proof. intros H. now apply dict_of_distinct, keyed_distinct. Qed.

  Lemma lookup_keyed l i v : distinct O l -> nth_error l i = Some v -> lookup O (keyed l) v = Ok i.
  Proof.
    intros H Hi. unfold lookup. erewrite dict_get_nth with (i := i) (v := i) (k := v); eauto.
    - now apply keyed_distinct.
    - now rewrite keyed_nth, Hi.
    - destruct H as [H _]. rewrite Forall_forall in H. apply H. now apply nth_error_In in Hi.
  Qed.

  Lemma invert_keyed l : invert_mapping (keyed l) = enumerate l.
  Proof.
    unfold invert_mapping, keyed. rewrite map_map. rewrite map_ext with (g := fun x => x) by now intros [].
    rewrite map_id. apply dict_of_distinct. unfold enumerate. generalize 0.
    induction l as [|x l IH]; intros k; simpl; constructor; auto.
    rewrite Forall_forall. intros [j w] Hin. simpl.
    assert (In j (seq (S k) (length l))).
    { rewrite <- (enumerate_from_fst (S k) l). change j with (fst (j, w)). now apply in_map. }
    apply in_seq in H. apply Nat.eqb_neq. lia.
  Qed.
  Lemma inv_lookup_enum (l : list val) i v : nth_error l i = Some v -> inv_lookup (enumerate l) i = Ok v.
  Proof.
    unfold inv_lookup, enumerate. intros H.
    assert (G : forall k, dict_get Nat.eqb (enumerate_from k l) (k + i) = Some v).
    { revert i H. induction l as [|x l IH]; intros [|i] H k; simpl in *; try easy.
      - rewrite Nat.add_0_r, Nat.eqb_refl. congruence.
      - assert (E : (k =? k + S i) = false) by (apply Nat.eqb_neq; lia). rewrite E.
        rewrite <- plus_n_Sm. now apply (IH i H (S k)). }
    specialize (G 0). simpl in G. now rewrite G.
  Qed.
  Lemma inv_lookup_enum_inv (l : list val) i v : inv_lookup (enumerate l) i = Ok v -> In v l.
  Proof.
    unfold inv_lookup, enumerate. destruct dict_get as [w|] eqn:E; [|easy]. intros H. injection H as ->.
    apply dict_get_in in E as (k & H & _). rewrite <- (enumerate_from_snd 0 l).
    change v with (snd (k, v)). now apply in_map.
  Qed.

  (** *** Classes of the one-hot encoder *)
  Lemma lb_classes_seq n : lb_classes (seq 0 n) = seq 0 n.
  Proof.
    assert (I : forall a m, nat_insert (a + m) (seq a m) = seq a (S m)).
    { intros a m. revert a. induction m as [|m IH]; intros a; simpl.
      - now rewrite Nat.add_0_r.
      - assert (E : (a + S m =? a) = false) by (apply Nat.eqb_neq; lia). rewrite E.
        assert (E2 : (a + S m <? a) = false) by (apply Nat.ltb_ge; lia). rewrite E2.
        f_equal. rewrite <- plus_n_Sm. apply (IH (S a)). }
    unfold lb_classes.
    induction n as [|n IH]; [easy|]. rewrite seq_S, fold_left_app. simpl. rewrite IH.
    specialize (I 0 n). simpl plus in I. rewrite I. now rewrite seq_S.
  Qed.
  Lemma lookup_all l : distinct O l -> mapM (lookup O (keyed l)) l = Ok (seq 0 (length l)).
  Proof.
    intros H. apply mapM_ok. apply Forall2_nth. split; [now rewrite seq_length|].
    intros i v k Hi Hk. assert (i < length l) by (apply nth_error_Some; congruence).
    rewrite nth_error_nth' with (d := 0) in Hk by now rewrite seq_length.
    rewrite seq_nth in Hk by easy. injection Hk as <-. now apply lookup_keyed.
  Qed.
  Lemma cat_classes_distinct cats : distinct O cats -> cat_classes O cats = Ok (seq 0 (length cats)).
  Proof.
    intros H. unfold cat_classes, cat_mapping. fold (keyed cats). rewrite keyed_mapping by easy.
    rewrite lookup_all by easy. simpl. now rewrite lb_classes_seq.
  Qed.

  (** *** One-hot rows *)
  Definition hot_row (n i : nat) : list val :=
    match n with
    | 1 => [VInt 0]
    | 2 => [VInt (if Nat.eqb i 1 then 1 else 0)%Z]
    | _ => map (fun c => VInt (if Nat.eqb i c then 1 else 0)%Z) (seq 0 n)
    end.
  Lemma lb_transform_seq n ys : ys <> [] -> lb_transform (N:=N) (seq 0 n) ys = Ok (map (hot_row n) ys).
  Proof.
    intros H. unfold lb_transform. destruct ys as [|y ys]; [easy|].
    f_equal. apply map_ext. intros i. unfold hot_row. destruct n as [|[|[|n]]]; easy.
  Qed.

  Lemma nofZ_num z : nleb O (nofZ O z) (nofZ O z) = true.
  Proof. apply (ol_Z OL). lia. Qed.

  Lemma argmax_zeros k best l :
    nltb O (nofZ O 1) (nofZ O 0) = false ->
    Forall (fun x => x = nofZ O 0) l -> argmax_from O k best (nofZ O 1) l = best.
  Proof.
    intros H01 H. revert k. induction H as [|x l -> H IH]; intros k; simpl; [easy|].
    unfold nisnan. rewrite !nofZ_num. simpl. rewrite H01. apply IH.
  Qed.

  Lemma argmax_hot_from a m i best : i < m ->
    argmax_from O a best (nofZ O 0) (map (fun c => nofZ O (if Nat.eqb (a + i) c then 1 else 0)%Z) (seq a m)) = a + i.
  Proof.
    revert a i. induction m as [|m IH]; intros a i Hi; [lia|]. simpl.
    unfold nisnan. rewrite !nofZ_num. simpl.
    assert (H10 : nltb O (nofZ O 1) (nofZ O 0) = false).
    { apply (le_nlt OL). apply (ol_Z OL). lia. }
    destruct i as [|i].
    - rewrite Nat.add_0_r, Nat.eqb_refl. rewrite (nl_01 NL).
      apply argmax_zeros; [easy|]. apply Forall_map, Forall_forall. intros c Hc. apply in_seq in Hc.
      assert (E : (a =? c) = false) by (apply Nat.eqb_neq; lia). now rewrite E.
    - assert (E : (a + S i =? a) = false) by (apply Nat.eqb_neq; lia). rewrite E.
      rewrite (lt_irrefl OL). rewrite <- plus_n_Sm.
      apply (IH (S a) i). lia.
  Qed.

  Lemma argmax_hot n i : i < n ->
    argmax O (map (fun c => nofZ O (if Nat.eqb i c then 1 else 0)%Z) (seq 0 n)) = Some i.
  Proof.
    intros Hi. destruct n as [|n]; [lia|]. simpl.
    destruct i as [|i]; simpl.
    - f_equal. apply argmax_zeros.
      + apply (le_nlt OL). apply (ol_Z OL). lia.
      + apply Forall_map, Forall_forall. intros c Hc. apply in_seq in Hc. now destruct c.
    - f_equal. apply (@argmax_hot_from 1 n i 0). lia.
  Qed.

  (** Decoding depends on the row only through its numeric reading. *)
  Lemma lb_inverse_hot n i row : i < n ->
    nums O row = nums O (hot_row n i) -> lb_inverse1 O (seq 0 n) row = Ok i.
  Proof.
    intros Hi Hr. unfold lb_inverse1. rewrite Hr. clear Hr row.
    destruct n as [|[|[|n]]]; [lia| | |].
    - simpl. f_equal. lia.
    - simpl. destruct i as [|[|]]; [| |lia]; simpl.
      + now rewrite (nl_half0 NL).
      + now rewrite (nl_half1 NL).
    - set (m := S (S (S n))) in *.
      assert (En : nums O (hot_row m i) = Ok (map (fun c => nofZ O (if Nat.eqb i c then 1 else 0)%Z) (seq 0 m))).
      { unfold hot_row, m. rewrite <- (map_map (fun c => if Nat.eqb i c then 1%Z else 0%Z) (@VInt N)).
        rewrite nums_VInt. now rewrite map_map. }
      rewrite En. cbn [bind].
      change (match argmax O (map (fun c => nofZ O (if Nat.eqb i c then 1 else 0)%Z) (seq 0 m)) with
              | Some k => match nth_error (seq 0 m) k with
                  | Some c => Ok c
                  | None => match last (map Some (seq 0 m)) None with Some c => Ok c | None => Raise ValueError end
                  end
              | None => Raise ValueError
              end = Ok i).
      rewrite argmax_hot by easy.
      rewrite nth_error_nth' with (d := 0) by now rewrite seq_length. now rewrite seq_nth.
  Qed.

  Lemma hot_row_length n i : length (hot_row n i) = match n with 2 => 1 | _ => n end.
  Proof.
    destruct n as [|[|[|n]]]; try easy. unfold hot_row. now rewrite map_length, seq_length.
  Qed.

  (** *** Unique *)
  Lemma uniq_insert_perm v l : (forall w, In w l -> py_eqb O w v = false) -> Permutation (v :: l) (uniq_insert O v l).
  Proof.
    induction l as [|w l IH]; intros H; simpl; [easy|].
    rewrite (H w) by now left. destruct (val_ltb O v w); [easy|].
    transitivity (w :: v :: l); [constructor|]. constructor. apply IH. intros; apply H; now right.
  Qed.
  Lemma np_unique_perm l : distinct O l -> Permutation l (np_unique O l).
  Proof.
    intros H. unfold np_unique.
    assert (G : forall m acc, distinct O (m ++ acc) ->
      Permutation (m ++ acc) (fold_left (fun acc v => uniq_insert O v acc) m acc)).
    { induction m as [|v m IH]; intros acc Hd; simpl in *; [easy|].
      assert (P : Permutation (v :: acc) (uniq_insert O v acc)).
      { apply uniq_insert_perm. intros w Hw. rewrite py_eqb_sym.
        destruct Hd as [_ Hd]. inversion Hd as [|? ? Ha Hr]; subst. rewrite Forall_forall in Ha.
        apply Ha. apply in_or_app. now right. }
      assert (P2 : Permutation (v :: m ++ acc) (m ++ uniq_insert O v acc)).
      { rewrite <- P. apply Permutation_middle. }
      rewrite P2. apply IH. eapply distinct_perm; eauto. }
    rewrite <- (app_nil_r l) at 1. apply G. now rewrite app_nil_r.
  Qed.

  (** Order of the labels: the categories themselves for object arrays, else sorted. *)
  Definition label_order (cats : list val) : list val :=
    match np_dtype cats with NObject => np_asarray O cats | _ => np_unique O (np_asarray O cats) end.
  Lemma label_mapping_eq cats : label_mapping O cats = dict_of (py_eqb O) (keyed (label_order cats)).
  Proof. unfold label_mapping, label_order, keyed. destruct (np_dtype cats); reflexivity. Qed.
  Lemma label_order_perm cats : homogeneous cats -> distinct O cats -> Permutation cats (label_order cats).
  Proof.
    intros Hh Hd. unfold label_order. rewrite np_asarray_homog by easy.
    destruct (np_dtype cats); try apply np_unique_perm; easy.
  Qed.

  Lemma label_order_distinct cats : homogeneous cats -> distinct O cats -> distinct O (label_order cats).
  Proof. intros Hh Hd. exact (distinct_perm (label_order_perm Hh Hd) Hd). Qed.

  Lemma label_inverse_ok cats i v x : homogeneous cats -> distinct O cats ->
    nth_error (label_order cats) i = Some v -> to_num O x = Some (nofZ O (Z.of_nat i)) ->
    (Z.of_nat i <= 2 ^ 53)%Z ->
    label_inverse1 O (invert_mapping (label_mapping O cats)) x = Ok v.
  Proof.
    intros Hh Hd Hi Hx Hb. unfold label_inverse1. rewrite Hx.
    unfold nisnan. rewrite nofZ_num. simpl. rewrite (il_id IL) by lia.
    unfold znat. assert (E : (Z.of_nat i <? 0)%Z = false) by (apply Z.ltb_ge; lia). rewrite E, Nat2Z.id.
    rewrite label_mapping_eq. rewrite keyed_mapping, invert_keyed.
    - now apply inv_lookup_enum.
    - now apply label_order_distinct.
  Qed.

  Lemma label_inverse_In cats x v : homogeneous cats -> distinct O cats ->
    label_inverse1 O (invert_mapping (label_mapping O cats)) x = Ok v -> In v cats.
  Proof.
    intros Hh Hd. unfold label_inverse1. destruct (to_num O x); [|easy].
    destruct (nisnan O n); [easy|]. destruct znat as [i|]; [|easy].
    rewrite label_mapping_eq, keyed_mapping, invert_keyed.
    - intros H. apply inv_lookup_enum_inv in H.
      eapply Permutation_in; [symmetry; apply label_order_perm|]; eauto.
    - now apply label_order_distinct.
  Qed.

  (** *** Decimal strings *)
  Lemma int_string_roundtrip z : NilZero.int_of_string (NilZero.string_of_int (Z.to_int z)) = Some (Z.to_int z).
  Proof.
    apply NilZero.isi; destruct z; simpl; try discriminate; intros H; injection H;
      apply DecimalPos.Unsigned.to_uint_nonnil.
  Qed.

  Notation str_ok := (SpaceSpec.str_ok (O:=O)).
  Lemma construct_str v : str_ok v -> py_construct O (type_of v) (py_str O v) = Ok v.
  Proof.
    destruct v; simpl; try easy.
    - intros _. rewrite int_string_roundtrip. now rewrite DecimalZ.of_to.
    - intros H. now rewrite H.
  Qed.
End CatLemmas.
