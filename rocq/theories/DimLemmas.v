(** Lemmas about dimensions: inverse transforms (C01). *)
From Coq Require Import String List ZArith Bool Lia.
From Verif Require Import Base BaseLemmas Num Values Transformers Dimension NumLaws SpaceSpec.
Import ListNotations.
Open Scope list_scope.
Set Implicit Arguments.

Section DimLemmas.
  Context {N : Type} {O : numops N} (OL : order_laws O) (IL : int_laws O).
  Context (cast64 : forall x, ncast O DT64 x = x).
  Notation val := (pyval N).

  Lemma nums_ok l zs : nums O l = Ok zs <-> Forall2 (fun v z => to_num O v = Some z) l zs.
  Proof.
    unfold nums. rewrite mapM_ok. split; intros H; induction H; constructor; auto.
    - destruct (to_num O x); congruence.
    - now rewrite H.
  Qed.

  Lemma nums_VFloat zs : nums O (map (@VFloat N) zs) = Ok zs.
  Proof. apply nums_ok. induction zs; constructor; auto. Qed.
  Lemma nums_VInt zs : nums O (map (@VInt N) zs) = Ok (map (nofZ O) zs).
  Proof. apply nums_ok. induction zs; constructor; auto. Qed.

  Definition post_real (r : real_dim N) (z : N) : val :=
    VFloat (ncast O (r_dtype r) (nclip O (r_low r) (r_high r) z)).
  Lemma real_post_all r l : mapM (real_post O r) l = rmap (map (post_real r)) (nums O l).
  Proof.
    induction l as [|v l IH]; simpl; [easy|].
    unfold real_post at 1. unfold nums in *. simpl. destruct (to_num O v) as [x|]; simpl; [|easy].
    rewrite IH. clear IH. destruct (mapM _ l); reflexivity.
  Qed.
  Definition post_int (i : int_dim N) (z : N) : val :=
    VInt (int_cast (i_dtype i)
            (ntoint O (nround O (nclip O (nofZ O (i_low i)) (nofZ O (i_high i)) z)))).
  Lemma int_post_all r l : mapM (int_post O r) l = rmap (map (post_int r)) (nums O l).
  Proof.
    induction l as [|v l IH]; simpl; [easy|].
    unfold int_post at 1. unfold nums in *. simpl. destruct (to_num O v) as [x|]; simpl; [|easy].
    rewrite IH. clear IH. destruct (mapM _ l); reflexivity.
  Qed.

  (** The range check of Normalize.inverse_transform. *)
  Definition unit_range (z : N) : bool :=
    negb (nltb O (nadd O (nofZ O 1) (neps O)) z) && negb (nltb O z (nsub O (nofZ O 0) (neps O))).

  Lemma normalize_inverse_eq low high is_int zs :
    normalize_inverse O low high is_int zs =
    if forallb unit_range zs then
      Ok (map (fun x => let o := nadd O (nmul O x (nsub O high low)) low in
                        if is_int then VInt (ntoint O (nround O o)) else VFloat o) zs)
    else Raise ValueError.
  Proof.
    unfold normalize_inverse.
    assert (E : forallb unit_range zs =
      negb (existsb (fun x => nltb O (nadd O (nofZ O 1) (neps O)) x) zs) &&
      negb (existsb (fun x => nltb O x (nsub O (nofZ O 0) (neps O))) zs)).
    { induction zs as [|z zs IH]; simpl; [easy|]. rewrite IH. unfold unit_range.
      destruct (nltb O _ z), (nltb O z _), (existsb _ zs), (existsb _ zs); easy. }
    rewrite E. destruct (existsb _ zs); simpl; [easy|]. destruct (existsb _ zs); easy.
  Qed.

  Definition is_norm (k : tkind) : bool := match k with KNormalize => true | _ => false end.

  Lemma real_inverse_eq r l :
    dim_inverse O (DReal r) (A1 l) =
    (zs <- nums O l ;;
     if implb (is_norm (r_kind r)) (forallb unit_range zs)
     then Ok (map (fun z => post_real r (unwarp O (r_low r) (r_high r) (r_base r) (r_prior r) (r_kind r) z)) zs)
     else Raise ValueError).
  Proof.
    unfold dim_inverse, real_transformer, unwarp, logb.
    destruct (r_kind r), (r_prior r); simpl; rewrite ?real_post_all;
      destruct (nums O l) as [zs|e]; simpl; try reflexivity;
      rewrite ?normalize_inverse_eq; try (destruct (forallb unit_range zs); simpl; [|reflexivity]);
      rewrite ?real_post_all;
      rewrite <- ?(map_map (fun x => nadd O _ _) (@VFloat N)), ?nums_VFloat; simpl;
      rewrite ?real_post_all, <- ?(map_map (fun x => npow O _ x) (@VFloat N)), ?nums_VFloat; simpl;
      rewrite ?map_map; reflexivity.
  Qed.

  (** Rounding done by Normalize with is_int. *)
  Definition int_pre (i : int_dim N) (z : N) : N :=
    match i_kind i, i_prior i with
    | KNormalize, PUniform => nofZ O (ntoint O (nround O z))
    | _, _ => z
    end.
  Lemma int_inverse_eq i l :
    dim_inverse O (DInt i) (A1 l) =
    (zs <- nums O l ;;
     if implb (is_norm (i_kind i)) (forallb unit_range zs)
     then Ok (map (fun z => post_int i (int_pre i (unwarp O (nofZ O (i_low i)) (nofZ O (i_high i)) (i_base i) (i_prior i) (i_kind i) z))) zs)
     else Raise ValueError).
  Proof.
    unfold dim_inverse, int_transformer, unwarp, logb, int_pre.
    destruct (i_kind i), (i_prior i); simpl; rewrite ?int_post_all;
      destruct (nums O l) as [zs|e]; simpl; try reflexivity;
      rewrite ?normalize_inverse_eq; try (destruct (forallb unit_range zs); simpl; [|reflexivity]);
      rewrite ?int_post_all;
      rewrite <- ?(map_map (fun x => nadd O _ _) (@VFloat N)), ?nums_VFloat; simpl;
      rewrite <- ?(map_map (fun x => ntoint O (nround O (nadd O _ _))) (@VInt N)), ?nums_VInt; simpl;
      rewrite ?int_post_all, <- ?(map_map (fun x => npow O _ x) (@VFloat N)), ?nums_VFloat; simpl;
      rewrite ?map_map; reflexivity.
  Qed.

  Lemma post_real_in r z : wf_real O r -> nisnan O z = false -> in_dim O (DReal r) (post_real r z).
  Proof.
    intros (Hlh & Hdt & _) Hz. unfold post_real. rewrite Hdt, cast64.
    unfold nisnan in Hz. apply negb_false_iff in Hz.
    destruct (@clip_in N O OL (r_low r) (r_high r) z) as [H1 H2]; auto using lt_le.
    now constructor.
  Qed.
  Lemma post_int_in i z : wf_int i -> nisnan O z = false -> in_dim O (DInt i) (post_int i z).
  Proof.
    intros (Hlh & Hl & Hh & Hc & _) Hz. unfold post_int.
    unfold nisnan in Hz. apply negb_false_iff in Hz.
    destruct (@clip_in N O OL (nofZ O (i_low i)) (nofZ O (i_high i)) z) as [H1 H2]; auto.
    - rewrite (il_le IL) by easy. apply Z.leb_le. lia.
    - pose proof (il_round IL _ _ _ Hl Hh H1 H2) as H. rewrite Hc by easy. now constructor.
  Qed.

  Lemma to_num_nofZ_num z : nisnan O (nofZ O z) = false.
  Proof.
    unfold nisnan. apply negb_false_iff. apply (ol_Z OL). lia.
  Qed.
End DimLemmas.
