(** Space-level lemmas for C05. *)
From Coq Require Import String List ZArith Bool Lia Permutation.
From Verif Require Import Base BaseLemmas Num Values Transformers Dimension Space NumLaws NormLaws SpaceSpec
  DimLemmas CatLemmas RoundTrip.
Import ListNotations.
Open Scope list_scope.
Set Implicit Arguments.
Local Arguments Z.pow : simpl never.

Section SpaceLemmas.
  Context {N : Type} {O : numops N} (OL : order_laws O) (IL : int_laws O) (NL : norm_laws O).
  Context (cast64 : forall x, ncast O DT64 x = x).
  Notation val := (pyval N).

  Definition numeric (v : val) : Prop := exists x, to_num O v = Some x.

  Definition arrange (k : nat) (rows : list (list val)) : arr val :=
    if Nat.eqb k 1 then A1 (concat rows) else A2 rows.

  (** [g] warps one value, and un-warping numerically equal rows gives the values back. *)
  Definition rt_with (d : dim N) (g : val -> list val) : Prop :=
    forall xs, xs <> [] -> Forall (in_dim O d) xs ->
      (exists a, dim_transform O d xs = Ok a /\ rows_of a = map g xs) /\
      Forall (fun x => length (g x) = tsize d /\ Forall numeric (g x)) xs /\
      (forall rows, Forall2 (fun x r => nums O r = nums O (g x)) xs rows ->
         dim_inverse O d (arrange (tsize d) rows) = Ok xs).

  (** The transform part alone. *)
  Definition tr_with (d : dim N) (g : val -> list val) : Prop :=
    forall xs, xs <> [] -> Forall (in_dim O d) xs ->
      (exists a, dim_transform O d xs = Ok a /\ rows_of a = map g xs) /\
      Forall (fun x => length (g x) = tsize d /\ Forall numeric (g x)) xs.
  Lemma rt_tr dims gs : Forall2 rt_with dims gs -> Forall2 tr_with dims gs.
  Proof.
    intros F. eapply Forall2_weaken; [|exact F]. intros d g H xs Hne Hx.
    now destruct (H xs Hne Hx) as (H1 & H2 & _).
  Qed.

  Notation within := (SpaceSpec.within (O:=O)).

  (** *** Columns *)
  Fixpoint columns (n : nat) (P : list (list val)) : list (list val) :=
    match n with
    | 0 => []
    | S n' => map (fun p => hd VNone p) P :: columns n' (map (fun p => tl p) P)
    end.
  Lemma columns_length n P : length (columns n P) = n.
  Proof. revert P. induction n; simpl; auto. Qed.

  Lemma columns_nth n P : columns n P = map (fun j => map (fun p => nth j p VNone) P) (seq 0 n).
  Proof.
    revert P. induction n as [|n IH]; intros P; simpl; [easy|]. f_equal.
    - apply map_ext. now intros [].
    - rewrite IH, <- seq_shift, map_map. apply map_ext. intros j. rewrite map_map.
      apply map_ext. intros [|v p]; simpl; [now destruct j|easy].
  Qed.

  Lemma pack_columns n P : Forall (fun p => length p = n) P -> pack n P = Ok (columns n P).
  Proof.
    intros H. unfold pack. rewrite columns_nth. apply mapM_pure. intros j Hj. apply in_seq in Hj.
    apply mapM_pure. intros p Hp. rewrite Forall_forall in H. specialize (H p Hp).
    rewrite nth_error_nth' with (d := VNone) by lia. easy.
  Qed.

  Lemma nth_seq_id (p : list val) : map (fun j => nth j p VNone) (seq 0 (length p)) = p.
  Proof.
    induction p as [|v p IH]; simpl; [easy|]. f_equal. rewrite <- seq_shift, map_map. exact IH.
  Qed.

  Lemma transpose_columns n P : n <> 0 -> Forall (fun p => length p = n) P -> transpose (columns n P) = Ok P.
  Proof.
    intros Hn H. unfold transpose.
    assert (E : exists c cs, columns n P = c :: cs /\ length c = length P).
    { destruct n as [|n]; [easy|]. simpl. eexists. eexists. split; [reflexivity|]. now rewrite map_length. }
    destruct E as (c & cs & E & Hl). rewrite E, Hl, <- E. clear c cs E Hl.
    apply Forall2_mapM. apply Forall2_nth. split; [now rewrite seq_length|].
    intros i k p Hk Hp.
    assert (Hi : i < length P) by (apply nth_error_Some; congruence).
    rewrite nth_error_nth' with (d := 0) in Hk by now rewrite seq_length.
    rewrite seq_nth in Hk by easy. injection Hk as <-. simpl.
    rewrite Forall_forall in H. pose proof (H p (nth_error_In _ _ Hp)) as Hlen.
    rewrite columns_nth, mapM_map. rewrite <- (nth_seq_id p), Hlen.
    apply mapM_pure. intros j Hj. rewrite nth_error_map, Hp. easy.
  Qed.

  Lemma in_space_length dims p : in_space O dims p -> length p = length dims.
  Proof. intros H. apply Forall2_len in H. lia. Qed.

  (** *** Transform *)
  Fixpoint rowof (gs : list (val -> list val)) (p : list val) : list val :=
    match gs, p with
    | g :: gs', v :: p' => g v ++ rowof gs' p'
    | _, _ => []
    end.

  Lemma combine_map_self {A B C} (f : A -> B) (h : A -> C) (l : list A) :
    combine (map f l) (map h l) = map (fun x => (f x, h x)) l.
  Proof. induction l; simpl; congruence. Qed.

  Lemma transform_blocks dims gs P : Forall2 tr_with dims gs -> P <> [] -> Forall (in_space O dims) P ->
    exists blocks,
      (tcols <- mapM (fun dc => dim_transform O (fst dc) (snd dc)) (combine dims (columns (length dims) P)) ;;
       mapM (reshape_rows (length P)) tcols) = Ok blocks /\ length blocks = length dims /\
      hconcat blocks (length P) = map (rowof gs) P.
  Proof.
    intros F. revert P. induction F as [|d g dims gs Hg F IH]; intros P Hne HP.
    - exists []. simpl. repeat split. clear. induction P; simpl; congruence.
    - set (hds := map (fun p => hd VNone p) P). set (tls := map (fun p => tl p) P).
      assert (Hh : Forall (in_dim O d) hds).
      { apply Forall_map. eapply Forall_impl; [|exact HP]. intros p Hp. now inversion Hp. }
      assert (Ht : Forall (in_space O dims) tls).
      { apply Forall_map. eapply Forall_impl; [|exact HP]. intros p Hp. now inversion Hp. }
      destruct (Hg hds) as ((a & Ha & Hrows) & _); [unfold hds; now destruct P|easy|].
      destruct (IH tls) as (blocks & Hb & Hlen & Hc); [unfold tls; now destruct P|easy|].
      assert (Ll : length tls = length P) by (unfold tls; now rewrite map_length).
      rewrite Ll in Hb, Hc.
      apply bind_ok in Hb as (tcols & Htc & Hb).
      exists (map g hds :: blocks). repeat split; simpl.
      + fold hds tls. rewrite Ha. simpl. rewrite Htc. simpl. rewrite Hb.
        unfold reshape_rows. destruct (length P) eqn:E; [now destruct P|]. simpl. now rewrite Hrows.
      + now rewrite Hlen.
      + rewrite Hc. unfold hds, tls. rewrite !map_map.
        rewrite combine_map_self, map_map. apply map_ext_in. intros p Hp.
        rewrite Forall_forall in HP. specialize (HP p Hp). now inversion HP.
  Qed.

  Lemma rowof_numeric dims gs p : Forall2 tr_with dims gs -> in_space O dims p ->
    Forall numeric (rowof gs p) /\ length (rowof gs p) = t_n_dims dims.
  Proof.
    intros F. revert p. induction F as [|d g dims gs Hg F IH]; intros p Hp; inversion Hp as [|? v ? p' Hv Hp']; subst; simpl.
    - split; constructor.
    - destruct (Hg [v]) as (_ & Hn); [easy|now constructor|].
      inversion Hn as [|? ? [Hl Hnum] _]; subst. destruct (IH _ Hp') as [Hr Hr'].
      split; [now apply Forall_app|]. rewrite app_length. simpl. lia.
  Qed.

  Lemma numeric_types l : Forall numeric l -> has_ty TyNone l = false /\ has_ty TyStr l = false.
  Proof.
    induction 1 as [|v l [x Hx] H IH]; [easy|]. simpl. destruct IH as [-> ->]. now destruct v.
  Qed.

  Lemma space_transform_rows dims gs P : dims <> [] -> Forall2 tr_with dims gs -> P <> [] ->
    Forall (in_space O dims) P ->
    space_transform O dims P = Ok (map (fun p => map (as_float O) (rowof gs p)) P).
  Proof.
    intros Hd F Hne HP. unfold space_transform, point.
    rewrite pack_columns. 2:{ eapply Forall_impl; [|exact HP]. intros p. apply in_space_length. }
    cbn [bind]. destruct (transform_blocks F Hne HP) as (blocks & Hb & Hlen & Hc).
    apply bind_ok in Hb as (tcols & -> & Hb). cbn [bind]. rewrite Hb. cbn [bind].
    destruct blocks as [|b bs]; [now destruct dims|]. rewrite Hc.
    f_equal. unfold harmonise.
    assert (Hn : Forall numeric (concat (map (rowof gs) P))).
    { apply Forall_concat, Forall_map. eapply Forall_impl; [|exact HP]. intros p Hp.
      now apply (rowof_numeric F). }
    destruct (numeric_types Hn) as [-> ->]. rewrite map_map. reflexivity.
  Qed.

  Lemma nums_as_float l : nums O (map (as_float O) l) = nums O l.
  Proof.
    induction l as [|v l IH]; [easy|]. unfold nums in *. cbn [mapM map]. rewrite IH.
    unfold as_float. destruct (to_num O v) eqn:E; simpl; [easy|]. now rewrite E.
  Qed.

  (** *** Inverse *)
  Lemma inverse_columns_ok dims gs : Forall2 rt_with dims gs -> forall P start Xt,
    P <> [] -> Forall (in_space O dims) P ->
    Forall2 (fun p r => exists pre, length pre = start /\ r = pre ++ map (as_float O) (rowof gs p)) P Xt ->
    inverse_columns O dims start Xt = Ok (columns (length dims) P).
  Proof.
    intros F. induction F as [|d g dims gs Hg F IH]; intros P start Xt Hne HP HX; [easy|].
    set (hds := map (fun p => hd VNone p) P). set (tls := map (fun p => tl p) P).
    assert (Hh : Forall (in_dim O d) hds).
    { apply Forall_map. eapply Forall_impl; [|exact HP]. intros p Hp. now inversion Hp. }
    assert (Ht : Forall (in_space O dims) tls).
    { apply Forall_map. eapply Forall_impl; [|exact HP]. intros p Hp. now inversion Hp. }
    destruct (Hg hds) as (_ & Hsz & Hinv); [unfold hds; now destruct P|easy|].
    (* the block of this dimension *)
    assert (HB : Forall2 (fun x r => firstn (tsize d) (skipn start r) = map (as_float O) (g x)) hds Xt).
    { clear Hinv. unfold hds in *. clear hds tls Ht Hne. induction HX as [|p r P Xt (pre & Hpre & ->) HX IHX]; [constructor|].
      inversion HP as [|? ? Hp HP']; subst. simpl in *. inversion Hh; subst. inversion Hsz as [|? ? [Hl _] Hsz']; subst.
      constructor; [|now apply IHX].
      inversion Hp as [|? v ? p' Hv Hp']; subst. simpl in *.
      rewrite map_app, skipn_app, skipn_all, Nat.sub_diag. simpl.
      rewrite firstn_app, map_length, Hl, Nat.sub_diag. simpl. rewrite app_nil_r.
      apply firstn_all2. rewrite map_length. lia. }
    assert (HI : dim_inverse O d (arrange (tsize d) (map (fun r => firstn (tsize d) (skipn start r)) Xt)) = Ok hds).
    { apply Hinv. clear -HB. induction HB as [|x r hds Xt Hx HB IHB]; simpl; constructor; auto.
      rewrite Hx. apply nums_as_float. }
    assert (HC : (if Nat.eqb (tsize d) 1 then (l <- column start Xt ;; dim_inverse O d (A1 l))
            else dim_inverse O d (A2 (block start (tsize d) Xt))) = Ok hds).
    { unfold arrange in HI. destruct (Nat.eqb (tsize d) 1) eqn:E; [|exact HI].
      apply Nat.eqb_eq in E. rewrite E in *.
      assert (Hcol : column start Xt = Ok (concat (map (fun r => firstn 1 (skipn start r)) Xt))).
      { clear -HB Hsz. unfold column. induction HB as [|x r hds Xt Hx HB IHB]; [easy|].
        inversion Hsz as [|? ? [Hl _] Hsz']; subst. simpl.
        assert (Hs : exists w s, skipn start r = w :: s).
        { destruct (skipn start r) as [|w s]; [|eauto]. simpl in Hx.
          apply (f_equal (@length val)) in Hx. rewrite map_length, Hl in Hx. easy. }
        destruct Hs as (w & s & Hs). rewrite Hs. simpl.
        assert (Hn : nth_error r start = Some w).
        { rewrite <- (firstn_skipn start r), Hs. 
          assert (Lr : length (firstn start r) = start).
          { apply firstn_length_le. pose proof (skipn_length start r) as L. rewrite Hs in L. simpl in L. lia. }
          rewrite nth_error_app2 by lia. now rewrite Lr, Nat.sub_diag. }
        rewrite Hn. simpl. rewrite IHB by easy. easy. }
      rewrite Hcol. exact HI. }
    simpl. rewrite HC. simpl. fold hds tls.
    rewrite (IH tls); [easy| |easy|].
    - unfold tls. now destruct P.
    - clear -HX HP Hsz. unfold tls, hds in *. clear hds tls.
      induction HX as [|p r P Xt (pre & Hpre & ->) HX IHX]; [constructor|].
      inversion HP as [|? ? Hp HP']; subst. simpl in *. inversion Hsz as [|? ? [Hl _] Hsz']; subst.
      constructor; [|now apply IHX].
      inversion Hp as [|? v ? p' Hv Hp']; subst. simpl in *.
      exists (pre ++ map (as_float O) (g v)). rewrite app_length, map_length, Hl. split; [easy|].
      now rewrite map_app, app_assoc.
  Qed.

  Lemma space_roundtrip_with dims gs P : dims <> [] -> Forall2 rt_with dims gs -> P <> [] ->
    Forall (in_space O dims) P ->
    space_inverse O dims (map (fun p => map (as_float O) (rowof gs p)) P) = Ok P.
  Proof.
    intros Hd F Hne HP. unfold space_inverse.
    rewrite (@inverse_columns_ok dims gs F P 0); auto.
    - cbn [bind]. apply transpose_columns; [now destruct dims|].
      eapply Forall_impl; [|exact HP]. intros p. apply in_space_length.
    - clear. induction P as [|p P IH]; simpl; constructor; auto. now exists [].
  Qed.

  (** *** Which dimensions satisfy [rt_with] *)
  Lemma concat_single {A} (l : list A) : concat (map (fun x => [x]) l) = l.
  Proof. induction l; simpl; congruence. Qed.

  Lemma nums_sing_concat rows (f : val -> val) xs :
    Forall2 (fun x r => nums O r = nums O [f x]) xs rows -> Forall (fun x => numeric (f x)) xs ->
    nums O (concat rows) = nums O (map f xs).
  Proof.
    intros F Hn. induction F as [|x r xs rows Hr F IH]; [easy|].
    inversion Hn as [|? ? [y Hy] Hn']; subst. simpl.
    assert (E : nums O r = Ok [y]). { rewrite Hr. unfold nums. simpl. now rewrite Hy. }
    assert (exists v, r = [v] /\ to_num O v = Some y) as (v & -> & Hv).
    { apply nums_ok in E. inversion E as [|v ? l ? Hv Hl]; subst. inversion Hl; subst. eauto. }
    simpl. specialize (IH Hn'). unfold nums in *. simpl. rewrite Hv, Hy. simpl. now rewrite IH.
  Qed.

  Lemma in_dim_floats r xs : Forall (in_dim O (DReal r)) xs ->
    exists fs, xs = map (@VFloat N) fs /\ Forall (fun x => nleb O (r_low r) x = true /\ nleb O x (r_high r) = true) fs.
  Proof.
    induction 1 as [|v xs Hv H (fs & -> & IH)]; [now exists []|].
    inversion Hv; subst. exists (x :: fs). split; [easy|]. now constructor.
  Qed.
  Lemma in_dim_ints i xs : Forall (in_dim O (DInt i)) xs ->
    exists zs, xs = map (@VInt N) zs /\ Forall (fun z => (i_low i <= z <= i_high i)%Z) zs.
  Proof.
    induction 1 as [|v xs Hv H (fs & -> & IH)]; [now exists []|].
    inversion Hv; subst. exists (z :: fs). split; [easy|]. now constructor.
  Qed.
  Lemma in_dim_cats c xs : Forall (in_dim O (DCat c)) xs -> incl xs (c_cats c).
  Proof.
    intros H v Hv. rewrite Forall_forall in H. specialize (H v Hv). now inversion H.
  Qed.

  Lemma rt_real_identity r : wf_real O r -> r_prior r = PUniform -> r_kind r = KIdentity ->
    rt_with (DReal r) (fun v => [v]).
  Proof.
    intros Hw Hp Hk xs Hne Hx. destruct (in_dim_floats Hx) as (fs & -> & Hf).
    split; [|split].
    - exists (A1 (map (@VFloat N) fs)). split; [|reflexivity].
      unfold dim_transform. simpl. unfold real_transformer. now rewrite Hk, Hp.
    - apply Forall_map, Forall_forall. intros f _. split; [easy|]. repeat constructor. now exists f.
    - intros rows F. unfold arrange. cbn [tsize Nat.eqb].
      destruct (real_identity_roundtrip OL cast64 Hw Hp Hk Hf) as (a & Ha & Hi).
      unfold dim_transform in Ha. simpl in Ha. unfold real_transformer in Ha. rewrite Hk, Hp in Ha.
      injection Ha as <-. rewrite <- Hi. symmetry. apply dim_inverse_cong; [easy| |].
      + simpl. rewrite (@nums_sing_concat _ (fun v => v) _ F); [now rewrite map_id|].
        apply Forall_map, Forall_forall. intros f _. now exists f.
      + exists fs. apply nums_VFloat.
  Qed.

  (** A value of an Integer dimension after warping. *)
  Definition warp_int (i : int_dim N) (v : val) : val :=
    match i_kind i, v with
    | KNormalize, VInt z =>
      VFloat (ndiv O (nsub O (nofZ O z) (nofZ O (i_low i))) (nsub O (nofZ O (i_high i)) (nofZ O (i_low i))))
    | _, _ => v
    end.

  Lemma rt_int i : exact_dim O (DInt i) -> rt_with (DInt i) (fun v => [warp_int i v]).
  Proof.
    intros (Hw & Hp & Hb) xs Hne Hx. destruct (in_dim_ints Hx) as (zs & -> & Hz).
    assert (Hnum : Forall (fun x => numeric (warp_int i x)) (map (@VInt N) zs)).
    { apply Forall_map, Forall_forall. intros z _. unfold warp_int.
      destruct (i_kind i); try (now eexists). }
    assert (T : dim_transform O (DInt i) (map (@VInt N) zs) = Ok (A1 (map (warp_int i) (map (@VInt N) zs)))).
    { unfold dim_transform, dim_transformer, int_transformer. rewrite Hp.
      pose proof Hw as (Hlh & _ & _ & _ & Hk). destruct Hk as [K|K]; unfold warp_int; rewrite K.
      - cbn [transform]. now rewrite map_id.
      - destruct (Hb K) as (B1 & B2 & B3). cbn [transform bind as_A1].
        rewrite nums_VInt. cbn [bind]. rewrite (norm_ints_transform OL IL NL B1 B2 B3 Hlh Hz).
        cbn [bind]. now rewrite !map_map. }
    split; [|split].
    - eexists. split; [exact T|]. unfold rows_of. now rewrite map_map.
    - eapply Forall_impl; [|exact Hnum]. intros v Hv. simpl. split; [easy|]. now repeat constructor.
    - intros rows F. unfold arrange. cbn [tsize Nat.eqb].
      destruct (int_roundtrip OL IL NL Hw Hp Hb Hz) as (a & Ha & Hi).
      rewrite T in Ha. injection Ha as <-. rewrite <- Hi. symmetry. apply dim_inverse_cong; [easy| |].
      + simpl. now rewrite (@nums_sing_concat _ (warp_int i) _ F).
      + clear -Hnum. induction Hnum as [|v l [x Hx] Hn [ws IH]]; [now exists []|].
        exists (x :: ws). unfold nums in *. simpl in *. rewrite Hx. simpl. now rewrite IH.
  Qed.

  (** Position of a value in a list of distinct values. *)
  Fixpoint index_of (l : list val) (v : val) : nat :=
    match l with [] => 0 | w :: l' => if py_eqb O w v then 0 else S (index_of l' v) end.
  Lemma index_of_nth l i v : distinct O l -> nth_error l i = Some v -> index_of l v = i.
  Proof.
    intros [Hr Hd]. revert i. induction Hd as [|w l Hw Hd IH]; intros [|i] Hi; simpl in *; try easy.
    - injection Hi as ->. inversion Hr; subst. now rewrite H1.
    - inversion Hr; subst. rewrite Forall_forall in Hw. pose proof (nth_error_In _ _ Hi) as Hin.
      rewrite (Hw v Hin). now rewrite (IH H2 i).
  Qed.
  Lemma index_of_all l xs is : distinct O l -> Forall2 (fun v i => nth_error l i = Some v) xs is ->
    is = map (index_of l) xs.
  Proof.
    intros Hd F. induction F as [|v i xs is Hv F IH]; simpl; [easy|].
    rewrite (index_of_nth _ Hd Hv). congruence.
  Qed.

  Lemma hot_row_numeric n i : Forall numeric (hot_row (N:=N) n i).
  Proof.
    unfold hot_row. destruct n as [|[|[|n]]]; repeat constructor; try (now eexists).
    apply Forall_map, Forall_forall. intros c _. now eexists.
  Qed.

  Lemma rt_onehot c : wf_cat O c -> c_kind c = KOnehot ->
    rt_with (DCat c) (fun v => hot_row (length (c_cats c)) (index_of (c_cats c) v)).
  Proof.
    intros Hw Hk xs Hne Hx. pose proof Hw as (Hnc & Hh & Hd). pose proof (in_dim_cats Hx) as Hi.
    destruct (cats_indices Hi) as [is His]. pose proof (index_of_all Hd His) as Eis.
    split; [|split].
    - eexists. split; [eapply onehot_transform; eauto|]. simpl. now rewrite Eis, map_map.
    - apply Forall_forall. intros v _. split; [|apply hot_row_numeric].
      rewrite hot_row_length. unfold tsize. rewrite Hk. now destruct (length (c_cats c)) as [|[|[|]]].
    - intros rows F.
      assert (F' : Forall2 (fun r i => nums O r = nums O (hot_row (N:=N) (length (c_cats c)) i)) rows is).
      { rewrite Eis. clear -F. induction F; simpl; constructor; auto. }
      unfold arrange. destruct (Nat.eqb (tsize (DCat c)) 1) eqn:E.
      + eapply (onehot_inverse OL NL); eauto.
        (* the rows have one element each *)
        assert (L : Forall (fun r => length r = 1) rows).
        { apply Nat.eqb_eq in E. simpl in E. rewrite Hk in E. clear -F' E.
          induction F' as [|r i rows is Hr F IH]; constructor; auto.
          assert (Hl : length (hot_row (N:=N) (length (c_cats c)) i) = 1).
          { rewrite hot_row_length. destruct (length (c_cats c)) as [|[|[|]]]; simpl in *; lia. }
          assert (exists ys, nums O (hot_row (N:=N) (length (c_cats c)) i) = Ok ys) as [ys Hys].
          { pose proof (hot_row_numeric (length (c_cats c)) i) as Hn. clear -Hn.
            induction Hn as [|v l [x Hx] Hn [zs IH]]; [now exists []|].
            exists (x :: zs). unfold nums in *. simpl. rewrite Hx. simpl. now rewrite IH. }
          rewrite Hys in Hr. pose proof (nums_length _ Hys). pose proof (nums_length _ Hr). lia. }
        replace (rows_of (A1 (concat rows))) with rows; [easy|].
        clear -L. induction L as [|r rows Hr L IH]; [easy|]. destruct r as [|v [|]]; try easy.
        simpl in *. congruence.
      + eapply (onehot_inverse OL NL); eauto.
  Qed.

  Lemma hot_row_within n i : n <> 0 ->
    within (repeat (nofZ O 0, nofZ O 1) (match n with 2 => 1 | n => n end)) (hot_row n i).
  Proof.
    assert (E : forall b : bool, exists y, to_num O (@VInt N (if b then 1%Z else 0%Z)) = Some y /\
              nleb O (nofZ O 0) y = true /\ nleb O y (nofZ O 1) = true).
    { intros b. eexists. split; [reflexivity|]. split; apply (ol_Z OL); destruct b; lia. }
    intros Hn. unfold hot_row, within. destruct n as [|[|[|n]]]; [easy| | |].
    - constructor; [|constructor]. apply (E false).
    - constructor; [|constructor]. apply (E (Nat.eqb i 1)).
    - set (m := S (S (S n))). generalize 0 as k. clear Hn. clearbody m. induction m as [|m IH]; intros k; simpl; constructor; auto.
  Qed.

  Definition bounded_kind (d : dim N) : Prop :=
    match d with DCat c => c_kind c <> KLabel | _ => True end.

  Lemma exact_round_trips_bounded d : exact_dim O d ->
    exists g, rt_with d g /\ (bounded_kind d -> forall v, in_dim O d v -> within (tbounds O d) (g v)).
  Proof.
    intros H. destruct d as [r|i|c].
    - destruct H as (Hw & Hp & Hk). eexists. split; [now apply rt_real_identity|].
      intros _ v Hv. inversion Hv; subst. simpl. rewrite Hk, Hp. constructor; [|constructor].
      exists x. easy.
    - eexists. split; [now apply rt_int|]. destruct H as (Hw & Hp & Hb).
      intros _ v Hv. inversion Hv as [|? z Hz|]; subst. simpl. pose proof Hw as (Hlh & _ & _ & _ & [K|K]); unfold warp_int; rewrite K.
      + constructor; [|constructor]. exists (nofZ O z). split; [easy|]. split; apply (ol_Z OL); simpl; lia.
      + constructor; [|constructor]. eexists. split; [reflexivity|]. destruct (Hb K) as (B1 & B2 & B3). simpl fst. simpl snd.
        apply (nl_back NL); auto.
    - destruct H as (Hw & Hk & Hb).
      destruct (c_kind c) eqn:K; try (exfalso; intuition discriminate).
      + (* normalize *)
        pose proof Hw as (Hnc & Hh & Hd).
        set (n := length (c_cats c)).
        set (q := fun i => if Nat.eqb n 1 then nmul O (nofZ O 0) (nofZ O 0)
                           else ndiv O (nsub O (nofZ O (Z.of_nat i)) (nofZ O 0)) (nsub O (nofZ O (Z.of_nat n - 1)) (nofZ O 0))).
        exists (fun v => [VFloat (q (index_of (label_order (O:=O) (c_cats c)) v))]).
        split.
        2:{ intros _ v Hv. inversion Hv; subst. simpl. rewrite K. simpl. constructor; [|constructor].
          eexists. split; [reflexivity|]. simpl fst. simpl snd. unfold q.
          destruct (label_indices (xs := [v]) Hw) as (is & His & Hr). { intros w [<-|[]]; easy. }
          inversion His as [|? j ? ? Hj Hn]; subst. inversion Hn; subst.
          rewrite (index_of_nth _ (label_order_distinct Hh Hd) Hj). inversion Hr as [|? ? Hlt _]; subst. fold n in Hlt.
          destruct (Nat.eqb n 1) eqn:E1.
          - pose proof (nl_zero_val NL) as Z0. unfold neqb in Z0. apply andb_true_iff in Z0 as [Z0 Z1].
            split; [easy|]. apply (ol_trans OL) with (nofZ O 0); [easy|]. apply (ol_Z OL). lia.
          - apply Nat.eqb_neq in E1. fold n in Hb.
            assert (B0 : (Z.abs 0 <= 2 ^ 50)%Z) by now vm_compute.
            destruct (@nl_back _ _ NL 0%Z (Z.of_nat n - 1)%Z (Z.of_nat j)) as (_ & Q); auto; lia. }
        intros xs Hne Hx. pose proof (in_dim_cats Hx) as Hi.
        destruct (label_indices Hw Hi) as (is & His & Hr).
        pose proof (index_of_all (label_order_distinct Hh Hd) His) as Eis.
        assert (Zp : (0 < 2 ^ 50)%Z) by now vm_compute.
        assert (Hn0 : n <> 0) by (unfold n; now destruct (c_cats c)).
        assert (T : dim_transform O (DCat c) xs = Ok (A1 (map (fun v => VFloat (q (index_of (label_order (O:=O) (c_cats c)) v))) xs))).
        { unfold dim_transform, dim_transformer, cat_transformer. rewrite K.
          pose proof (label_transform_ok Hw His) as T. cbn [transform] in *. rewrite T. cbn [bind as_A1].
          unfold label_nums. rewrite <- (map_map Z.of_nat (@VInt N)), nums_VInt. cbn [bind]. fold n.
          assert (Hz : Forall (fun z => (0 <= z <= Z.of_nat n - 1)%Z) (map Z.of_nat is)).
          { apply Forall_map. eapply Forall_impl; [|exact Hr]. simpl. intros; unfold n; lia. }
          destruct (Nat.eq_dec n 1) as [E1|E1].
          - rewrite E1 in *. change (Z.of_nat 1 - 1)%Z with 0%Z in *.
            rewrite (norm_zero_transform OL NL).
            2:{ eapply Forall_impl; [|exact Hz]; simpl; intros; lia. }
            cbn [bind]. rewrite Eis, !map_map. unfold q. rewrite E1. reflexivity.
          - rewrite (norm_ints_transform OL IL NL); auto; try lia; [|unfold n in *; lia..].
            cbn [bind]. rewrite Eis, !map_map. unfold q. apply Nat.eqb_neq in E1. now rewrite E1. }
        split; [|split].
        * eexists. split; [exact T|]. simpl. now rewrite map_map.
        * apply Forall_forall. intros v _. split; [simpl; now rewrite K|]. repeat constructor. now eexists.
        * intros rows F. unfold arrange. cbn [tsize]. rewrite K. cbn [Nat.eqb].
          destruct (cat_roundtrip OL IL NL (xs := xs) Hw Hb) as (a & Ha & Hia); auto; [congruence|].
          rewrite T in Ha. injection Ha as <-. rewrite <- Hia. symmetry. apply dim_inverse_cong.
          -- simpl. now rewrite K.
          -- simpl. erewrite (@nums_sing_concat _ (fun v => VFloat (q (index_of (label_order (O:=O) (c_cats c)) v)))); eauto.
             apply Forall_forall. intros v _. now eexists.
          -- exists (map (fun v => q (index_of (label_order (O:=O) (c_cats c)) v)) xs).
             rewrite <- map_map with (g := @VFloat N). apply nums_VFloat.
      + eexists. split; [now apply rt_onehot|]. intros _ v Hv. cbn [tbounds tsize]. rewrite K.
        assert (Hn : length (c_cats c) <> 0) by (destruct Hw as (Hne & _); now destruct (c_cats c)).
        pose proof (hot_row_within (index_of (c_cats c) v) Hn) as W.
        destruct (length (c_cats c)) as [|[|[|]]]; exact W.
      + (* label *)
        pose proof Hw as (Hnc & Hh & Hd).
        exists (fun v => [VInt (Z.of_nat (index_of (label_order (O:=O) (c_cats c)) v))]).
        split; [|intros HK; now elim HK].
        intros xs Hne Hx. pose proof (in_dim_cats Hx) as Hi.
        destruct (label_indices Hw Hi) as (is & His & Hr).
        pose proof (index_of_all (label_order_distinct Hh Hd) His) as Eis.
        assert (T : dim_transform O (DCat c) xs = Ok (A1 (map (fun v => VInt (Z.of_nat (index_of (label_order (O:=O) (c_cats c)) v))) xs))).
        { unfold dim_transform, dim_transformer, cat_transformer. rewrite K.
          rewrite (label_transform_ok Hw His). unfold label_nums. now rewrite Eis, map_map. }
        split; [|split].
        * eexists. split; [exact T|]. simpl. now rewrite map_map.
        * apply Forall_forall. intros v _. split; [simpl; now rewrite K|]. repeat constructor. now eexists.
        * intros rows F. unfold arrange. cbn [tsize]. rewrite K. cbn [Nat.eqb].
          destruct (cat_roundtrip OL IL NL (xs := xs) Hw Hb) as (a & Ha & Hia); auto; [congruence|].
          rewrite T in Ha. injection Ha as <-. rewrite <- Hia. symmetry. apply dim_inverse_cong.
          -- simpl. now rewrite K.
          -- simpl. erewrite (@nums_sing_concat _ (fun v => VInt (Z.of_nat (index_of (label_order (O:=O) (c_cats c)) v)))); eauto.
             apply Forall_forall. intros v _. now eexists.
          -- exists (map (nofZ O) (map (fun v => Z.of_nat (index_of (label_order (O:=O) (c_cats c)) v)) xs)).
             rewrite <- map_map with (g := @VInt N). apply nums_VInt.
  Qed.

  Lemma exact_round_trips d : exact_dim O d -> exists g, rt_with d g.
  Proof. intros H. destruct (exact_round_trips_bounded H) as (g & Hg & _). eauto. Qed.

  (** *** C07 *)
  Lemma within_as_float bs row : within bs row -> within bs (map (as_float O) row).
  Proof.
    unfold within. induction 1 as [|b x bs row (y & Hy & B) H IH]; simpl; constructor; auto.
    exists y. split; [|easy]. unfold as_float. now rewrite Hy.
  Qed.

  Lemma rows_within dims gs p :
    Forall2 (fun d g => forall v, in_dim O d v -> within (tbounds O d) (g v)) dims gs ->
    in_space O dims p -> within (space_tbounds O dims) (rowof gs p).
  Proof.
    intros F. revert p. induction F as [|d g dims gs Hg F IH]; intros p Hp; inversion Hp as [|? v ? p' Hv Hp']; subst; simpl.
    - constructor.
    - apply Forall2_app; [now apply Hg|now apply IH].
  Qed.

  Lemma space_within (Q : dim N -> Prop) dims P :
    (forall d, Q d -> exists g, tr_with d g /\ forall v, in_dim O d v -> within (tbounds O d) (g v)) ->
    dims <> [] -> Forall Q dims -> P <> [] -> Forall (in_space O dims) P ->
    exists Xt, space_transform O dims P = Ok Xt /\ length Xt = length P /\
      Forall (within (space_tbounds O dims)) Xt.
  Proof.
    intros HQ Hd He Hne HP.
    assert (exists gs, Forall2 tr_with dims gs /\
              Forall2 (fun d g => forall v, in_dim O d v -> within (tbounds O d) (g v)) dims gs) as (gs & F & B).
    { clear -He HQ. induction He as [|d dims Hd He (gs & F & B)]; [now exists []|].
      destruct (HQ _ Hd) as (g & Hg & Hb). exists (g :: gs). split; now constructor. }
    exists (map (fun p => map (as_float O) (rowof gs p)) P).
    split; [now apply space_transform_rows|]. split; [now rewrite map_length|].
    apply Forall_map. eapply Forall_impl; [|exact HP]. intros p Hp. apply within_as_float. now apply rows_within.
  Qed.

  (** *** C05 *)
  Notation warped_by := (SpaceSpec.warped_by (O:=O)).

  Lemma space_roundtrip_of (Q : dim N -> Prop) dims P : (forall d, Q d -> exists g, rt_with d g) ->
    dims <> [] -> Forall Q dims -> P <> [] ->
    Forall (in_space O dims) P ->
    exists Xt, space_transform O dims P = Ok Xt /\ length Xt = length P /\
      Forall2 (fun p row => length row = t_n_dims dims /\
         exists parts, Forall2 (fun dv part => warped_by (fst dv) (snd dv) part /\ length part = tsize (fst dv))
                               (combine dims p) parts /\
           row = concat parts) P Xt /\
      space_inverse O dims Xt = Ok P.
  Proof.
    intros HQ Hd He Hne HP.
    assert (exists gs, Forall2 rt_with dims gs) as [gs F].
    { clear -He HQ. induction He as [|d dims Hd He [gs IH]]; [now exists []|].
      destruct (HQ _ Hd) as [g Hg]. exists (g :: gs). now constructor. }
    exists (map (fun p => map (as_float O) (rowof gs p)) P).
    split; [apply space_transform_rows; auto using rt_tr|]. split; [now rewrite map_length|].
    split; [|now apply space_roundtrip_with].
    clear Hne. induction HP as [|p P Hp HP IH]; simpl; constructor; auto.
    split.
    - rewrite map_length. now apply (rowof_numeric (rt_tr F)).
    - clear -F Hp. revert p Hp. induction F as [|d g dims gs Hg F IHF]; intros p Hp; inversion Hp as [|? v ? p' Hv Hp']; subst.
      + exists []. split; [constructor|easy].
      + destruct (IHF p' Hp') as (parts & Hparts & E).
        destruct (Hg [v]) as ((a & Ha & Hr) & Hs & _); [easy|now constructor|].
        exists (map (as_float O) (g v) :: parts). simpl. split.
        * constructor; [|easy]. simpl. split; [exists a, (g v); now rewrite Hr|].
          inversion Hs as [|? ? [Hl _] _]; subst. now rewrite map_length.
        * now rewrite map_app, E.
  Qed.

  Lemma space_exact_roundtrip dims P : dims <> [] -> Forall (exact_dim O) dims -> P <> [] ->
    Forall (in_space O dims) P ->
    exists Xt, space_transform O dims P = Ok Xt /\ length Xt = length P /\
      Forall2 (fun p row => length row = t_n_dims dims /\
         exists parts, Forall2 (fun dv part => warped_by (fst dv) (snd dv) part /\ length part = tsize (fst dv))
                               (combine dims p) parts /\
           row = concat parts) P Xt /\
      space_inverse O dims Xt = Ok P.
  Proof. apply space_roundtrip_of. exact exact_round_trips. Qed.
End SpaceLemmas.
