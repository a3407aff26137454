(** Un-warping a warped space when the values come back changed (C05 in float64). *)
From Coq Require Import String List ZArith Bool Lia.
From Verif Require Import Base BaseLemmas Num Values Transformers Dimension Space NumLaws NormLaws SpaceSpec
  DimLemmas CatLemmas RoundTrip SpaceLemmas.
Import ListNotations.
Open Scope list_scope.
Set Implicit Arguments.
Local Arguments Z.pow : simpl never.

Section SpaceNear.
  Context {N : Type} {O : numops N}.
  Notation val := (pyval N).
  Notation warped_by := (SpaceSpec.warped_by (O:=O)).
  Notation numeric := (numeric (O:=O)).
  Notation tr_with := (tr_with (O:=O)).
  Notation rt_with := (rt_with (O:=O)).

  (** [g] warps one value, and un-warping numerically equal rows gives [k] of the values. *)
  Definition back_with (d : dim N) (g : val -> list val) (k : val -> val) : Prop :=
    forall xs, xs <> [] -> Forall (in_dim O d) xs ->
      (exists a, dim_transform O d xs = Ok a /\ rows_of a = map g xs) /\
      Forall (fun x => length (g x) = tsize d /\ Forall numeric (g x)) xs /\
      (forall rows, Forall2 (fun x r => nums O r = nums O (g x)) xs rows ->
         dim_inverse O d (arrange (tsize d) rows) = Ok (map k xs)).
  Lemma rt_back d g : rt_with d g -> back_with d g (fun v => v).
  Proof. intros H xs Hne Hx. destruct (H xs Hne Hx) as (A & B & C). split; [exact A|]. split; [exact B|]. intros rows F. rewrite map_id. now apply C. Qed.

  Inductive backs : list (dim N) -> list (val -> list val) -> list (val -> val) -> Prop :=
  | backs_nil : backs [] [] []
  | backs_cons d g k dims gs ks : back_with d g k -> backs dims gs ks -> backs (d :: dims) (g :: gs) (k :: ks).
  Lemma backs_tr dims gs ks : backs dims gs ks -> Forall2 tr_with dims gs.
  Proof. induction 1 as [|d g k dims gs ks H F IH]; constructor; [|exact IH]. intros xs Hne Hx. now destruct (H xs Hne Hx) as (H1 & H2 & _). Qed.

  Fixpoint image (ks : list (val -> val)) (p : list val) : list val :=
    match ks, p with
    | k :: ks', v :: p' => k v :: image ks' p'
    | _, _ => []
    end.
  Lemma image_length dims gs ks p : backs dims gs ks -> in_space O dims p -> length (image ks p) = length dims.
  Proof. intros F. revert p. induction F as [|d g k dims gs ks H F IH]; intros p Hp; inversion Hp; subst; [reflexivity|]. cbn. f_equal. now apply IH. Qed.

  Lemma inverse_columns_back dims gs ks : backs dims gs ks -> forall P start Xt,
    P <> [] -> Forall (in_space O dims) P ->
    Forall2 (fun p r => exists pre, length pre = start /\ r = pre ++ map (as_float O) (rowof gs p)) P Xt ->
    inverse_columns O dims start Xt = Ok (columns (length dims) (map (image ks) P)).
  Proof.
    intros F. induction F as [|d g k dims gs ks Hg F IH]; intros P start Xt Hne HP HX; [easy|].
    set (hds := map (fun p => hd VNone p) P). set (tls := map (fun p => tl p) P).
    assert (Hh : Forall (in_dim O d) hds).
    { apply Forall_map. eapply Forall_impl; [|exact HP]. intros p Hp. now inversion Hp. }
    assert (Ht : Forall (in_space O dims) tls).
    { apply Forall_map. eapply Forall_impl; [|exact HP]. intros p Hp. now inversion Hp. }
    destruct (Hg hds) as (_ & Hsz & Hinv); [unfold hds; now destruct P|easy|].
    (* the block of this dimension *)
    assert (HB : Forall2 (fun x r => firstn (tsize d) (skipn start r) = map (as_float O) (g x)) hds Xt).
    { clear Hinv. unfold hds in *. clear hds tls Ht Hne. induction HX as [|p r P Xt (pre & Hpre & ->) HX IHX]; [constructor|].
      inversion HP as [|? ? Hp HP']; subst. simpl in *. inversion Hh; subst. inversion Hsz as [|? ? [Hl _] Hsz']; subst.
      constructor; [|now apply IHX].
      inversion Hp as [|? v ? p' Hv Hp']; subst. simpl in *.
      rewrite map_app, skipn_app, skipn_all, Nat.sub_diag. simpl.
      rewrite firstn_app, map_length, Hl, Nat.sub_diag. simpl. rewrite app_nil_r.
      apply firstn_all2. rewrite map_length. lia. }
    assert (HI : dim_inverse O d (arrange (tsize d) (map (fun r => firstn (tsize d) (skipn start r)) Xt)) = Ok (map k hds)).
    { apply Hinv. clear -HB. induction HB as [|x r hds Xt Hx HB IHB]; simpl; constructor; auto.
      rewrite Hx. apply nums_as_float. }
    assert (HC : (if Nat.eqb (tsize d) 1 then (l <- column start Xt ;; dim_inverse O d (A1 l))
            else dim_inverse O d (A2 (block start (tsize d) Xt))) = Ok (map k hds)).
    { unfold arrange in HI. destruct (Nat.eqb (tsize d) 1) eqn:E; [|exact HI].
      apply Nat.eqb_eq in E. rewrite E in *.
      assert (Hcol : column start Xt = Ok (concat (map (fun r => firstn 1 (skipn start r)) Xt))).
      { clear -HB Hsz. unfold column. induction HB as [|x r hds Xt Hx HB IHB]; [easy|].
        inversion Hsz as [|? ? [Hl _] Hsz']; subst. simpl.
        assert (Hs : exists w s, skipn start r = w :: s).
        { destruct (skipn start r) as [|w s]; [|eauto]. simpl in Hx.
          apply (f_equal (@length val)) in Hx. rewrite map_length, Hl in Hx. easy. }
        destruct Hs as (w & s & Hs). rewrite Hs. simpl.
        assert (Hn : nth_error r start = Some w).
        { rewrite <- (firstn_skipn start r), Hs. 
          assert (Lr : length (firstn start r) = start).
          { apply firstn_length_le. pose proof (skipn_length start r) as L. rewrite Hs in L. simpl in L. lia. }
          rewrite nth_error_app2 by lia. now rewrite Lr, Nat.sub_diag. }
        rewrite Hn. simpl. rewrite IHB by easy. easy. }
      rewrite Hcol. exact HI. }
    cbn [inverse_columns length columns]. rewrite HC. cbn [bind].
    assert (E1 : map (fun p => hd VNone p) (map (image (k :: ks)) P) = map k hds).
    { unfold hds. rewrite !map_map. apply map_ext_in. intros p Hp. rewrite Forall_forall in HP. specialize (HP _ Hp). now inversion HP. }
    assert (E2 : map (fun p => tl p) (map (image (k :: ks)) P) = map (image ks) tls).
    { unfold tls. rewrite !map_map. apply map_ext_in. intros p Hp. rewrite Forall_forall in HP. specialize (HP _ Hp). now inversion HP. }
    rewrite E1, E2. rewrite (IH tls); [easy| |easy|].
    - unfold tls. now destruct P.
    - clear -HX HP Hsz. unfold tls, hds in *. clear hds tls.
      induction HX as [|p r P Xt (pre & Hpre & ->) HX IHX]; [constructor|].
      inversion HP as [|? ? Hp HP']; subst. simpl in *. inversion Hsz as [|? ? [Hl _] Hsz']; subst.
      constructor; [|now apply IHX].
      inversion Hp as [|? v ? p' Hv Hp']; subst. simpl in *.
      exists (pre ++ map (as_float O) (g v)). rewrite app_length, map_length, Hl. split; [easy|].
      now rewrite map_app, app_assoc.
  Qed.

  Lemma space_back_with dims gs ks P : dims <> [] -> backs dims gs ks -> P <> [] ->
    Forall (in_space O dims) P ->
    space_inverse O dims (map (fun p => map (as_float O) (rowof gs p)) P) = Ok (map (image ks) P).
  Proof.
    intros Hd F Hne HP. unfold space_inverse.
    rewrite (@inverse_columns_back dims gs ks F P 0); auto.
    - cbn [bind]. apply transpose_columns; [now destruct dims|].
      apply Forall_map. eapply Forall_impl; [|exact HP]. intros p Hp. rewrite (image_length F Hp). reflexivity.
    - clear. induction P as [|p P IH]; simpl; constructor; auto. now exists [].
  Qed.


  Lemma space_back_of (near : dim N -> val -> val -> Prop) (Q : dim N -> Prop) dims P :
    (forall d, Q d -> exists g k, back_with d g k /\ forall v, in_dim O d v -> near d v (k v)) ->
    dims <> [] -> Forall Q dims -> P <> [] -> Forall (in_space O dims) P ->
    exists Xt P', space_transform O dims P = Ok Xt /\ length Xt = length P /\
      Forall2 (fun p row => length row = t_n_dims dims /\
         exists parts, Forall2 (fun dv part => warped_by (fst dv) (snd dv) part /\ length part = tsize (fst dv))
                               (combine dims p) parts /\
           row = concat parts) P Xt /\
      space_inverse O dims Xt = Ok P' /\
      Forall2 (fun p p' => Forall2 (fun dv w => near (fst dv) (snd dv) w) (combine dims p) p') P P'.
  Proof.
    intros HQ Hd He Hne HP.
    assert (exists gs ks, backs dims gs ks /\ forall p, in_space O dims p -> Forall2 (fun dv w => near (fst dv) (snd dv) w) (combine dims p) (image ks p)) as (gs & ks & F & HN).
    { clear -He HQ. induction He as [|d dims Hd He (gs & ks & F & HN)].
      - exists [], []. split; [constructor|]. intros p Hp. inversion Hp; subst. constructor.
      - destruct (HQ _ Hd) as (g & k & Hg & Hk). exists (g :: gs), (k :: ks). split; [now constructor|].
        intros p Hp. inversion Hp as [|? v ? p' Hv Hp']; subst. cbn [combine image]. constructor; [cbn; now apply Hk|now apply HN]. }
    exists (map (fun p => map (as_float O) (rowof gs p)) P), (map (image ks) P).
    split; [apply space_transform_rows; eauto using backs_tr|]. split; [now rewrite map_length|].
    split; [|split; [now apply space_back_with|]].
    2:{ clear -HP HN. induction HP as [|p P Hp HP IH]; cbn [map]; constructor; auto. }
    clear Hne HN. induction HP as [|p P Hp HP IH]; simpl; constructor; auto.
    split.
    - rewrite map_length. now apply (rowof_numeric (backs_tr F)).
    - clear -F Hp. revert p Hp. induction F as [|d g k dims gs ks Hg F IHF]; intros p Hp; inversion Hp as [|? v ? p' Hv Hp']; subst.
      + exists []. split; [constructor|easy].
      + destruct (IHF p' Hp') as (parts & Hparts & E).
        destruct (Hg [v]) as ((a & Ha & Hr) & Hs & _); [easy|now constructor|].
        exists (map (as_float O) (g v) :: parts). simpl. split.
        * constructor; [|easy]. simpl. split; [exists a, (g v); now rewrite Hr|].
          inversion Hs as [|? ? [Hl _] _]; subst. now rewrite map_length.
        * now rewrite map_app, E.
  Qed.

  (** Numbers warped to numbers. *)
  Lemma back_by_map (d : dim N) (w : val -> N) (k : val -> val) : is_cat d = false ->
    (forall xs, Forall (in_dim O d) xs ->
       dim_transform O d xs = Ok (A1 (map (fun v => VFloat (w v)) xs)) /\
       dim_inverse O d (A1 (map (fun v => VFloat (w v)) xs)) = Ok (map k xs)) ->
    back_with d (fun v => [VFloat (w v)]) k.
  Proof.
    intros Hc HH xs Hne Hx. destruct (HH xs Hx) as [T I].
    assert (Ts : tsize d = 1%nat) by (destruct d; easy).
    split; [|split].
    - eexists. split; [exact T|]. simpl. now rewrite map_map.
    - apply Forall_forall. intros v _. split; [now rewrite Ts|]. repeat constructor. now eexists.
    - intros rows F. unfold arrange. rewrite Ts. cbn [Nat.eqb]. rewrite <- I. symmetry. apply dim_inverse_cong.
      + now destruct d.
      + simpl. erewrite (@nums_sing_concat _ O _ (fun v => VFloat (w v))); eauto.
        apply Forall_forall. intros v _. now eexists.
      + exists (map w xs). rewrite <- map_map with (g := @VFloat N). apply nums_VFloat.
  Qed.
End SpaceNear.
