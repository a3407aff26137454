(** Undoing the normalisation of a design: points of the space, one per row, and the space put back as it was. *)
From Coq Require Import String List ZArith Bool Lia Permutation.
From Verif Require Import Base BaseLemmas Num Values Transformers Dimension Space NumLaws NormLaws SpaceSpec
  DimLemmas CatLemmas RoundTrip SpaceLemmas Sampler.
Import ListNotations.
Open Scope list_scope.
Set Implicit Arguments.
Local Arguments Z.pow : simpl never.

Section Warp.
  Context {N : Type} {O : numops N} (OL : order_laws O) (IL : int_laws O) (NL : norm_laws O).
  Context (cast64 : forall x, ncast O DT64 x = x).
  (** What is known of the entries of the design. *)
  Context (ok : N -> Prop) (M : Z) (HM : (M < 2 ^ 50)%Z).
  Context (ok_unit : forall z, ok z -> unit_range (O:=O) z = true).
  Context (ok_label : forall m z, (0 <= m <= M)%Z -> ok z ->
     (0 <= ntoint O (nround O (nadd O (nmul O z (nsub O (nofZ O m) (nofZ O 0))) (nofZ O 0))) <= m)%Z).

  (** A dimension all of whose normalised values un-warp to numbers; a category list that is not too long. *)
  Definition warpable (d : dim N) : Prop :=
    wf_dim O d /\
    match d with
    | DReal r => forall z, ok z -> nisnan O (unwarp O (r_low r) (r_high r) (r_base r) (r_prior r) KNormalize z) = false
    | DInt i => forall z, ok z ->
        nisnan O (unwarp O (nofZ O (i_low i)) (nofZ O (i_high i)) (i_base i) (i_prior i) KNormalize z) = false
    | DCat c => (Z.of_nat (length (c_cats c)) - 1 <= M)%Z
    end.

  Definition normalised (d : dim N) : dim N :=
    match d with
    | DReal r => DReal (mkReal (r_low r) (r_high r) (r_prior r) (r_base r) KNormalize (r_name r) (r_dtype r))
    | DInt i => DInt (mkInt (i_low i) (i_high i) (i_prior i) (i_base i) KNormalize (i_name i) (i_dtype i))
    | DCat c => DCat (mkCat (c_cats c) (c_prior c) KNormalize (c_name c))
    end.
  Lemma set_kinds_normalize dims : set_kinds_all KNormalize dims = Ok (map normalised dims).
  Proof. unfold set_kinds_all. induction dims as [|d dims IH]; [reflexivity|]. cbn [mapM map]. destruct d; cbn [set_kind bind]; rewrite IH; reflexivity. Qed.
  Lemma set_kinds_back dims : Forall (wf_dim O) dims -> set_kinds (get_kinds dims) (map normalised dims) = Ok dims.
  Proof.
    induction 1 as [|d dims Hd _ IH]; [reflexivity|]. cbn [get_kinds map set_kinds]. fold (get_kinds dims).
    destruct d as [[]|[]|[]]; cbn in Hd |- *.
    - destruct Hd as (_ & _ & Hk). cbn in Hk. destruct Hk as [-> | ->]; cbn [set_kind bind]; rewrite IH; reflexivity.
    - destruct Hd as (_ & _ & _ & _ & Hk). cbn in Hk. destruct Hk as [-> | ->]; cbn [set_kind bind]; rewrite IH; reflexivity.
    - cbn [set_kind bind]. rewrite IH. reflexivity.
  Qed.

  Lemma wf_normalised d : wf_dim O d -> wf_dim O (normalised d).
  Proof.
    destruct d as [r|i|c]; cbn.
    - intros (A & B & _). split; [exact A|]. split; [exact B|now right].
    - intros (A & B & C & D & _). split; [exact A|]. split; [exact B|]. split; [exact C|]. split; [exact D|now right].
    - exact (fun H => H).
  Qed.
  Lemma in_normalised d v : in_dim O (normalised d) v -> in_dim O d v.
  Proof. destruct d; intro H; inversion H; subst; constructor; assumption. Qed.

  Lemma cat_column c zs : wf_cat O c -> (Z.of_nat (length (c_cats c)) - 1 <= M)%Z -> Forall ok zs ->
    exists vs, dim_inverse O (normalised (DCat c)) (A1 (map (@VFloat N) zs)) = Ok vs /\
      length vs = length zs /\ Forall (in_dim O (DCat c)) vs.
  Proof.
    intros Hw Hn Hf. pose proof Hw as (Hne & Hh & Hd). unfold dim_inverse, normalised.
    set (m := (Z.of_nat (length (c_cats c)) - 1)%Z).
    assert (Hm : (0 <= m)%Z) by (unfold m; destruct (c_cats c); [contradiction|]; simpl length; lia).
    unfold cat_transformer. cbn [Dimension.c_kind Dimension.c_cats inverse_transform as_A1 bind].
    rewrite nums_VFloat. cbn [bind]. rewrite normalize_inverse_eq.
    assert (B : forallb (unit_range (O:=O)) zs = true).
    { apply forallb_forall. rewrite Forall_forall in Hf. intros z Hz. now apply ok_unit, Hf. }
    rewrite B. cbn [bind as_A1].
    change (Z.of_nat (length (c_cats c)) - 1)%Z with m.
    rewrite <- map_map with (f := fun x => ntoint O (nround O (nadd O (nmul O x (nsub O (nofZ O m) (nofZ O 0))) (nofZ O 0)))) (g := @VInt N).
    set (is := map (fun x => ntoint O _) zs).
    assert (His : Forall (fun z => (0 <= z <= m)%Z) is).
    { unfold is. apply Forall_map. eapply Forall_impl; [|exact Hf]. intros z Hz. apply ok_label; [unfold m; lia|exact Hz]. }
    assert (Hil : length is = length zs) by (unfold is; now rewrite map_length).
    clearbody is. clear Hf B.
    pose proof (Permutation_sym (@label_order_perm _ O (c_cats c) Hh Hd)) as Pm.
    assert (X : exists xs, Forall2 (fun v i => nth_error (label_order (O:=O) (c_cats c)) i = Some v) xs (map Z.to_nat is) /\ incl xs (c_cats c)).
    { clear Hil. induction His as [|z is Hz His IH]; [exists []; split; [constructor|easy]|].
      destruct IH as (xs & Hx & Hi).
      assert (Lt : Z.to_nat z < length (label_order (O:=O) (c_cats c))).
      { rewrite (Permutation_length Pm). unfold m in Hz. lia. }
      destruct (nth_error (label_order (O:=O) (c_cats c)) (Z.to_nat z)) as [v|] eqn:E.
      - exists (v :: xs). split; [constructor; auto|]. intros w [<-|Hw']; [|auto].
        apply (Permutation_in _ Pm). now apply nth_error_In in E.
      - apply nth_error_None in E. lia. }
    destruct X as (xs & Hx & Hi).
    assert (Hb : (Z.of_nat (length (c_cats c)) <= 2 ^ 50)%Z) by (unfold m in Hm; lia).
    pose proof (@label_inverse_all _ O OL IL c xs (map Z.to_nat is) (map (@VInt N) is) Hw Hb Hx) as E.
    cbn [inverse_transform as_A1 bind] in E. rewrite E.
    - cbn [bind as_A1]. exists xs. split; [apply f_equal; exact (np_asarray_cats Hw Hi)|].
      split; [apply Forall2_len in Hx; rewrite map_length in Hx; transitivity (length is); [exact Hx|exact Hil]|].
      apply Forall_forall. intros v Hv. constructor. now apply Hi.
    - clear -His. induction His as [|z is Hz His IH]; constructor; auto. simpl. f_equal. f_equal. lia.
  Qed.

  Lemma dim_column d zs : warpable d -> Forall ok zs ->
    exists vs, dim_inverse O (normalised d) (A1 (map (@VFloat N) zs)) = Ok vs /\
      length vs = length zs /\ Forall (in_dim O d) vs.
  Proof.
    intros [Hw Hd] Hf. destruct (is_cat d) eqn:Hc.
    - destruct d as [r|i|c]; try discriminate Hc. now apply cat_column.
    - assert (Hc' : is_cat (normalised d) = false) by now destruct d.
      destruct (@inverse_total _ O (normalised d) zs Hc') as [vs E].
      { intros _. eapply Forall_impl; [|exact Hf]. exact ok_unit. }
      exists vs. split; [exact E|].
      destruct (@inverse_in_dim _ O OL IL cast64 (normalised d) _ vs (wf_normalised _ Hw) Hc' E) as [Hl Hin].
      rewrite map_length in Hl. split; [exact Hl|]. apply Forall_forall. intros v Hv. apply In_nth_error in Hv. destruct Hv as [k Hk].
      assert (Lt : k < length zs) by (rewrite <- Hl; apply nth_error_Some; congruence).
      destruct (nth_error zs k) as [z|] eqn:Ez; [|apply nth_error_None in Ez; lia].
      assert (Oz : ok z) by (apply nth_error_In in Ez; rewrite Forall_forall in Hf; now apply Hf).
      apply in_normalised. destruct d as [r|i|c]; [| |discriminate Hc].
      + eapply Hin; [rewrite nth_error_map, Ez; reflexivity|exact Hk|reflexivity|reflexivity|]. cbn. now apply Hd.
      + eapply Hin; [rewrite nth_error_map, Ez; reflexivity|exact Hk|reflexivity|reflexivity|]. cbn. now apply Hd.
  Qed.

  Lemma tsize_normalised d : tsize (normalised d) = 1.
  Proof. now destruct d. Qed.

  Lemma column_as_values (h : list (list N)) j n : Forall (fun r => length r = n) h -> j < n ->
    exists zs, column j (as_values h) = Ok (map (@VFloat N) zs) /\ length zs = length h /\
      forall z, In z zs -> exists r, In r h /\ In z r.
  Proof.
    intros Hh Hj. induction Hh as [|r h Hr _ IH]; [exists []; repeat split; contradiction|].
    destruct IH as (zs & E & Hl & Hin).
    destruct (nth_error r j) as [z|] eqn:Ez; [|apply nth_error_None in Ez; lia].
    exists (z :: zs). unfold column, as_values in *. cbn [map mapM]. rewrite nth_error_map, Ez. cbn [option_map bind].
    rewrite E. cbn [bind map]. split; [reflexivity|]. split; [simpl; lia|].
    intros w [<-|Hw]; [exists r; split; [now left|now apply nth_error_In in Ez]|].
    destruct (Hin w Hw) as (r' & ? & ?). exists r'. split; [now right|assumption].
  Qed.

  Lemma columns_ok dims : Forall warpable dims -> forall (h : list (list N)) n start,
    Forall (fun r => length r = n) h -> Forall (Forall ok) h -> start + length dims <= n ->
    exists cs, inverse_columns O (map normalised dims) start (as_values h) = Ok cs /\
      Forall2 (fun d c => length c = length h /\ Forall (in_dim O d) c) dims cs.
  Proof.
    induction 1 as [|d dims Hd _ IH]; intros h n start Hh Hok Hn.
    - exists []. split; [reflexivity|constructor].
    - cbn [map inverse_columns]. rewrite tsize_normalised. cbn [Nat.eqb]. simpl length in Hn.
      destruct (@column_as_values h start n Hh ltac:(lia)) as (zs & E & Hl & Hin). rewrite E. cbn [bind].
      destruct (@dim_column d zs Hd) as (vs & Ev & Hlv & Hv).
      { apply Forall_forall. intros z Hz. destruct (Hin z Hz) as (r & Hr & Hzr).
        rewrite Forall_forall in Hok. specialize (Hok r Hr). rewrite Forall_forall in Hok. now apply Hok. }
      rewrite Ev. cbn [bind]. destruct (IH h n (start + 1) Hh Hok ltac:(lia)) as (cs & Ec & Hcs).
      rewrite Ec. cbn [bind]. exists (vs :: cs). split; [reflexivity|]. constructor; [|exact Hcs].
      split; [congruence|exact Hv].
  Qed.

  (** Columns to points. *)
  Lemma points_of_columns dims cs n : Forall2 (fun d c => length c = n /\ Forall (in_dim O d) c) dims cs ->
    exists P, cs = columns (length dims) P /\ length P = n /\ Forall (in_space O dims) P.
  Proof.
    induction 1 as [|d c dims cs [Hl Hc] _ IH].
    - exists (repeat [] n). split; [reflexivity|]. split; [apply repeat_length|].
      apply Forall_forall. intros p Hp. apply repeat_spec in Hp as ->. constructor.
    - destruct IH as (P & -> & HP & HS).
      exists (map (fun vp => fst vp :: snd vp) (combine c P)).
      assert (M1 : map (fun p => hd VNone p) (map (fun vp : _ * _ => fst vp :: snd vp) (combine c P)) = c).
      { rewrite map_map. simpl. clear -Hl HP. subst n. revert P HP. induction c as [|v vs IH]; intros [|p P] H; simpl in *; try easy.
        f_equal. apply IH. lia. }
      assert (M2 : map (fun p : list _ => tl p) (map (fun vp : pyval N * _ => fst vp :: snd vp) (combine c P)) = P).
      { rewrite map_map. simpl. clear -Hl HP. subst n. revert P HP. induction c as [|v vs IH]; intros [|p P] H; simpl in *; try easy.
        f_equal. apply IH. lia. }
      split; [|split].
      + cbn [columns length]. now rewrite M1, M2.
      + rewrite map_length, combine_length. lia.
      + apply Forall_map. apply Forall_forall. intros [v p] Hin. simpl. constructor.
        * apply in_combine_l in Hin. rewrite Forall_forall in Hc. auto.
        * apply in_combine_r in Hin. rewrite Forall_forall in HS. exact (HS _ Hin).
  Qed.

  Lemma warp_design_ok dims h : dims <> [] -> Forall warpable dims ->
    Forall (fun r => length r = length dims) h -> Forall (Forall ok) h ->
    exists pts, warp_design O dims (Ok h) = (dims, Ok pts) /\ length pts = length h /\ Forall (in_space O dims) pts.
  Proof.
    intros Hne Hw Hl Hok. unfold warp_design. rewrite set_kinds_normalize. cbn [bind].
    destruct (@columns_ok dims Hw h (length dims) 0 Hl Hok ltac:(lia)) as (cs & E & Hcs).
    destruct (@points_of_columns dims cs (length h) Hcs) as (P & -> & HP & HS).
    unfold space_inverse. rewrite E. cbn [bind]. rewrite transpose_columns.
    - rewrite set_kinds_back by (eapply Forall_impl; [|exact Hw]; now intros d []).
      exists P. now repeat split.
    - now destruct dims.
    - eapply Forall_impl; [|exact HS]. intros p. apply in_space_length.
  Qed.

  (** Whatever the design, if points are returned then the space is as it was. *)
  Lemma warp_design_back dims h dims' pts : Forall (wf_dim O) dims -> warp_design O dims h = (dims', Ok pts) -> dims' = dims.
  Proof.
    intros Hw. unfold warp_design. rewrite set_kinds_normalize. destruct (bind h _) as [P|e]; [|discriminate].
    rewrite set_kinds_back by exact Hw. now intros [= <- _].
  Qed.
End Warp.
