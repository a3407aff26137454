(** Warping points whose Integer coordinates need not be whole. *)
From Coq Require Import String List ZArith Bool Lia Reals Lra.
From Flocq Require Import Core.Core.
From Verif Require Import Base BaseLemmas Num Values Transformers Dimension Space NumLaws SpaceSpec CatLemmas SpaceLemmas NormLaws DimLemmas RoundTrip RealLemmas.
Import ListNotations.
Open Scope list_scope.
Set Implicit Arguments.

Definition may_draw (d : dim R) (v : pyval R) : Prop :=
  in_dim Rops d v \/ match d with DInt i => exists x, v = VFloat x /\ (IZR (i_low i) <= x <= IZR (i_high i))%R | _ => False end.

Section Loose.
  Notation val := (pyval R).
  Notation numeric := (numeric (O:=Rops)).
  Notation dims_t := (list (dim R)).
  Definition loose (dims : list (dim R)) (p : list val) : Prop := Forall2 may_draw dims p.
  Lemma loose_in dims p : in_space Rops dims p -> loose dims p.
  Proof. intro H. induction H; constructor; [now left|easy]. Qed.
  Lemma loose_length dims p : loose dims p -> length p = length dims.
  Proof. intro H. apply Forall2_len in H. easy. Qed.
  Definition warps (d : dim R) (g : val -> list val) : Prop :=
    forall xs, xs <> [] -> Forall (may_draw d) xs ->
      (exists a, dim_transform Rops d xs = Ok a /\ rows_of a = map g xs) /\
      Forall (fun x => length (g x) = tsize d /\ Forall numeric (g x)) xs.
  Lemma loose_blocks dims gs P : Forall2 warps dims gs -> P <> [] -> Forall (loose dims) P ->
    exists blocks,
      (tcols <- mapM (fun dc => dim_transform Rops (fst dc) (snd dc)) (combine dims (columns (length dims) P)) ;;
       mapM (reshape_rows (length P)) tcols) = Ok blocks /\ length blocks = length dims /\
      hconcat blocks (length P) = map (rowof gs) P.
  Proof.
    intros F. revert P. induction F as [|d g dims gs Hg F IH]; intros P Hne HP.
    - exists []. simpl. repeat split. clear. induction P; simpl; congruence.
    - set (hds := map (fun p => hd VNone p) P). set (tls := map (fun p => tl p) P).
      assert (Hh : Forall (may_draw d) hds).
      { apply Forall_map. eapply Forall_impl; [|exact HP]. intros p Hp. now inversion Hp. }
      assert (Ht : Forall (loose dims) tls).
      { apply Forall_map. eapply Forall_impl; [|exact HP]. intros p Hp. now inversion Hp. }
      destruct (Hg hds) as ((a & Ha & Hrows) & _); [unfold hds; now destruct P|easy|].
      destruct (IH tls) as (blocks & Hb & Hlen & Hc); [unfold tls; now destruct P|easy|].
      assert (Ll : length tls = length P) by (unfold tls; now rewrite map_length).
      rewrite Ll in Hb, Hc.
      apply bind_ok in Hb as (tcols & Htc & Hb).
      exists (map g hds :: blocks). repeat split; simpl.
      + fold hds tls. rewrite Ha. simpl. rewrite Htc. simpl. rewrite Hb.
        unfold reshape_rows. destruct (length P) eqn:E; [now destruct P|]. simpl. now rewrite Hrows.
      + now rewrite Hlen.
      + rewrite Hc. unfold hds, tls. rewrite !map_map.
        rewrite combine_map_self, map_map. apply map_ext_in. intros p Hp.
        rewrite Forall_forall in HP. specialize (HP p Hp). now inversion HP.
  Qed.
  Lemma loose_numeric dims gs p : Forall2 warps dims gs -> loose dims p -> Forall numeric (rowof gs p).
  Proof.
    intros F. revert p. induction F as [|d g dims gs Hg F IH]; intros p Hp; inversion Hp as [|? v ? p' Hv Hp']; subst; simpl; [constructor|].
    destruct (Hg [v]) as (_ & Hn); [easy|now constructor|]. inversion Hn as [|? ? [Hl Hnum] _]; subst. apply Forall_app. split; [easy|now apply IH].
  Qed.
  Lemma loose_rows dims gs P : dims <> [] -> Forall2 warps dims gs -> P <> [] -> Forall (loose dims) P ->
    space_transform Rops dims P = Ok (map (fun p => map (as_float Rops) (rowof gs p)) P).
  Proof.
    intros Hd F Hne HP. unfold space_transform, point.
    rewrite pack_columns. 2:{ eapply Forall_impl; [|exact HP]. intros p. apply loose_length. }
    cbn [bind]. destruct (loose_blocks F Hne HP) as (blocks & Hb & Hlen & Hc).
    apply bind_ok in Hb as (tcols & -> & Hb). cbn [bind]. rewrite Hb. cbn [bind].
    destruct blocks as [|b bs]; [now destruct dims|]. rewrite Hc.
    f_equal. unfold harmonise.
    assert (Hn : Forall numeric (concat (map (rowof gs) P))).
    { apply Forall_concat, Forall_map. eapply Forall_impl; [|exact HP]. intros p Hp. now apply (loose_numeric F). }
    destruct (numeric_types Hn) as [-> ->]. rewrite map_map. reflexivity.
  Qed.
End Loose.

Section Ints.
  Open Scope R_scope.
  Notation val := (pyval R).
  Lemma int_draws i v : may_draw (DInt i) v -> to_num Rops v = Some (numval v) /\ IZR (i_low i) <= numval v <= IZR (i_high i).
  Proof. intros [H|(x & -> & H)]; [|split; [reflexivity|exact H]]. inversion H; subst. cbn. split; [easy|]. split; apply IZR_le; lia. Qed.
  Lemma nums_draws i xs : Forall (may_draw (DInt i)) xs -> nums Rops xs = Ok (map numval xs) /\ Forall (fun x => IZR (i_low i) <= x <= IZR (i_high i)) (map numval xs).
  Proof.
    induction 1 as [|v xs Hv H [E B]]; [split; constructor|]. apply int_draws in Hv. destruct Hv as [Hv Hb]. unfold nums in *. cbn [mapM map]. rewrite Hv. cbn [bind]. rewrite E. split; [easy|now constructor].
  Qed.
  Lemma round_between lo hi x : IZR lo <= x <= IZR hi -> IZR lo <= IZR (ZnearestE x) <= IZR hi.
  Proof.
    intros [A B]. split; apply IZR_le.
    - rewrite <- (@Zrnd_IZR ZnearestE _ lo). now apply Zrnd_le; [apply valid_rnd_N|].
    - rewrite <- (@Zrnd_IZR ZnearestE _ hi). now apply Zrnd_le; [apply valid_rnd_N|].
  Qed.
  Lemma normalize_ints lo hi xs : IZR lo < IZR hi -> Forall (fun x => IZR lo <= x <= IZR hi) xs ->
    normalize_transform Rops (IZR lo) (IZR hi) true xs = Ok (map (fun x => (IZR (Ztrunc (IZR (ZnearestE x))) - IZR lo) / (IZR hi - IZR lo)) xs).
  Proof.
    intros Hlh Hx. unfold normalize_transform. rewrite !existsb_false.
    - assert (E : neqb Rops (nsub Rops (IZR hi) (IZR lo)) (nofZ Rops 0) = false) by (apply Rneqb_false; simpl; lra). rewrite E. reflexivity.
    - eapply Forall_impl; [|exact Hx]. intros x H. apply round_between in H. simpl. apply Rltb_false. lra.
    - eapply Forall_impl; [|exact Hx]. intros x H. apply round_between in H. simpl. apply Rltb_false. lra.
  Qed.
  Lemma int_warps i : ideal_dim (DInt i) -> exists g, warps (DInt i) g.
  Proof.
    intros (_ & Hw & H). pose proof Hw as (Hlh & _ & _ & _ & Hk). apply IZR_lt in Hlh.
    assert (K : forall g : val -> R, (forall xs, Forall (may_draw (DInt i)) xs -> dim_transform Rops (DInt i) xs = Ok (A1 (map (fun v => VFloat (g v)) xs))) -> exists g, warps (DInt i) g).
    { intros g Hg. exists (fun v => [VFloat (g v)]). intros xs _ Hx. split.
      - eexists. split; [now apply Hg|]. cbn. now rewrite map_map.
      - apply Forall_forall. intros v _. split; [easy|]. constructor; [|constructor]. now eexists. }
    unfold dim_transform, dim_transformer, int_transformer in K |- *. destruct Hk as [Hk|Hk]; rewrite Hk in *; destruct (i_prior i) eqn:Hp.
    - exists (fun v => [v]). intros xs _ Hx. split.
      + exists (A1 xs). unfold dim_transform, dim_transformer, int_transformer. rewrite Hk, Hp. split; [easy|]. cbn. reflexivity.
      + eapply Forall_impl; [|exact Hx]. intros v Hv. split; [easy|]. constructor; [|constructor]. apply int_draws in Hv. exists (numval v). easy.
    - apply (K (fun v => logb Rops (i_base i) (numval v))). intros xs Hx. apply nums_draws in Hx. destruct Hx as [E _].
      cbn [transform as_A1 bind]. rewrite E. cbn [bind]. now rewrite map_map.
    - apply (K (fun v => (IZR (Ztrunc (IZR (ZnearestE (numval v)))) - IZR (i_low i)) / (IZR (i_high i) - IZR (i_low i)))). intros xs Hx.
      apply nums_draws in Hx. destruct Hx as [E B]. cbn [transform as_A1 bind]. rewrite E. cbn [bind]. change (nofZ Rops) with IZR. rewrite normalize_ints by easy. cbn [bind]. now rewrite !map_map.
    - apply (K (fun v => (logb Rops (i_base i) (numval v) - logb Rops (i_base i) (IZR (i_low i))) / (logb Rops (i_base i) (IZR (i_high i)) - logb Rops (i_base i) (IZR (i_low i))))).
      intros xs Hx. apply nums_draws in Hx. destruct Hx as [E B]. cbn [transform as_A1 bind]. rewrite E. cbn [bind].
      change (map (fun x : R => VFloat (ndiv Rops (nlog10 Rops x) (nlog10 Rops (i_base i)))) (map numval xs)) with (map (fun x : R => VFloat (logb Rops (i_base i) x)) (map numval xs)).
      rewrite <- (map_map (logb Rops (i_base i)) (@VFloat R)). cbn [as_A1 bind]. rewrite nums_VFloat. cbn [bind].
      pose proof (warp1_range H Hlh B) as W. pose proof (@warp1_mono PLogUniform KNormalize (i_base i) (IZR (i_low i)) (IZR (i_low i)) (IZR (i_high i)) H eq_refl ltac:(lra) Hlh) as D.
      cbn [warp1] in W, D. change (nofZ Rops) with IZR. rewrite normalize_floats by easy. cbn [bind]. now rewrite !map_map.
  Qed.
  Lemma ideal_warps d : ideal_dim d -> exists g, warps d g.
  Proof.
    intro H. destruct d as [r|i|c]; [|now apply int_warps|].
    all: destruct (ideal_round_trips _ H) as (g & Hg); exists g; intros xs Hne Hx.
    all: assert (Hx' : Forall (in_dim Rops _) xs) by (eapply Forall_impl; [|exact Hx]; intros v [Hv|[]]; exact Hv).
    all: destruct (Hg xs Hne Hx') as (A & B & _); easy.
  Qed.
End Ints.
