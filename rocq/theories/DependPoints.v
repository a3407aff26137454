From Coq Require Import String List ZArith Bool Lia Reals Lra.
From Verif Require Import Base BaseLemmas Num Values Transformers Dimension Space NumLaws SpaceSpec CatLemmas SpaceLemmas NormLaws RealLemmas LooseLemmas EachLemmas
  ForestSpec Optimizer Plots PlotSpec PlotLemmas DependSpec DependLemmas.
Import ListNotations.
Open Scope nat_scope.
Open Scope list_scope.
Set Implicit Arguments.

Section Points.
  Notation val := (pyval R).
  Notation gfun := (val -> list val).
  Definition parts_of (gs : list gfun) (p : list val) : list (list val) := map (fun gv => map (as_float Rops) (fst gv (snd gv))) (combine gs p).
  Lemma rowof_parts gs : forall p, map (as_float Rops) (rowof gs p) = concat (parts_of gs p).
  Proof. induction gs as [|g gs IH]; intros [|v p]; try easy. cbn [rowof]. rewrite map_app, IH. reflexivity. Qed.
  Lemma parts_with gs : forall i g v (p : list val), nth_error gs i = Some g -> length p = length gs ->
    parts_of gs (with_part i v p) = with_part i (map (as_float Rops) (g v)) (parts_of gs p).
  Proof.
    induction gs as [|g0 gs IH]; intros [|i] g v [|w p] Hg Hl; cbn in Hg, Hl; try discriminate.
    - injection Hg as ->. reflexivity.
    - injection Hl as Hl. specialize (IH i g v p Hg Hl). unfold parts_of, with_part in *. cbn [firstn skipn app combine map]. f_equal. exact IH.
  Qed.
  Lemma loose_with dims : forall i d v p, nth_error dims i = Some d -> may_draw d v -> loose dims p -> loose dims (with_part i v p).
  Proof.
    induction dims as [|d0 dims IH]; intros [|i] d v p Hd Hv Hp; cbn in Hd; try discriminate; inversion Hp; subst; unfold with_part; cbn.
    - injection Hd as ->. now constructor.
    - constructor; [easy|]. now apply (IH i d).
  Qed.
  Lemma gs_of dims : Forall ideal_dim dims -> exists gs, Forall2 warps dims gs.
  Proof. induction 1 as [|d dims Hd H (gs & F)]; [now exists []|]. destruct (ideal_warps _ Hd) as (g & Hg). exists (g :: gs). now constructor. Qed.
  Lemma parts_split dims gs P : Forall2 warps dims gs -> loose dims P -> split_row dims (concat (parts_of gs P)) (parts_of gs P).
  Proof.
    intros F HP. split; [|easy]. revert P HP. induction F as [|d g dims gs H F IH]; intros P HP; inversion HP as [|? v ? p Hv Hp]; subst; cbn; constructor; [|now apply IH].
    rewrite map_length. destruct (H [v]) as (_ & W); [easy|now constructor|]. inversion W as [|? ? [E _] _]; subst. exact E.
  Qed.
  Lemma warped_unique d g v part : warps d g -> may_draw d v -> warped_by (O:=Rops) d v part -> part = map (as_float Rops) (g v).
  Proof.
    intros H Hv (a & r & E & Er & ->). destruct (H [v]) as ((a' & E' & Er') & _); [easy|now constructor|]. assert (a' = a) by congruence. subst. cbn in Er'. congruence.
  Qed.
  Lemma transform_parts dims gs P : dims <> [] -> Forall2 warps dims gs -> P <> [] -> Forall (loose dims) P ->
    space_transform Rops dims P = Ok (map (fun p => concat (parts_of gs p)) P).
  Proof.
    intros Hd F Hn HP. rewrite (@loose_rows dims gs P Hd F Hn HP). f_equal. apply map_ext. intro p. apply rowof_parts.
  Qed.

  Lemma plotted_in d n xi vals : ideal_dim d -> (forall i, d <> DInt i) -> plotted d n xi vals -> Forall (in_dim Rops d) vals.
  Proof.
    intros Hi Hnot. destruct d as [r|i|c]; [|now specialize (Hnot i)|]; cbn.
    - intros (_ & l & -> & He). destruct Hi as [(Hlt & _) _]. apply Forall_map, Forall_forall. intros x Hx.
      assert (B : (r_low r <= r_high r)%R). { cbn in Hlt. unfold Rltb in Hlt. destruct (Rlt_dec (r_low r) (r_high r)); [lra|discriminate]. }
      destruct (even_bounds _ He B Hx) as [B1 B2]. constructor; cbn; unfold Rleb'; [destruct (Rle_dec (r_low r) x)|destruct (Rle_dec x (r_high r))]; easy.
    - intros (F & _). induction F as [|x v xs vs (k & _ & Hk) F IH]; constructor; [|easy]. constructor. now apply nth_error_In in Hk.
  Qed.
  Lemma plotted_draws d n xi vals : ideal_dim d -> plotted d n xi vals -> Forall (may_draw d) vals.
  Proof.
    intros Hi Hp. destruct d as [r|i|c]; [| |].
    1,3: apply plotted_in in Hp; [|easy|easy]; eapply Forall_impl; [|exact Hp]; intros v Hv; now left.
    destruct Hp as (_ & l & -> & He). destruct Hi as (_ & (Hlh & _) & _). apply IZR_lt in Hlh. apply Forall_map, Forall_forall. intros x Hx. right. exists x. split; [easy|].
    apply (even_bounds _ He); [lra|exact Hx].
  Qed.
  Lemma Forall_nth_ideal dims i d : Forall ideal_dim dims -> nth_error dims i = Some d -> ideal_dim d.
  Proof. intros H Hd. rewrite Forall_forall in H. apply H. now apply nth_error_In in Hd. Qed.

  Variable predict : list (list val) -> res (list R).
  Notation mean_at := (mean_at predict).
  Lemma c59_points dims i d P rows n xi ys : dims <> [] -> Forall ideal_dim dims -> nth_error dims i = Some d -> P <> [] -> Forall (in_space Rops dims) P ->
    space_transform Rops dims P = Ok rows -> partial_dependence_1D Rops predict dims i rows n = Ok (xi, ys) ->
    exists vals, plotted d n xi vals /\ Forall2 (fun v y => mean_at dims (map (with_part i v) P) y) vals ys.
  Proof.
    intros Hne Hi Hd Hn HP0 Ht H. destruct (gs_of Hi) as (gs & F). assert (HP : Forall (loose dims) P) by (eapply Forall_impl; [apply loose_in|exact HP0]). rewrite (transform_parts Hne F Hn HP) in Ht. injection Ht as <-.
    assert (Pl : plottable d). { rewrite Forall_forall in Hi. specialize (Hi d (nth_error_In _ _ Hd)). destruct d; cbn; auto. }
    assert (S : Forall2 (split_row dims) (map (fun p => concat (parts_of gs p)) P) (map (parts_of gs) P)).
    { clear -F HP. induction HP as [|p P Hp HP IH]; cbn; constructor; [|easy]. now apply parts_split. }
    destruct (@c59_1D predict dims i d _ _ n xi ys Hd Pl S H) as (vals & Pv & V). exists vals. split; [easy|].
    assert (D : Forall (may_draw d) vals) by (eapply plotted_draws; [exact (Forall_nth_ideal _ Hi Hd)|exact Pv]).
    clear Pv H. induction V as [|v y vals ys Hv V IH]; [constructor|]. inversion D as [|? ? Hin D']; subst. constructor; [|exact (IH D')].
    destruct Hv as (part & p & W & _ & Ep & ->). destruct (Forall2_nth1 _ F Hd) as (g & Hg & Hrt).
    rewrite (warped_unique Hrt Hin W) in Ep. rewrite map_map in Ep.
    assert (HP' : Forall (loose dims) (map (with_part i v) P)). { apply Forall_map. eapply Forall_impl; [|exact HP]. intros q Hq. now apply loose_with with d. }
    eexists _, p. split; [apply (transform_parts Hne F); [now destruct P|exact HP']|]. split; [|easy]. rewrite map_map. rewrite <- Ep. f_equal. apply map_ext_in.
    intros q Hq. f_equal. apply parts_with; [easy|]. rewrite Forall_forall in HP. rewrite (loose_length (HP q Hq)). symmetry. clear -F. induction F; cbn; congruence.
  Qed.
End Points.
