From Coq Require Import String List ZArith Bool Lia Reals Lra.
From Flocq Require Import Core.Core.
From Verif Require Import Base BaseLemmas Num Values Transformers Dimension Space NumLaws SpaceSpec CatLemmas SpaceLemmas NormLaws RealLemmas LooseLemmas EachLemmas ForestSpec Optimizer Plots
  PlotSpec PlotLemmas DependSpec DependLemmas DependPoints SpaceProps2.
Import ListNotations.
Open Scope nat_scope.
Open Scope list_scope.
Set Implicit Arguments.

Lemma numeric_nums {N} (O : numops N) l : Forall (numeric (O:=O)) l -> exists ys, nums O l = Ok ys.
Proof. induction 1 as [|v l (x & Hv) H (ys & E)]; [now exists []|]. unfold nums in *. cbn [mapM]. rewrite Hv. cbn [bind]. rewrite E. cbn [bind]. eauto. Qed.
Lemma assign_total {N} (O : numops N) (dims : list (dim N)) i d x row parts : split_row dims row parts -> nth_error dims i = Some d -> length x = tsize d -> Forall (numeric (O:=O)) x ->
  exists row', assign O (dim_loc dims i) (dim_loc dims (S i)) x row = Ok row'.
Proof.
  intros [F ->] Hd Hx Hn. rewrite !(dim_loc_len F). destruct (Forall2_nth1 _ F Hd) as (p & Hp & Lp).
  destruct (skipn_nth _ _ Hp) as [S1 S2]. unfold assign. rewrite skipn_cat.
  assert (A : length (concat (firstn (S i) parts)) = length (concat (firstn i parts)) + length p) by (rewrite S2, concat_app, app_length; cbn [concat]; now rewrite app_nil_r).
  replace (length (concat (firstn (S i) parts)) - length (concat (firstn i parts))) with (length p) by lia.
  rewrite S1. cbn [concat]. rewrite firstn_app, firstn_all, Nat.sub_diag, firstn_O, app_nil_r.
  destruct (numeric_nums Hn) as (ys & E). rewrite E. cbn [bind]. pose proof (mapM_length _ _ E) as Ly. rewrite Hx, <- Lp in Ly. rewrite Ly, Nat.eqb_refl. cbn [bind]. eauto.
Qed.
Lemma with_split {N} (dims : list (dim N)) i d (part : list (pyval N)) parts row : split_row dims row parts -> nth_error dims i = Some d -> length part = tsize d ->
  split_row dims (concat (with_part i part parts)) (with_part i part parts).
Proof.
  intros [F ->] Hd Hp. split; [|easy]. revert i Hd. induction F as [|d0 p dims parts H F IH]; intros [|i] Hd; cbn in Hd; try discriminate; unfold with_part; cbn.
  - injection Hd as ->. now constructor.
  - constructor; [easy|]. now apply IH.
Qed.

Lemma evenly_total d n : ideal_dim d -> 0 < n -> exists xi a, evenly_sample Rops d n = Ok (xi, a) /\ Forall (fun r => length r = tsize d /\ Forall (numeric (O:=Rops)) r) (rows_of a).
Proof.
  intros Hi Hn. destruct (ideal_warps _ Hi) as (g & Hg).
  assert (K : forall vs, vs <> [] -> Forall (may_draw d) vs -> exists a, dim_transform Rops d vs = Ok a /\ Forall (fun r => length r = tsize d /\ Forall (numeric (O:=Rops)) r) (rows_of a)).
  { intros vs H1 H2. destruct (Hg vs H1 H2) as ((a & E & Er) & W). exists a. split; [easy|]. rewrite Er. now apply Forall_map. }
  destruct d as [r|i|c]; cbn [evenly_sample].
  - set (vs := map (@VFloat R) _). destruct (K vs) as (a & E & W).
    + intro Q. apply (f_equal (@length _)) in Q. unfold vs in Q. rewrite map_length in Q. destruct (linspace_even (r_low r) (r_high r) n) as [L _]. rewrite L in Q. cbn in Q. lia.
    + apply plotted_draws with (n := n) (xi := vs); auto. split; [easy|]. eexists. split; [reflexivity|apply linspace_even].
    + rewrite E. cbn [bind]. eauto.
  - set (vs := map (@VFloat R) _). destruct (K vs) as (a & E & W).
    + intro Q. apply (f_equal (@length _)) in Q. unfold vs in Q. rewrite map_length in Q. destruct (linspace_even (nofZ Rops (i_low i)) (nofZ Rops (i_high i)) n) as [L _]. rewrite L in Q. cbn in Q. lia.
    + apply plotted_draws with (n := n) (xi := vs); auto. split; [easy|]. eexists. split; [reflexivity|apply linspace_even].
    + rewrite E. cbn [bind]. eauto.
  - destruct (c_cats c) as [|c0 cs] eqn:Ec; [destruct Hi as [(H0 & _) _]; now rewrite Ec in H0|].
    rewrite <- Ec.
    set (k := length (c_cats c)) in *. assert (Kp : (0 < k)%nat) by (unfold k; rewrite Ec; cbn; lia).
    set (zs := map (ntoint Rops) _).
    assert (Z : Forall (fun z => exists i, z = Z.of_nat i /\ (i < k)%nat) zs).
    { apply Forall_map, Forall_forall. intros x Hx. replace (nofZ Rops (Z.of_nat k - 1)) with (INR (k - 1)) in Hx.
      2:{ cbn [nofZ Rops]. rewrite <- IZR_nat. f_equal. lia. }
      apply (even_bounds _ (linspace_even _ _ _)) in Hx; [|cbn [nofZ Rops]; apply pos_INR]. destruct (Ztrunc_index (k - 1) Hx) as (i & Ei & Hi'). exists i. split; [exact Ei|lia]. }
    match goal with |- context [mapM ?f zs] => assert (Q : exists vs, mapM f zs = Ok vs /\ length vs = length zs /\ Forall (in_dim Rops (DCat c)) vs) end.
    { clear -Z. induction Z as [|z zs (i & -> & Hz) Z (vs & E & L & IH)]; [now exists []|]. destruct (nth_error (c_cats c) i) as [v|] eqn:Ev; [|apply nth_error_None in Ev; unfold k in Hz; lia].
      exists (v :: vs). cbn [mapM]. unfold znat at 1. destruct (Z.of_nat i <? 0)%Z eqn:Q; [apply Z.ltb_lt in Q; lia|]. rewrite Nat2Z.id, Ev. cbn [bind]. rewrite E. cbn [bind].
      split; [easy|]. split; [cbn; lia|]. constructor; [|easy]. constructor. now apply nth_error_In in Ev. }
    destruct Q as (vs & Ev & L & IN). rewrite Ev. cbn [bind]. destruct (K vs) as (a & E & W); [|eapply Forall_impl; [|exact IN]; intros v Hv; now left|].
    + intros ->. cbn in L. unfold zs in L. rewrite map_length in L. destruct (linspace_even (nofZ Rops 0) (nofZ Rops (Z.of_nat k - 1)) (Nat.min k n)) as [L' _]. rewrite L' in L. lia.
    + rewrite E. cbn [bind]. eauto.
Qed.

Section Total.
  Notation val := (pyval R).
  Variable predict : list (list val) -> res (list R).
  Hypothesis Hpred : forall rows, rows <> [] -> exists p, predict rows = Ok p /\ p <> [].
  Lemma mean_total p : p <> [] -> exists v, np_mean Rops p = Ok v.
  Proof. unfold np_mean. destruct p; [easy|]. eauto. Qed.
  Lemma assign_all_total dims i d x samples pss : Forall2 (split_row dims) samples pss -> nth_error dims i = Some d -> length x = tsize d -> Forall (numeric (O:=Rops)) x ->
    exists rows pss', mapM (assign Rops (dim_loc dims i) (dim_loc dims (S i)) x) samples = Ok rows /\ Forall2 (split_row (N:=R) dims) rows pss' /\ length rows = length samples.
  Proof.
    intros Hs Hd Hx Hn. assert (Q : exists rows, mapM (assign Rops (dim_loc dims i) (dim_loc dims (S i)) x) samples = Ok rows).
    { apply mapM_total. intros row Hr. apply In_nth_error in Hr. destruct Hr as [k Hk]. destruct (Forall2_nth1 _ Hs Hk) as (ps & _ & S). now apply (@assign_total R Rops dims i d x row ps S Hd). }
    destruct Q as (rows & E). pose proof (@assign_all R Rops dims i d x samples pss rows Hs Hd Hx E) as Er.
    exists rows, (map (with_part i (map (as_float Rops) x)) pss). split; [easy|]. split; [|now apply mapM_length in E]. subst rows. clear E.
    induction Hs as [|row ps rows pss H Hs IH]; cbn; constructor; [|easy]. apply with_split with d row; auto. now rewrite map_length.
  Qed.
  Lemma total_1D dims i d samples pss n : nth_error dims i = Some d -> ideal_dim d -> 0 < n -> samples <> [] -> Forall2 (split_row dims) samples pss ->
    exists r, partial_dependence_1D Rops predict dims i samples n = Ok r.
  Proof.
    intros Hd Hi Hn Hne Hs. unfold partial_dependence_1D. rewrite Hd. destruct (evenly_total _ Hi Hn) as (xi & a & E & W). rewrite E. cbn [bind fst snd].
    assert (Q : exists ys, mapM (calc1 Rops predict dims i samples) (rows_of a) = Ok ys).
    { apply mapM_total. intros x Hx. rewrite Forall_forall in W. destruct (W x Hx) as [W1 W2]. unfold calc1.
      destruct (@assign_all_total dims i d x samples pss Hs Hd W1 W2) as (rows & pss' & Er & _ & L). rewrite Er. cbn [bind]. destruct (Hpred (rows := rows)) as (p & Ep & Hp); [intros ->; destruct samples; easy|].
      rewrite Ep. cbn [bind]. now apply mean_total. }
    destruct Q as (ys & Ey). rewrite Ey. cbn [bind]. eauto.
  Qed.
  Lemma total_2D dims i j di dj samples pss n : nth_error dims i = Some di -> nth_error dims j = Some dj -> ideal_dim di -> ideal_dim dj ->
    0 < n -> samples <> [] -> Forall2 (split_row dims) samples pss ->
    exists r, partial_dependence_2D Rops predict dims i j samples n = Ok r.
  Proof.
    intros Hdi Hdj Hi Hj Hn Hne Hs. unfold partial_dependence_2D. rewrite Hdi, Hdj.
    destruct (evenly_total _ Hj Hn) as (xj & aj & Ej & Wj). rewrite Ej. cbn [bind fst snd].
    destruct (evenly_total _ Hi Hn) as (xi & ai & Ei & Wi). rewrite Ei. cbn [bind fst snd].
    match goal with |- exists r, bind (mapM ?f ?l) _ = _ => assert (Q : exists zs, mapM f l = Ok zs) end.
    { apply mapM_total. intros y Hy. apply mapM_total. intros x Hx. rewrite Forall_forall in Wi, Wj. destruct (Wi y Hy) as [Y1 Y2]. destruct (Wj x Hx) as [X1 X2]. unfold calc2.
      destruct (@assign_all_total dims j dj x samples pss Hs Hdj X1 X2) as (rows & pss' & Er & Hs' & L). rewrite Er. cbn [bind].
      destruct (@assign_all_total dims i di y rows pss' Hs' Hdi Y1 Y2) as (rows' & pss'' & Er' & _ & L'). rewrite Er'. cbn [bind].
      destruct (Hpred (rows := rows')) as (p & Ep & Hp); [intros ->; destruct samples, rows; easy|]. rewrite Ep. cbn [bind]. now apply mean_total. }
    destruct Q as (zs & Ez). rewrite Ez. cbn [bind]. eauto.
  Qed.
  Lemma points_split dims P rows : dims <> [] -> Forall ideal_dim dims -> P <> [] -> Forall (in_space Rops dims) P -> space_transform Rops dims P = Ok rows ->
    rows <> [] /\ exists pss, Forall2 (split_row dims) rows pss.
  Proof.
    intros Hne Hi Hn HP0 Ht. assert (HP : Forall (loose dims) P) by (eapply Forall_impl; [apply loose_in|exact HP0]). destruct (gs_of Hi) as (gs & F). rewrite (transform_parts Hne F Hn HP) in Ht. injection Ht as <-. split; [now destruct P|].
    exists (map (parts_of gs) P). clear -F HP. induction HP as [|p P Hp HP IH]; cbn; constructor; [|easy]. now apply parts_split.
  Qed.
End Total.

(** The sum of the numbers of each row. *)
Definition row_sums (rows : list (list (pyval R))) : res (list R) := Ok (map (fun r => fold_right (fun v s => match to_num Rops v with Some x => x + s | None => s end)%R 0%R r) rows).
Lemma row_sums_total rows : rows <> [] -> exists p, row_sums rows = Ok p /\ p <> [].
Proof. intro H. eexists. split; [reflexivity|]. now destruct rows. Qed.
Lemma depend_case : exists rows xi ys, space_transform Rops rspace [rpoint; rpoint] = Ok rows /\ partial_dependence_1D Rops row_sums rspace 3 rows 5 = Ok (xi, ys) /\
  exists xj yj zs, partial_dependence_2D Rops row_sums rspace 3 1 rows 5 = Ok (xj, yj, zs).
Proof.
  destruct C05_real_sample as [Hi HP]. destruct (@space_roundtrip_R rspace [rpoint; rpoint]) as (rows & E & _); try easy.
  destruct (@points_split rspace [rpoint; rpoint] rows) as (Hr & pss & Hs); try easy.
  assert (I : forall k d, nth_error rspace k = Some d -> ideal_dim d) by (intros k d Hk; rewrite Forall_forall in Hi; apply Hi; now apply nth_error_In in Hk).
  destruct (@total_1D row_sums row_sums_total rspace 3 _ rows pss 5 eq_refl) as ([xi ys] & E1); try easy; [now apply (I 3)|lia|].
  destruct (@total_2D row_sums row_sums_total rspace 3 1 _ _ rows pss 5 eq_refl eq_refl) as ([[xj yj] zs] & E2); try easy; [now apply (I 3)|now apply (I 1)|lia|].
  exists rows, xi, ys. split; [easy|]. split; [easy|]. now exists xj, yj, zs.
Qed.
Lemma depend_total predict : (forall rows, rows <> [] -> exists p, predict rows = Ok p /\ p <> []) ->
  forall dims i d P n, dims <> [] -> Forall ideal_dim dims -> nth_error dims i = Some d ->
  P <> [] -> Forall (in_space Rops dims) P -> 0 < n ->
  exists rows r, space_transform Rops dims P = Ok rows /\ partial_dependence_1D Rops predict dims i rows n = Ok r.
Proof.
  intros Hpred dims i d P n Hne Hi Hd Hn HP Hp. destruct (@space_roundtrip_R dims P) as (rows & E & _); try easy.
  destruct (@points_split dims P rows) as (Hr & pss & Hs); try easy.
  destruct (@total_1D predict Hpred dims i d rows pss n Hd) as (r & E1); try easy; [|now exists rows, r].
  rewrite Forall_forall in Hi. apply Hi. now apply nth_error_In in Hd.
Qed.
