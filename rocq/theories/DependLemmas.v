From Coq Require Import String List ZArith Bool Lia Reals Lra.
From Flocq Require Import Core.Core.
From Verif Require Import Base BaseLemmas Num Values Transformers Dimension Space NumLaws SpaceSpec CatLemmas SpaceLemmas NormLaws EachLemmas ForestSpec Optimizer Plots
  PlotSpec PlotLemmas DependSpec.
Import ListNotations.
Open Scope nat_scope.
Open Scope list_scope.
Set Implicit Arguments.

Section Assign.
  Context {N : Type} (O : numops N).
  Notation val := (pyval N).
  Lemma nums_as_float l ys : nums O l = Ok ys -> map (as_float O) l = map (@VFloat N) ys.
  Proof. intro H. apply nums_each in H. induction H as [|v x l xs E F IH]; [easy|]. cbn. unfold as_float at 1. rewrite E. congruence. Qed.
  Lemma dim_loc_len (dims : list (dim N)) (parts : list (list val)) : Forall2 (fun d p => length p = tsize d) dims parts -> forall i, dim_loc dims i = length (concat (firstn i parts)).
  Proof.
    induction 1 as [|d p dims parts H F IH]; intros [|i]; try easy. cbn. unfold dim_loc in *. cbn. rewrite app_length, <- IH. lia.
  Qed.
  Lemma firstn_cat (parts : list (list val)) i : firstn (length (concat (firstn i parts))) (concat parts) = concat (firstn i parts).
  Proof. rewrite <- (firstn_skipn i parts) at 2. rewrite concat_app, firstn_app, Nat.sub_diag, firstn_all, firstn_O. apply app_nil_r. Qed.
  Lemma skipn_cat (parts : list (list val)) i : skipn (length (concat (firstn i parts))) (concat parts) = concat (skipn i parts).
  Proof. rewrite <- (firstn_skipn i parts) at 2. rewrite concat_app, skipn_app, Nat.sub_diag, skipn_all. easy. Qed.
  Lemma Forall2_nth1 {A B} (R : A -> B -> Prop) l m i x : Forall2 R l m -> nth_error l i = Some x -> exists y, nth_error m i = Some y /\ R x y.
  Proof. intro F. revert i. induction F as [|a b l m H F IH]; intros [|i] E; cbn in *; try discriminate; [injection E as ->; now exists b|auto]. Qed.
  Lemma skipn_nth {A} (l : list A) i x : nth_error l i = Some x -> skipn i l = x :: skipn (S i) l /\ firstn (S i) l = firstn i l ++ [x].
  Proof.
    revert i. induction l as [|a l IH]; intros [|i] E; cbn in E; try discriminate; [injection E as ->; easy|]. destruct (IH i E) as [A1 A2]. split; [exact A1|].
    cbn [firstn app]. f_equal. exact A2.
  Qed.
  Lemma assign_ok (dims : list (dim N)) i d x row parts row' : split_row dims row parts -> nth_error dims i = Some d -> length x = tsize d ->
    assign O (dim_loc dims i) (dim_loc dims (S i)) x row = Ok row' -> row' = concat (with_part i (map (as_float O) x) parts).
  Proof.
    intros [F ->] Hd Hx H. rewrite !(dim_loc_len F) in H. destruct (Forall2_nth1 _ F Hd) as (p & Hp & Lp).
    destruct (skipn_nth _ _ Hp) as [S1 S2]. unfold assign in H. rewrite skipn_cat, firstn_cat in H.
    assert (A : length (concat (firstn (S i) parts)) = length (concat (firstn i parts)) + length p) by (rewrite S2, concat_app, app_length; cbn [concat]; now rewrite app_nil_r).
    replace (length (concat (firstn (S i) parts)) - length (concat (firstn i parts))) with (length p) in H by lia.
    rewrite Nat.max_r, skipn_cat in H by lia. rewrite S1 in H. cbn [concat] in H. rewrite firstn_app, firstn_all, Nat.sub_diag, firstn_O, app_nil_r in H.
    destruct (nums O x) as [ys|] eqn:E; [|discriminate]. cbn [bind] in H. pose proof (mapM_length _ _ E) as Ly. rewrite Hx, <- Lp in Ly.
    rewrite Ly, Nat.eqb_refl in H. cbn [bind] in H. assert (Q : row' = concat (firstn i parts) ++ map (@VFloat N) ys ++ concat (skipn (S i) parts)) by congruence.
    rewrite Q. unfold with_part. rewrite !concat_app. cbn [concat]. rewrite app_nil_r. now rewrite (nums_as_float _ E).
  Qed.
  Lemma with_part_split (dims : list (dim N)) i d x parts : Forall2 (fun d p => length p = tsize d) dims parts -> nth_error dims i = Some d -> length x = tsize d ->
    split_row dims (concat (with_part i x parts)) (with_part i x parts).
  Proof.
    intros F Hd Hx. split; [|easy]. unfold with_part. revert i Hd. induction F as [|d0 p dims parts H F IH]; intros [|i] Hd; cbn in Hd; try discriminate.
    - injection Hd as ->. cbn. now constructor.
    - cbn. constructor; [easy|]. exact (IH i Hd).
  Qed.
  Lemma assign_all (dims : list (dim N)) i d x rows pss rows' : Forall2 (split_row dims) rows pss -> nth_error dims i = Some d -> length x = tsize d ->
    mapM (assign O (dim_loc dims i) (dim_loc dims (S i)) x) rows = Ok rows' -> rows' = map (fun parts => concat (with_part i (map (as_float O) x) parts)) pss.
  Proof.
    intros F Hd Hx. revert rows'. induction F as [|row parts rows pss H F IH]; intros rows' E; cbn [mapM] in E; [now injection E as <-|].
    destruct (assign O _ _ x row) as [r|] eqn:Er; [|discriminate]. cbn [bind] in E. destruct (mapM _ rows) as [rs|]; [|discriminate]. cbn [bind] in E.
    rewrite (IH rs eq_refl) in E. rewrite (assign_ok i _ H Hd Hx Er) in E. cbn [map]. congruence.
  Qed.
End Assign.

(** The plotted values *)
Open Scope R_scope.
Lemma IZR_nat n : IZR (Z.of_nat n) = INR n.
Proof. symmetry. apply INR_IZR_INZ. Qed.
Lemma nth_seq0 k i : (i < k)%nat -> nth_error (seq 0 k) i = Some i.
Proof. intro H. rewrite (nth_error_nth' _ 0%nat) by now rewrite seq_length. now rewrite seq_nth. Qed.
Lemma linspace_even lo hi n : even lo hi n (linspace Rops lo hi n).
Proof.
  destruct n as [|[|m]].
  - split; [easy|]. intros [|k] v H; discriminate.
  - split; [easy|]. intros [|[|k]] v H; try discriminate. assert (E : v = IZR 0 * (hi - lo) + lo) by (cbn in H; congruence). rewrite E. cbn. lra.
  - assert (P : 0 < INR (S m)) by (apply lt_0_INR; lia).
    unfold linspace. set (step := ndiv Rops _ _). assert (Es : step = (hi - lo) / INR (S m)) by (unfold step; cbn [ndiv nsub nofZ Rops]; now rewrite IZR_nat).
    split; [rewrite app_length, map_length, seq_length; cbn [length]; lia|].
    intros k v H. replace (S (S m) - 1)%nat with (S m) by lia.
    destruct (Nat.lt_ge_cases k (S m)) as [Hk|Hk].
    + rewrite nth_error_app1 in H by now rewrite map_length, seq_length.
      assert (Ek : nth_error (seq 0 (S m)) k = Some k) by now apply nth_seq0.
      rewrite (map_nth_error _ _ _ Ek) in H. assert (E : v = IZR (Z.of_nat k) * step + lo) by (cbn [nadd nmul nofZ Rops] in H; congruence).
      rewrite E, Es, IZR_nat. field. lra.
    + rewrite nth_error_app2 in H by now rewrite map_length, seq_length. rewrite map_length, seq_length in H.
      assert (k = S m). { assert (k - S m < 1)%nat by (apply (proj1 (nth_error_Some [hi] _)); congruence). lia. } subst k.
      rewrite Nat.sub_diag in H. assert (E : v = hi) by (cbn in H; congruence). rewrite E. field. lra.
Qed.
Lemma same_nth {A} (l m : list A) : (forall i, nth_error l i = nth_error m i) -> l = m.
Proof.
  revert m. induction l as [|a l IH]; intros [|b m] H; [easy|specialize (H 0%nat); discriminate|specialize (H 0%nat); discriminate|].
  pose proof (H 0%nat) as H0. cbn in H0. f_equal; [congruence|]. apply IH. intro i. exact (H (S i)).
Qed.
Lemma even_all k l : even 0 (INR (k - 1)) k l -> l = map INR (seq 0 k).
Proof.
  intros [Hl H]. apply same_nth. intro i. destruct (nth_error l i) as [v|] eqn:E.
  - assert (Hi : (i < k)%nat) by (rewrite <- Hl; apply nth_error_Some; congruence).
    assert (Ei : nth_error (seq 0 k) i = Some i) by now apply nth_seq0.
    rewrite (map_nth_error _ _ _ Ei). f_equal. rewrite (H _ _ E). destruct (Nat.eq_dec k 1) as [->|K].
    + assert (i = 0)%nat by lia. subst. cbn. lra.
    + assert (0 < INR (k - 1)) by (apply lt_0_INR; lia). field. lra.
  - apply nth_error_None in E. symmetry. apply nth_error_None. rewrite map_length, seq_length. lia.
Qed.

Lemma Ztrunc_index x k : 0 <= x <= INR k -> exists i, Ztrunc x = Z.of_nat i /\ (i <= k)%nat.
Proof.
  intros [A B]. rewrite Ztrunc_floor by easy. pose proof (Zfloor_lub 0 x A) as P. assert (Q : (Zfloor x <= Z.of_nat k)%Z).
  { apply le_IZR. rewrite IZR_nat. apply Rle_trans with x; [apply Zfloor_lb|easy]. }
  exists (Z.to_nat (Zfloor x)). split; [now rewrite Z2Nat.id|lia].
Qed.
Lemma even_bounds lo hi n l v : even lo hi n l -> lo <= hi -> In v l -> lo <= v <= hi.
Proof.
  intros [Hl H] Hb Hv. apply In_nth_error in Hv. destruct Hv as [k Hk]. rewrite (H _ _ Hk).
  assert (K : (k < n)%nat) by (rewrite <- Hl; apply nth_error_Some; congruence).
  destruct (Nat.eq_dec n 1) as [->|Hn]. { assert (k = 0)%nat by lia. subst. cbn. lra. }
  assert (P : 0 < INR (n - 1)) by (apply lt_0_INR; lia). assert (P1 : 0 <= INR k) by apply pos_INR. assert (P2 : INR k <= INR (n - 1)) by (apply le_INR; lia).
  assert (F : 0 <= INR k / INR (n - 1) <= 1). { split; [apply Rmult_le_pos; [easy|left; now apply Rinv_0_lt_compat]|]. apply Rmult_le_reg_r with (INR (n - 1)); [easy|]. unfold Rdiv. rewrite Rmult_assoc, Rinv_l by lra. lra. }
  replace (INR k * (hi - lo) / INR (n - 1)) with (INR k / INR (n - 1) * (hi - lo)) by (field; lra). nra.
Qed.

Definition raw_part (d : dim R) (v : pyval R) (r : list (pyval R)) : Prop := exists a1, dim_transform Rops d [v] = Ok a1 /\ rows_of a1 = [r].
Lemma numeric_width (d : dim R) l a : is_cat d = false -> dim_transform Rops d l = Ok a -> Forall (fun r => length r = tsize d) (rows_of a).
Proof.
  intros Hc E.
  assert (Q : each1 Rops (dim_transformer Rops d) l).
  { destruct d as [r|i|c]; [| |discriminate]; cbn [dim_transformer].
    - unfold real_transformer. destruct (r_kind r), (r_prior r); auto using each1_identity, each1_log; apply each1_pipe; auto using each1_identity, each1_log; intro; apply each1_normalize.
    - unfold int_transformer. destruct (i_kind i), (i_prior i); auto using each1_identity, each1_log; apply each1_pipe; auto using each1_identity, each1_log; intro; apply each1_normalize. }
  destruct (Q a E) as (l' & -> & _). assert (T : tsize d = 1%nat) by now destruct d. rewrite T. clear. cbn [rows_of]. apply Forall_map, Forall_forall. easy.
Qed.
Lemma cat_width (c : cat_dim R) l a : exact_dim Rops (DCat c) -> Forall (in_dim Rops (DCat c)) l -> dim_transform Rops (DCat c) l = Ok a -> Forall (fun r => length r = tsize (DCat c)) (rows_of a).
Proof.
  intros He Hi E. destruct l as [|v l]. { apply (dim_keeps _ (DCat c)) in E. destruct (rows_of a); [constructor|discriminate]. }
  destruct (@exact_round_trips _ Rops Rops_order Rops_int Rops_norm (fun x => eq_refl) _ He) as (g & Hg).
  destruct (Hg (v :: l)) as ((a' & Ea & Er) & W & _); [easy|easy|]. assert (a' = a) by congruence. subst a'. rewrite Er. clear -W. induction W; cbn; constructor; easy.
Qed.
Lemma evenly d n xi a : plottable d -> evenly_sample Rops d n = Ok (xi, a) ->
  exists vals, plotted d n xi vals /\ Forall2 (raw_part d) vals (rows_of a) /\ Forall (fun r => length r = tsize d) (rows_of a).
Proof.
  intros Hp H. destruct d as [r|i|c]; unfold evenly_sample in H.
  - destruct (dim_transform Rops (DReal r) _) as [b|] eqn:E; [|discriminate]. cbn [bind] in H. injection H as <- <-. eexists. split; [split; [reflexivity|eexists; split; [reflexivity|apply linspace_even]]|].
    split; [|now apply numeric_width in E]. now apply (dim_each _ (DReal r)) in E.
  - destruct (dim_transform Rops (DInt i) _) as [b|] eqn:E; [|discriminate]. cbn [bind] in H. injection H as <- <-. eexists. split; [split; [reflexivity|eexists; split; [reflexivity|apply linspace_even]]|].
    split; [|now apply numeric_width in E]. now apply (dim_each _ (DInt i)) in E.
  - destruct (c_cats c) as [|c0 cs] eqn:Ec; [discriminate|]. rewrite <- Ec in H.
    set (k := length (c_cats c)) in *. assert (K : (0 < k)%nat) by (unfold k; rewrite Ec; cbn; lia).
    set (zs := map (ntoint Rops) _) in H.
    assert (Z : Forall (fun z => exists i, z = Z.of_nat i /\ (i < k)%nat) zs).
    { apply Forall_map, Forall_forall. intros x Hx. replace (nofZ Rops (Z.of_nat k - 1)) with (INR (k - 1)) in Hx.
      2:{ cbn [nofZ Rops]. rewrite <- IZR_nat. f_equal. lia. }
      apply (even_bounds _ (linspace_even _ _ _)) in Hx; [|cbn [nofZ Rops]; apply pos_INR]. destruct (Ztrunc_index (k - 1) Hx) as (i & Ei & Hi). exists i. split; [exact Ei|lia]. }
    destruct (mapM _ zs) as [vs|] eqn:Ev; [|discriminate]. cbn [bind] in H. destruct (dim_transform Rops (DCat c) vs) as [b|] eqn:E; [|discriminate]. cbn [bind] in H.
    assert (Exi : xi = map (@VInt R) zs) by congruence. assert (Eb : a = b) by congruence. subst a. clear H.
    assert (F : Forall2 (fun z v => exists i, z = Z.of_nat i /\ nth_error (c_cats c) i = Some v) zs vs).
    { apply mapM_each in Ev. clear -Ev Z. induction Ev as [|z v zs vs H F IH]; constructor.
      - inversion Z as [|? ? (i & -> & Hi) _]; subst. exists i. split; [easy|]. unfold znat in H. destruct (Z.of_nat i <? 0)%Z eqn:Q in H; [apply Z.ltb_lt in Q; lia|].
        rewrite Nat2Z.id in H. destruct (nth_error (c_cats c) i); congruence.
      - inversion Z; auto. }
    assert (IN : Forall (in_dim Rops (DCat c)) vs). { clear -F. induction F as [|z v zs vs (i & _ & Hi) F IH]; constructor; [|easy]. constructor. now apply nth_error_In in Hi. }
    exists vs. split; [|split].
    + split; [|split].
      * subst xi. clear -F. induction F as [|z v zs vs (i & -> & Hi) F IH]; cbn; constructor; [now exists i|easy].
      * subst xi. rewrite map_length. unfold zs. rewrite map_length. apply (linspace_even _ _ _).
      * intro Hn. fold k in Hn. assert (Ez : zs = map Z.of_nat (seq 0 k)).
        { unfold zs. rewrite Nat.min_l by easy. rewrite (even_all (k:=k) (l := linspace Rops (nofZ Rops 0) (nofZ Rops (Z.of_nat k - 1)) k)).
          - rewrite map_map. apply map_ext. intro j. cbn [ntoint Rops]. rewrite <- IZR_nat. apply Ztrunc_IZR.
          - replace (INR (k - 1)) with (nofZ Rops (Z.of_nat k - 1)); [apply linspace_even|]. cbn [nofZ Rops]. rewrite <- IZR_nat. f_equal. lia. }
        rewrite Ez in F. clear -F. apply same_nth. intro i. destruct (Nat.lt_ge_cases i k) as [Hi|Hi].
        -- assert (Ei : nth_error (map Z.of_nat (seq 0 k)) i = Some (Z.of_nat i)) by now apply map_nth_error, nth_seq0.
           destruct (Forall2_nth1 _ F Ei) as (v & Hv & j & Ej & Hj). apply Nat2Z.inj in Ej. subst j. congruence.
        -- pose proof (Forall2_len F) as L. rewrite map_length, seq_length in L. transitivity (@None (pyval R)); [|symmetry]; apply nth_error_None; [lia|exact Hi].
    + apply (dim_each _ (DCat c)) in E; [exact E|]. intros _. destruct Hp as [(_ & Hh & _) _]. apply (homogeneous_incl Hh). intros v Hv. rewrite Forall_forall in IN. specialize (IN v Hv). now inversion IN.
    + now apply (cat_width Hp IN).
Qed.

Lemma raw_warped d v r : raw_part d v r -> warped_by (O:=Rops) d v (map (as_float Rops) r).
Proof. intros (a1 & E & Er). now exists a1, r. Qed.
Lemma Forall2_combine3 {A B C} (R : A -> B -> Prop) (P : B -> Prop) (Q : B -> C -> Prop) (S : A -> C -> Prop) l m n :
  Forall2 R l m -> Forall P m -> Forall2 Q m n -> (forall a b c, R a b -> P b -> Q b c -> S a c) -> Forall2 S l n.
Proof. intros F. revert n. induction F as [|a b l m H F IH]; intros n HP HQ HS; inversion HQ; subst; constructor; inversion HP; subst; eauto. Qed.
Section Dependence.
  Variable predict : list (list (pyval R)) -> res (list R).
  Definition value_1D (dims : list (dim R)) i d (pss : list (list (list (pyval R)))) (v : pyval R) (y : R) : Prop :=
    exists part p, warped_by (O:=Rops) d v part /\ length part = tsize d /\ predict (map (fun parts => concat (with_part i part parts)) pss) = Ok p /\ y = avg p.
  Lemma c59_1D dims i d samples pss n xi ys : nth_error dims i = Some d -> plottable d -> Forall2 (split_row dims) samples pss ->
    partial_dependence_1D Rops predict dims i samples n = Ok (xi, ys) ->
    exists vals, plotted d n xi vals /\ Forall2 (value_1D dims i d pss) vals ys.
  Proof.
    intros Hd Hp Hs H. unfold partial_dependence_1D in H. rewrite Hd in H. destruct (evenly_sample Rops d n) as [[x a]|] eqn:E; [|discriminate]. cbn [bind snd fst] in H.
    destruct (mapM _ (rows_of a)) as [zs|] eqn:Em; [|discriminate]. cbn [bind] in H. injection H as <- <-.
    destruct (evenly _ _ Hp E) as (vals & Pl & F & W). exists vals. split; [easy|]. apply mapM_each in Em.
    refine (Forall2_combine3 _ F W Em _). intros v r y Hv Hr Hc. unfold calc1 in Hc. destruct (mapM _ samples) as [rows|] eqn:Er; [|discriminate]. cbn [bind] in Hc.
    rewrite (@assign_all R Rops dims i d r samples pss rows Hs Hd Hr Er) in Hc. destruct (predict _) as [p|] eqn:Ep; [|discriminate]. cbn [bind] in Hc.
    exists (map (as_float Rops) r), p. split; [now apply raw_warped|]. split; [now rewrite map_length|]. split; [easy|]. now apply np_mean_R.
  Qed.
  Definition value_2D (i j : nat) di dj (pss : list (list (list (pyval R)))) (vy vx : pyval R) (z : R) : Prop :=
    exists py px p, warped_by (O:=Rops) di vy py /\ warped_by (O:=Rops) dj vx px /\ length py = tsize di /\ length px = tsize dj /\
      predict (map (fun parts => concat (with_part i py (with_part j px parts))) pss) = Ok p /\ z = avg p.
  Lemma c59_2D dims i j di dj samples pss n xi yi zi : nth_error dims i = Some di -> nth_error dims j = Some dj -> plottable di -> plottable dj -> Forall2 (split_row dims) samples pss ->
    partial_dependence_2D Rops predict dims i j samples n = Ok (xi, yi, zi) ->
    exists vx vy, plotted dj n xi vx /\ plotted di n yi vy /\ Forall2 (fun y row => Forall2 (value_2D i j di dj pss y) vx row) vy zi.
  Proof.
    intros Hi Hj Pi Pj Hs H. unfold partial_dependence_2D in H. rewrite Hi, Hj in H.
    destruct (evenly_sample Rops dj n) as [[x a]|] eqn:Ex; [|discriminate]. cbn [bind snd fst] in H.
    destruct (evenly_sample Rops di n) as [[y b]|] eqn:Ey; [|discriminate]. cbn [bind snd fst] in H.
    destruct (mapM _ (rows_of b)) as [zs|] eqn:Em; [|discriminate]. cbn [bind] in H. injection H as <- <- <-.
    destruct (evenly _ _ Pj Ex) as (vx & Px & Fx & Wx). destruct (evenly _ _ Pi Ey) as (vy & Py & Fy & Wy). exists vx, vy. split; [easy|]. split; [easy|].
    apply mapM_each in Em. refine (Forall2_combine3 _ Fy Wy Em _). intros v r row Hv Hr Hrow. apply mapM_each in Hrow.
    refine (Forall2_combine3 _ Fx Wx Hrow _). intros w q z Hw Hq Hc. unfold calc2 in Hc.
    destruct (mapM _ samples) as [rows|] eqn:Er; [|discriminate]. cbn [bind] in Hc. rewrite (@assign_all R Rops dims j dj q samples pss rows Hs Hj Hq Er) in Hc.
    destruct (mapM _ (map _ pss)) as [rows'|] eqn:Er'; [|discriminate]. cbn [bind] in Hc.
    assert (Hs' : Forall2 (split_row dims) (map (fun parts => concat (with_part j (map (as_float Rops) q) parts)) pss) (map (with_part j (map (as_float Rops) q)) pss)).
    { clear -Hs Hj Hq. induction Hs as [|s parts samples pss [F _] Hs IH]; cbn; constructor; [|easy]. apply with_part_split with dj; auto. now rewrite map_length. }
    rewrite (@assign_all R Rops dims i di r _ _ rows' Hs' Hi Hr Er') in Hc. rewrite map_map in Hc. destruct (predict _) as [p|] eqn:Ep; [|discriminate]. cbn [bind] in Hc.
    exists (map (as_float Rops) r), (map (as_float Rops) q), p. split; [now apply raw_warped|]. split; [now apply raw_warped|]. rewrite !map_length.
    split; [easy|]. split; [easy|]. split; [easy|]. now apply np_mean_R.
  Qed.
End Dependence.
