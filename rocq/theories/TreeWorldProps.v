(** What the suggestion of an optimizer with trees means (C90), and that trees make a dependable surrogate (C83). *)
From Coq Require Import String List ZArith Bool Reals Lra Lia.
From Verif Require Import Base BaseLemmas Num NumLaws Values Dimension Space Optimizer Acquisition AcqSpec AcqProps OptSpec OptLemmas OptLemmas2 OptLemmas3
  OptLemmas4 OptLemmas5 OptLemmas6 OptProps SpaceSpec Forest ForestSpec ForestLemmas Gbrt GbrtLemmas GpWorld GpWorldProps WorthSpec CampaignSpec RealSpace GpDependable TreeWorld.
Import ListNotations.
Open Scope R_scope.
Open Scope list_scope.
Set Implicit Arguments.

Section TreeWorldProps.
  Context {E : Type} (K : regressor E) (cdf pdf : R -> R) (xi : option R) (kappa : option (@kappa_arg R)).
  Context (argsort : list R -> list nat)
          (generate : list (dim R) -> Z -> Z -> res (list (point R))) (logmax : R).
  Notation W := (tree_world K cdf pdf xi kappa argsort generate logmax).
  (** As many means and deviations as rows *)
  Definition full : Prop := forall X y e rows m s, g_fit K X y = Ok e -> g_std K e rows = Ok (m, s) -> length m = length rows /\ length s = length rows.

  Lemma tree_worth (HN : std_normal cdf pdf) e a y X vals : tree_acq K cdf pdf xi kappa a (TOne e) y X = Ok vals -> is_ps (AOne a) = false ->
    (forall rows m s, g_std K e rows = Ok (m, s) -> length m = length rows /\ length s = length rows) ->
    exists rows mus stds, mapM num_row X = Ok rows /\ g_std K e rows = Ok (mus, stds) /\
      length mus = length X /\ length stds = length X /\ length vals = length X /\
      forall i mu s v, nth_error mus i = Some mu -> nth_error stds i = Some s -> nth_error vals i = Some v -> worth y xi kappa a mu s (- v).
  Proof.
    unfold tree_acq. intros H Ha HF. apply bind_ok in H. destruct H as (rows & Hr & H). apply bind_ok in H. destruct H as (out & Ho & H). injection H as <-.
    assert (Q : exists ans, g_std K e rows = Ok ans).
    { destruct (g_std K e rows) as [ans|ex] eqn:Q; [eauto|]. exfalso.
      assert (Q' : reg_predictor K e rows = Raise ex) by (unfold reg_predictor; now rewrite Q).
      destruct a; try discriminate Ha; unfold gaussian_acquisition in Ho; cbn -[reg_predictor] in Ho; unfold gaussian_ei, gaussian_pi, gaussian_lcb, gaussian_imp, Acquisition.predict in Ho; rewrite Q' in Ho; discriminate. }
    destruct Q as [[m s] Q]. destruct (HF _ _ _ Q) as (Lm & Ls).
    assert (P : predicts (Single (reg_predictor K e)) rows m s) by (exists (mkPred true m s [] []); unfold Acquisition.predict, reg_predictor; rewrite Q; easy).
    pose proof (@mapM_length _ _ _ _ _ Hr) as Lr.
    exists rows, m, s. split; [exact Hr|]. split; [exact Q|]. split; [congruence|]. split; [congruence|].
    destruct a; try discriminate; cbn [acq_string] in Ho.
    - destruct (c49_negated cdf pdf _ _ _ _ y xi P ltac:(congruence)) as (_ & vs & Hv & Hn). rewrite Hn in Ho. injection Ho as <-.
      destruct (c49_ei cdf pdf HN _ _ _ _ y (margin xi) P ltac:(congruence)) as (vs' & Hv' & Lv & S).
      fold (margin xi) in Hv. rewrite Hv' in Hv. injection Hv as <-. cbn [fst]. split; [rewrite map_length; congruence|].
      intros i mu sd v Hm Hs Hvi. rewrite nth_error_map in Hvi. destruct (nth_error vs' i) as [w|] eqn:Ew; [|discriminate]. injection Hvi as <-.
      rewrite Ropp_involutive. destruct (S _ _ _ _ Hm Hs Ew) as (_ & S0 & S1). destruct (Rle_dec sd 0) as [L|L].
      + rewrite (S0 L). now constructor.
      + apply worth_ei; [lra|]. apply S1. lra.
    - destruct (c49_lcb cdf pdf _ _ _ _ (Some y) xi kappa P ltac:(congruence)) as (vs & Hv & Lv & S). rewrite Hv in Ho. injection Ho as <-.
      cbn [fst]. split; [congruence|]. intros i mu sd v Hm Hs Hvi. rewrite (S _ _ _ _ Hm Hs Hvi).
      replace (- _) with (optimism kappa mu sd); [constructor|]. unfold optimism. destruct kappa as [[k|]|]; lra.
    - destruct (c49_negated cdf pdf _ _ _ _ y xi P ltac:(congruence)) as ((vs & Hv & Hn) & _). rewrite Hn in Ho. injection Ho as <-.
      destruct (c49_pi cdf pdf HN _ _ _ _ y (margin xi) P ltac:(congruence)) as (vs' & Hv' & Lv & S).
      fold (margin xi) in Hv. rewrite Hv' in Hv. injection Hv as <-. cbn [fst]. split; [rewrite map_length; congruence|].
      intros i mu sd v Hm Hs Hvi. rewrite nth_error_map in Hvi. destruct (nth_error vs' i) as [w|] eqn:Ew; [|discriminate]. injection Hvi as <-.
      rewrite Ropp_involutive. destruct (S _ _ _ _ Hm Hs Ew) as (_ & S0 & S1). destruct (Rle_dec sd 0) as [L|L].
      + rewrite (S0 L). now constructor.
      + apply worth_pi; [lra|]. apply S1. lra.
  Qed.

  Lemma tree_suggests RNG (G : rng_ops R RNG) (HN : std_normal cdf pdf) (HF : full) x y o o' r a : reachable Rops G W o -> tell Rops G W x y true o = (o', Ok r) ->
    (c_n0 (o_cfg o') <= Z.of_nat (length (o_yi o')))%Z -> c_est (o_cfg o') <> None ->
    c_lbfgs (o_cfg o') = false -> c_acq (o_cfg o') = AOne a -> ps_of o' = false ->
    let dims := c_dims (o_cfg o') in
    exists ms e D Dt Dn g P X rows yopt mus stds i mu s x0 nx p rest,
      o_models o' = ms ++ [TOne e] /\
      (o_Xi o' = map (@X1 R) D /\ space_transform Rops dims D = Ok Dt /\ mapM num_row Dt = Ok Dn /\
       g_fit K Dn (map y_obj (o_yi o')) = Ok e) /\
      (fst (space_rvs Rops G dims (c_npoints (o_cfg o')) g) = Ok P /\ space_transform Rops dims P = Ok X /\ mapM num_row X = Ok rows /\
       g_std K e rows = Ok (mus, stds)) /\
      (In yopt (map y_obj (o_yi o')) /\ forall v, In v (map y_obj (o_yi o')) -> yopt <= v) /\
      (nth_error X i = Some x0 /\ nth_error mus i = Some mu /\ nth_error stds i = Some s) /\
      (exists v, worth yopt xi kappa a mu s v /\
         forall j mu' s', nth_error mus j = Some mu' -> nth_error stds j = Some s' -> exists v', worth yopt xi kappa a mu' s' v' /\ v' <= v) /\
      (if is_categorical dims then nx = x0 else clipped_row Rops (space_tbounds Rops dims) x0 nx) /\
      space_inverse Rops dims [nx] = Ok (p :: rest) /\ o_next o' = Some p.
  Proof.
    intros Hr H Hn He Hb Ha Hps dims.
    destruct (@c17_surrogate _ _ _ _ G W x y o o' r Hr H Hn He) as (D & Dt & m & ms & nx0 & p0 & rest0 & A1 & A2 & A3 & A4 & _).
    destruct (@c62 _ _ _ Rops G W Rops_order x y o o' r a Hr H Hn He Hb Ha Hps (nan_R _)) as
      (ms' & m' & g & P & X & yopt & vals & i & x0 & nx & p & rest & B1 & B2 & B3 & (B4 & B5) & B6 & B7 & B8 & B9 & B10 & B11).
    rewrite A4 in B1. apply app_inj_tail in B1. destruct B1 as [<- <-].
    assert (Hr' : reachable Rops G W o').
    { pose proof (r_call (CTell x y true) Hr) as Hr'. cbn [do_call] in Hr'. now rewrite H in Hr'. }
    pose proof (shaped_plain (reachable_shaped Hr') Hps) as Hpl.
    cbn [w_fit tree_world] in A3. unfold tree_fit in A3. apply bind_ok in A3. destruct A3 as (Dn & A3 & A5). rewrite (plain_col_map Hpl) in A5.
    apply bind_ok in A5. destruct A5 as (e & A5 & A6). injection A6 as <-.
    assert (Hps' : is_ps (AOne a) = false) by (unfold ps_of in Hps; now rewrite Ha in Hps).
    cbn [w_acq tree_world] in B6. destruct (@tree_worth HN _ _ _ _ _ B6 Hps' (fun rows m s => @HF _ _ _ rows m s A5)) as (rows & mus & stds & C1 & C2 & C3 & C4 & C5 & C6).
    destruct (B8 (nan_R _)) as (v & V1 & V2).
    assert (Li : (i < length X)%nat) by (apply nth_error_Some; congruence).
    destruct (nth_error mus i) as [mu|] eqn:Em; [|apply nth_error_None in Em; lia].
    destruct (nth_error stds i) as [s|] eqn:Es; [|apply nth_error_None in Es; lia].
    exists ms, e, D, Dt, Dn, g, P, X, rows, yopt, mus, stds, i, mu, s, x0, nx, p, rest.
    split; [exact A4|]. split; [auto|]. split; [auto|]. split; [split; [exact B4|]; intros w Hw; now apply leb_R, B5|]. split; [auto|].
    split; [|auto]. exists (- v). split; [now apply (C6 i)|]. intros j mu' s' Hm Hs.
    assert (Lj : (j < length X)%nat) by (rewrite <- C3; apply nth_error_Some; congruence).
    destruct (nth_error vals j) as [v'|] eqn:Ev; [|apply nth_error_None in Ev; lia].
    exists (- v'). split; [now apply (C6 j)|]. apply nth_error_In in Ev. apply V2, leb_R in Ev. lra.
  Qed.

  (** *** Dependable *)
  Context (dims : list (dim R)) (acq : acqf).
  Notation d := (t_n_dims dims).
  Definition able (e : E) : Prop := forall X, List.Forall (fun x => length x = d) X -> X <> [] ->
    exists m s, g_std K e X = Ok (m, s) /\ length m = length X /\ length s = length X /\ g_mean K e X = Ok m.
  Definition sound_tsurrogate (m : tsurrogate E) : Prop :=
    match m with TOne e => is_ps acq = false /\ able e | TTwo e t => is_ps acq = true /\ able e /\ able t end.

  Lemma able_pred e X : able e -> List.Forall (fun x => length x = d) X -> X <> [] ->
    exists m s, reg_predictor K e X = Ok (mkPred true m s [] []) /\ length m = length X /\ length s = length X.
  Proof. intros U F Hn. destruct (U X F Hn) as (m & s & Q & Lm & Ls & _). exists m, s. unfold reg_predictor. rewrite Q. auto. Qed.

  Lemma tree_acq_total a m yopt X : sound_tsurrogate m -> proper_rows dims X -> In a (cand_acqs acq) ->
    exists v, tree_acq K cdf pdf xi kappa a m yopt X = Ok v /\ length v = length X.
  Proof.
    intros Hm HX Ia. destruct (rows_num HX) as (X' & Q & Hn & L & F). unfold tree_acq. rewrite Q. cbn [bind].
    destruct m as [e|e t]; cbn in Hm.
    - destruct Hm as (Hp & U). destruct (@able_pred e X' U F Hn) as (mu & s & P & Lm & Ls).
      assert (Sa : is_ps (AOne a) = false) by (destruct acq as [|a']; cbn in Ia; [destruct Ia as [<-|[<-|[<-|[]]]]; reflexivity|destruct Ia as [<-|[]]; exact Hp]).
      destruct a; try discriminate; unfold gaussian_acquisition; cbn -[reg_predictor]; unfold gaussian_ei, gaussian_pi, gaussian_lcb, gaussian_imp, Acquisition.predict; rewrite P;
        cbn -[map2]; eexists; (split; [reflexivity|]); rewrite ?map_length, map2_len, Lm, Ls, L; apply Nat.min_id.
    - destruct Hm as (Hp & U & V). destruct (@able_pred e X' U F Hn) as (mu & s & P & Lm & Ls). destruct (@able_pred t X' V F Hn) as (mt & st & Q' & Lmt & Lst).
      assert (Sa : is_ps (AOne a) = true) by (destruct acq as [|a']; cbn in Ia; [discriminate|destruct Ia as [<-|[]]; exact Hp]).
      destruct a; try discriminate; unfold gaussian_acquisition; cbn -[reg_predictor]; unfold gaussian_ei, gaussian_pi, gaussian_imp, Acquisition.predict; rewrite P;
        cbn -[map2 reg_predictor]; unfold per_second, Acquisition.predict; rewrite Q'; cbn -[map2]; eexists; (split; [reflexivity|]);
        rewrite !map2_len, ?map_length, map2_len, Lm, Ls, Lmt, Lst, L, !Nat.min_id; reflexivity.
  Qed.

  Theorem tree_dependable :
    (forall X y, List.Forall (fun x => length x = d) X -> X <> [] -> length X = length y -> exists e, g_fit K X y = Ok e /\ able e) ->
    argsort_ok Rops W ->
    (forall n seed, (0 <= n)%Z -> exists l, generate dims n seed = Ok l /\ length l = Z.to_nat n /\ List.Forall (in_space Rops dims) l) ->
    dependable W anything dims acq false.
  Proof.
    intros Fit Hs Hg. split; [|split; [exact Hs|exact Hg]]. exists sound_tsurrogate.
    split; [|split; [|split]].
    - intros X ys HX L Hy. destruct (rows_num HX) as (X' & Q & Hn & L' & F). cbn [w_fit tree_world]. unfold tree_fit. rewrite Q. cbn [bind].
      destruct (is_ps acq) eqn:Ps.
      + destruct (timed_proper Hy) as (v & t & Et & Lv & Lt). destruct ys as [|y ys]; [destruct HX as (HX & _); destruct X; [now elim HX|discriminate]|].
        inversion Hy as [|? ? Hy1 _]; subst. destruct y as [y|y s]; [discriminate|]. rewrite Et. cbn [plain_col].
        destruct (Fit X' v F Hn) as (e & Ee & U); [congruence|]. destruct (Fit X' t F Hn) as (e' & Ee' & U'); [congruence|].
        rewrite Ee. cbn [bind]. rewrite Ee'. cbn. auto.
      + destruct (plain_proper Hy) as (v & Ev). rewrite Ev. assert (Lv : length v = length ys).
        { clear -Ev. revert v Ev. induction ys as [|[y|y s] ys IH]; intros v Ev; cbn in Ev; [now injection Ev as <-| |discriminate].
          destruct (plain_col ys) as [w|]; [|discriminate]. injection Ev as <-. cbn. now rewrite (IH w). }
        destruct (Fit X' v F Hn) as (e & Ee & U); [congruence|]. rewrite Ee. cbn. auto.
    - intros m X Hm HX Ha. destruct (rows_num HX) as (X' & Q & Hn & L & F). destruct m as [e|e t]; [|destruct Hm as (Hm & _); rewrite Ha in Hm; discriminate].
      destruct Hm as (_ & U). destruct (U X' F Hn) as (mu & s & P & Lm & _ & Pm). cbn [w_predict tree_world tree_predict]. rewrite Q. cbn [bind]. rewrite Pm.
      eexists. split; [reflexivity|]. congruence.
    - intros m X a yopt Hm HX Ia. cbn [w_acq tree_world]. now apply tree_acq_total.
    - discriminate.
  Qed.
End TreeWorldProps.
