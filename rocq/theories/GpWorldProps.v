(** What the suggestion of an optimizer with a Gaussian process means (C82). *)
From Coq Require Import String List ZArith Bool Reals Lra Lia.
From Verif Require Import Base BaseLemmas Num NumLaws Values Dimension Space Optimizer Acquisition AcqSpec AcqProps OptSpec OptLemmas OptLemmas2 OptLemmas3
  OptLemmas4 OptLemmas5 OptLemmas6 OptProps Kernels Gpr GprAcq GpWorld WorthSpec.
Import ListNotations.
Open Scope R_scope.
Open Scope list_scope.
Set Implicit Arguments.

Section GpWorldProps.
  Context (tune : kernel -> mat -> vec -> kernel) (linv : mat -> option mat) (solve : mat -> vec -> vec) (cdf pdf : R -> R).
  Context (e0 : gpr) (xi : option R) (kappa : option (@kappa_arg R)).
  Context (argsort : list R -> list nat)
          (lbfgs : acq1 -> surrogate -> R -> list (R * R) -> list (pyval R) -> res (list (pyval R) * R))
          (generate : list (dim R) -> Z -> Z -> res (list (point R))) (logmax : R).
  Notation W := (gp_world tune linv solve cdf pdf e0 xi kappa argsort lbfgs generate logmax).

  Lemma nan_R l : no_nan Rops l.
  Proof. apply Forall_forall. intros v _. unfold nisnan. cbn. unfold Rleb'. destruct (Rle_dec v v); [easy|]. exfalso. lra. Qed.
  Lemma leb_R a b : nleb Rops a b = true <-> a <= b.
  Proof. cbn. unfold Rleb'. destruct (Rle_dec a b); split; easy. Qed.

  Lemma plain_col_map y : all_plain y -> plain_col y = Some (map y_obj y).
  Proof. induction 1 as [|v l (w & ->) F IH]; [reflexivity|]. cbn. now rewrite IH. Qed.

  (** The regressor's answer as the acquisition functions see it. *)
  Lemma gp_predicts e X m s : Gpr.predict e X true false false false = Ok (mkAnswer m (Some s) None None) ->
    predicts (Single (gp_predictor e false)) X m s.
  Proof. intro H. exists (mkPred true m s [] []). unfold Acquisition.predict, gp_predictor. rewrite H. easy. Qed.
  Lemma predict_shape e X a : Gpr.predict e X true false false false = Ok a ->
    exists m s, a = mkAnswer m (Some s) None None /\ length m = length X /\ length s = length X.
  Proof.
    unfold Gpr.predict. cbn [andb negb orb]. destruct X as [|x X]; [discriminate|]. cbn [andb]. rewrite Bool.andb_false_r.
    destruct (e_fitted e) as [g|].
    - destruct (mapM (post_mean g) (x :: X)) as [m|] eqn:Em; [|discriminate]. destruct (mapM (post_std g) (x :: X)) as [s|] eqn:Es; [|discriminate].
      cbn [bind]. intro H. injection H as <-. exists m, s. split; [easy|]. pose proof (@mapM_length _ _ _ _ _ Em) as A. pose proof (@mapM_length _ _ _ _ _ Es) as B. split; [exact A|exact B].
    - destruct (e_kernel e) as [k|]; [|discriminate]. destruct (mapM (kdiag k) (x :: X)) as [s|] eqn:Es; [|discriminate].
      cbn [bind]. intro H. injection H as <-. do 2 eexists. split; [reflexivity|]. rewrite !map_length. pose proof (@mapM_length _ _ _ _ _ Es) as B. cbn [length]. rewrite map_length. split; [reflexivity|exact B].
  Qed.

  (** Values of the acquisition function, turned round. *)
  Lemma acq_worth (HN : std_normal cdf pdf) e a y X vals : gp_acq cdf pdf xi kappa a (One e) y X = Ok vals -> is_ps (AOne a) = false ->
    exists rows mus stds, mapM num_row X = Ok rows /\
      Gpr.predict e rows true false false false = Ok (mkAnswer mus (Some stds) None None) /\
      length mus = length X /\ length stds = length X /\ length vals = length X /\
      forall i mu s v, nth_error mus i = Some mu -> nth_error stds i = Some s -> nth_error vals i = Some v -> worth y xi kappa a mu s (- v).
  Proof.
    unfold gp_acq. intros H Ha. apply bind_ok in H. destruct H as (rows & Hr & H). apply bind_ok in H. destruct H as (out & Ho & H). injection H as <-.
    assert (E : exists ans, Gpr.predict e rows true false false false = Ok ans).
    { destruct (Gpr.predict e rows true false false false) as [ans|ex] eqn:E; [eauto|]. exfalso.
      assert (Q : gp_predictor e false rows = Raise ex) by (unfold gp_predictor; now rewrite E).
      destruct a; try discriminate Ha; unfold gaussian_acquisition in Ho; cbn -[gp_predictor] in Ho; unfold gaussian_ei, gaussian_pi, gaussian_lcb, gaussian_imp, Acquisition.predict in Ho; rewrite Q in Ho; discriminate. }
    destruct E as [ans E]. destruct (predict_shape _ _ E) as (m & s & -> & Lm & Ls). pose proof (gp_predicts _ _ E) as P.
    pose proof (@mapM_length _ _ _ _ _ Hr) as Lr.
    exists rows, m, s. split; [exact Hr|]. split; [exact E|]. split; [congruence|]. split; [congruence|].
    destruct a; try discriminate; cbn [acq_string] in Ho.
    - destruct (c49_negated cdf pdf _ _ _ _ y xi P ltac:(congruence)) as (_ & vs & Hv & Hn). rewrite Hn in Ho. injection Ho as <-.
      destruct (c49_ei cdf pdf HN _ _ _ _ y (margin xi) P ltac:(congruence)) as (vs' & Hv' & Lv & S).
      fold (margin xi) in Hv. rewrite Hv' in Hv. injection Hv as <-. cbn [fst]. split; [rewrite map_length; congruence|].
      intros i mu sd v Hm Hs Hvi. rewrite nth_error_map in Hvi. destruct (nth_error vs' i) as [w|] eqn:Ew; [|discriminate]. injection Hvi as <-.
      rewrite Ropp_involutive. destruct (S _ _ _ _ Hm Hs Ew) as (_ & S0 & S1). destruct (Rle_dec sd 0) as [L|L].
      + rewrite (S0 L). now constructor.
      + apply worth_ei; [lra|]. apply S1. lra.
    - destruct (c49_lcb cdf pdf _ _ _ _ (Some y) xi kappa P ltac:(congruence)) as (vs & Hv & Lv & S). rewrite Hv in Ho. injection Ho as <-.
      cbn [fst]. split; [congruence|]. intros i mu sd v Hm Hs Hvi. rewrite (S _ _ _ _ Hm Hs Hvi).
      replace (- _) with (optimism kappa mu sd); [constructor|]. unfold optimism. destruct kappa as [[k|]|]; lra.
    - destruct (c49_negated cdf pdf _ _ _ _ y xi P ltac:(congruence)) as ((vs & Hv & Hn) & _). rewrite Hn in Ho. injection Ho as <-.
      destruct (c49_pi cdf pdf HN _ _ _ _ y (margin xi) P ltac:(congruence)) as (vs' & Hv' & Lv & S).
      fold (margin xi) in Hv. rewrite Hv' in Hv. injection Hv as <-. cbn [fst]. split; [rewrite map_length; congruence|].
      intros i mu sd v Hm Hs Hvi. rewrite nth_error_map in Hvi. destruct (nth_error vs' i) as [w|] eqn:Ew; [|discriminate]. injection Hvi as <-.
      rewrite Ropp_involutive. destruct (S _ _ _ _ Hm Hs Ew) as (_ & S0 & S1). destruct (Rle_dec sd 0) as [L|L].
      + rewrite (S0 L). now constructor.
      + apply worth_pi; [lra|]. apply S1. lra.
  Qed.

  Lemma c82 RNG (G : rng_ops R RNG) (HN : std_normal cdf pdf) x y o o' r a : reachable Rops G W o -> tell Rops G W x y true o = (o', Ok r) ->
    (c_n0 (o_cfg o') <= Z.of_nat (length (o_yi o')))%Z -> c_est (o_cfg o') <> None ->
    c_lbfgs (o_cfg o') = false -> c_acq (o_cfg o') = AOne a -> ps_of o' = false ->
    let dims := c_dims (o_cfg o') in
    exists ms e D Dt Dn g P X rows yopt mus stds i mu s x0 nx p rest,
      o_models o' = ms ++ [One e] /\
      (o_Xi o' = map (@X1 R) D /\ space_transform Rops dims D = Ok Dt /\ mapM num_row Dt = Ok Dn /\
       Gpr.fit tune linv solve e0 Dn (map y_obj (o_yi o')) = Ok e) /\
      (fst (space_rvs Rops G dims (c_npoints (o_cfg o')) g) = Ok P /\ space_transform Rops dims P = Ok X /\ mapM num_row X = Ok rows /\
       Gpr.predict e rows true false false false = Ok (mkAnswer mus (Some stds) None None)) /\
      (In yopt (map y_obj (o_yi o')) /\ forall v, In v (map y_obj (o_yi o')) -> yopt <= v) /\
      (nth_error X i = Some x0 /\ nth_error mus i = Some mu /\ nth_error stds i = Some s) /\
      (exists v, worth yopt xi kappa a mu s v /\
         forall j mu' s', nth_error mus j = Some mu' -> nth_error stds j = Some s' -> exists v', worth yopt xi kappa a mu' s' v' /\ v' <= v) /\
      (if is_categorical dims then nx = x0 else clipped_row Rops (space_tbounds Rops dims) x0 nx) /\
      space_inverse Rops dims [nx] = Ok (p :: rest) /\ o_next o' = Some p.
  Proof.
    intros Hr H Hn He Hb Ha Hps dims.
    destruct (@c17_surrogate _ _ _ _ G W x y o o' r Hr H Hn He) as (D & Dt & m & ms & nx0 & p0 & rest0 & A1 & A2 & A3 & A4 & _).
    destruct (@c62 _ _ _ Rops G W Rops_order x y o o' r a Hr H Hn He Hb Ha Hps (nan_R _)) as
      (ms' & m' & g & P & X & yopt & vals & i & x0 & nx & p & rest & B1 & B2 & B3 & (B4 & B5) & B6 & B7 & B8 & B9 & B10 & B11).
    rewrite A4 in B1. apply app_inj_tail in B1. destruct B1 as [<- <-].
    assert (Hr' : reachable Rops G W o').
    { pose proof (r_call (CTell x y true) Hr) as Hr'. cbn [do_call] in Hr'. now rewrite H in Hr'. }
    pose proof (shaped_plain (reachable_shaped Hr') Hps) as Hpl.
    cbn [w_fit gp_world] in A3. unfold gp_fit in A3. apply bind_ok in A3. destruct A3 as (Dn & A3 & A5). rewrite (plain_col_map Hpl) in A5.
    apply bind_ok in A5. destruct A5 as (e & A5 & A6). injection A6 as <-.
    assert (Hps' : is_ps (AOne a) = false) by (unfold ps_of in Hps; now rewrite Ha in Hps).
    cbn [w_acq gp_world] in B6. destruct (@acq_worth HN _ _ _ _ _ B6 Hps') as (rows & mus & stds & C1 & C2 & C3 & C4 & C5 & C6).
    destruct (B8 (nan_R _)) as (v & V1 & V2).
    assert (Li : (i < length X)%nat) by (apply nth_error_Some; congruence).
    destruct (nth_error mus i) as [mu|] eqn:Em; [|apply nth_error_None in Em; lia].
    destruct (nth_error stds i) as [s|] eqn:Es; [|apply nth_error_None in Es; lia].
    exists ms, e, D, Dt, Dn, g, P, X, rows, yopt, mus, stds, i, mu, s, x0, nx, p, rest.
    split; [exact A4|]. split; [auto|]. split; [auto|]. split; [split; [exact B4|]; intros w Hw; now apply leb_R, B5|]. split; [auto|].
    split; [|auto]. exists (- v). split; [now apply (C6 i)|]. intros j mu' s' Hm Hs.
    assert (Lj : (j < length X)%nat) by (rewrite <- C3; apply nth_error_Some; congruence).
    destruct (nth_error vals j) as [v'|] eqn:Ev; [|apply nth_error_None in Ev; lia].
    exists (- v'). split; [now apply (C6 j)|]. apply nth_error_In in Ev. apply V2, leb_R in Ev. lra.
  Qed.
End GpWorldProps.
