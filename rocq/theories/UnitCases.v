(** Cases of C97. *)
From Coq Require Import String List ZArith Bool Lia Reals Lra.
From Verif Require Import Base BaseLemmas Num NumLaws Values Dimension Space Optimizer SpaceSpec OptSpec OptLemmas OptLemmas5 OptSamples SamplerSamples PickCases Acquisition AcqSpec AcqProps GaussLemmas
  Kernels Gpr GprSpec GprSamples Cholesky GpWorld WorthSpec CampaignSpec Campaign GpDependable CampaignCases TreeCases Normalised UnitSpec UnitSim UnitGp.
Import ListNotations.
Open Scope R_scope.
Open Scope list_scope.
Set Implicit Arguments.

(** The world of Normalised.v in the unit in which [v] is [2 v + 3]; the margin is converted, too. *)
Definition WN2 (cdf pdf : R -> R) : world R surrogate :=
  gp_world keep cho_inv cho_weights cdf pdf gpN (Some (2 * margin None)) None (arg_sort Rops) (fun _ _ _ _ x => Ok (x, 0%R)) genR 709%R.
Lemma c97_case cdf pdf s a (gen : bool) : acq_of s = Some (AOne a) -> is_ps (AOne a) = false -> let W := WN cdf pdf in let W' := WN2 cdf pdf in
  exists o o', twins GR W W' 2 3 a o o' /\ settled 3 o (CTell (X2 [pR1; pR2]) (YLst [YNum 4; YNum 5]) true) /\
    exists o1 r, tell Rops GR W (X2 [pR1; pR2]) (YLst [YNum 4; YNum 5]) true o = (o1, Ok r) /\ open o1 /\ (c_n0 (o_cfg o1) <= Z.of_nat (length (o_yi o1)))%Z /\ settled 3 o1 (CAsk (NPInt 3) "cl_mean").
Proof.
  intros E Hps W W'. set (acq := AOne a) in *. set (need := varied (is_ps acq)).
  assert (Mk : exists g o, make_optimizer Rops GR W (argsN s gen) 0%nat = (g, Ok o) /\ sensible W need (o_cfg o) /\ c_dims (o_cfg o) = mixR /\ c_acq (o_cfg o) = acq /\
    o_left o = 2%Z /\ c_n0 (o_cfg o) = 2%Z /\ c_est (o_cfg o) <> None /\ c_lbfgs (o_cfg o) = false).
  { unfold make_optimizer. cbn [argsN a_acq]. rewrite E. cbn -[finish is_ps W].
    assert (F : forall e g, exists g' o, finish Rops GR W (argsN s gen) acq (Some e) false true g = (g', Ok o) /\ sensible W need (o_cfg o) /\ c_dims (o_cfg o) = mixR /\ c_acq (o_cfg o) = acq /\
      o_left o = 2%Z /\ c_n0 (o_cfg o) = 2%Z /\ c_est (o_cfg o) <> None /\ c_lbfgs (o_cfg o) = false).
    { intros e g. unfold finish. destruct gen; cbn -[W need]; do 2 eexists; (split; [reflexivity|]); cbn -[W need];
        (split; [|repeat split; discriminate]); (split; [discriminate|]); (split; [exact mixR_workable|]); repeat (split; [easy|]); apply WN_dependable. }
    destruct (is_ps acq) eqn:P; cbn -[finish W need]; apply F. }
  destruct Mk as (g & o & Em & Hs & Ed & Ea & El & En & Ee & Eb).
  assert (T : twins GR W W' 2 3 a o o).
  { assert (P2 : 0 < 2) by lra. pose proof (@make_same nat surrogate GR W W' 2 3 _ a (@gp_unit_free keep cho_inv cho_weights cdf pdf gpN None None (arg_sort Rops) (arg_sort Rops)
      (fun _ _ _ _ x => Ok (x, 0%R)) (fun _ _ _ _ x => Ok (x, 0%R)) genR 709%R 709%R 2 3 P2 eq_refl a Hps) (argsN s gen) 0%nat) as Q.
    eapply tw_make; [exact Em|rewrite Q; exact Em|exact Ea|exact Eb]. }
  exists o, o. split; [exact T|]. split; [exact I|].
  assert (C : campaign GR W need o) by (eapply camp_make; eauto).
  assert (Z4 : [YNum 4; YNum 5] = [zR acq 4; zR acq 5]) by (unfold zR; now rewrite Hps). rewrite Z4.
  assert (V : Forall (valid_y1 Rops (is_ps acq)) [zR acq 4%R; zR acq 5%R]) by (repeat apply Forall_cons; try apply Forall_nil; apply zR_ok; lra).
  assert (F : fine o (CTell (X2 [pR1; pR2]) (YLst [zR acq 4%R; zR acq 5%R]) true)).
  { apply fine_tells; [discriminate|reflexivity|rewrite Ed; exact (Forall_cons _ pR1_in (Forall_cons _ pR2_in (Forall_nil _)))|]. unfold ps_of. rewrite Ea. exact V. }
  pose proof (campaign_sound GR_ok (@varied_mono (is_ps acq)) C) as Sd.
  destruct (tell_full GR_ok Sd F) as (o' & r & Et & (vs & l & Ly & Fo) & K). specialize (Fo _ _ eq_refl eq_refl). unfold ps_of in Fo. rewrite Ea in Fo.
  assert (Nd : need (o_yi o')).
  { assert (Y : o_yi o = []) by (eapply make_empty; exact Em). rewrite Ly, Y. cbn [app]. apply varied_mono. exact (differing_varied V Fo (zR_differ acq)). }
  destruct r as [r|x]; [|now elim K]. destruct K as (S' & Ec & Hn & Ho & _). specialize (Ho eq_refl). exists o', r. split; [exact Et|]. split; [exact Ho|]. rewrite Ec, En.
  split.
  - rewrite Ly, !app_length. inversion Fo as [|? ? ? ? _ Fo1]; subst. inversion Fo1; subst. cbn [length]. lia.
  - right. left. split; [|exact Hn]. unfold tell, andthen, get, lift in Et.
    destruct (check_x_in_space _ _ _); [|discriminate]. destruct (check_y _ _ _); [|discriminate]. destruct (convert_y _ _ _ _) as [y'|] eqn:Ey; [|discriminate].
    assert (Ry : exists vs, y' = Yn vs) by (cbn [convert_y] in Ey; apply bind_ok in Ey; destruct Ey as (w & _ & Q); injection Q as <-; eauto). destruct Ry as (ws & ->).
    cbn [targ_of] in Et. destruct (tell_grows Rops GR W true o (rec_many [pR1; pR2] ws)) as [(_ & _ & _ & Hx & _) _]. rewrite Et in Hx. cbn [fst] in Hx. rewrite Hx. now destruct (o_Xi o).
Qed.

(** With the margin left at 0.01 in both units, candidates change places. *)
Definition two_rows : @predictor R := fun X => Ok (mkPred true [-1; -4] [1; 8] [] []).
Definition two_rows_small : @predictor R := fun X => Ok (mkPred true [- / 100; - / 25] [/ 100; 8 / 100] [] []).
Lemma c97_margin : exists v1 v2 w1 w2,
  gaussian_acquisition Rops Phi phi [[0]; [1]] (Single two_rows) (Some 0) "PI" None None false = Ok ([v1; v2], None) /\ v1 < v2 /\
  gaussian_acquisition Rops Phi phi [[0]; [1]] (Single two_rows_small) (Some 0) "PI" None None false = Ok ([w1; w2], None) /\ w2 < w1.
Proof.
  unfold gaussian_acquisition. cbn -[pi_one neg Rops Phi phi]. unfold gaussian_pi, gaussian_imp. cbn -[pi_one neg Rops Phi phi]. do 4 eexists. split; [reflexivity|].
  unfold neg, pi_one, improve, default_xi. cbn -[Phi phi]. unfold Rltb. destruct (Rlt_dec 0 1) as [_|N]; [|exfalso; lra]. destruct (Rlt_dec 0 8) as [_|N]; [|exfalso; lra].
  split; [|split; [reflexivity|]].
  - assert (Phi ((0 - 1 / 100 - -4) / 8) < Phi ((0 - 1 / 100 - -1) / 1)) by (apply Phi_incr; lra). lra.
  - destruct (Rlt_dec 0 (/ 100)) as [_|N]; [|exfalso; lra]. destruct (Rlt_dec 0 (8 / 100)) as [_|N]; [|exfalso; lra].
    assert (Phi ((0 - 1 / 100 - - / 100) / / 100) < Phi ((0 - 1 / 100 - - / 25) / (8 / 100))) by (apply Phi_incr; lra). lra.
Qed.

(** The probabilities of gp_hedge *)
Lemma c97_hedge : exists p q, hedge_weights Rops 1 [0; -1; -1] = Ok p /\ hedge_weights Rops 1 [0; -2; -2] = Ok q /\ nth 0 p 0 < nth 0 q 0.
Proof.
  unfold hedge_weights, np_max, np_argmax. cbn [argmax_aux]. rewrite !isnan_R. cbn [orb Rops nltb]. unfold Rltb.
  destruct (Rlt_dec 0 (-1)) as [N|_]; [exfalso; lra|]. destruct (Rlt_dec 0 (-2)) as [N|_]; [exfalso; lra|]. cbn [nth_of nth_error bind].
  do 2 eexists. split; [reflexivity|]. split; [reflexivity|]. cbn. replace (1 * (0 - 0)) with 0 by ring. rewrite exp_0.
  replace (1 * (-1 - 0)) with (-1) by ring. replace (1 * (-2 - 0)) with (-2) by ring.
  assert (H : exp (-2) < exp (-1)) by (apply exp_increasing; lra). pose proof (exp_pos (-2)). unfold Rdiv. rewrite !Rmult_1_l. apply Rinv_lt_contravar; [|lra]. apply Rmult_lt_0_compat; lra.
Qed.
