(** Cases of C98. *)
From Coq Require Import String List ZArith Bool Lia Reals Lra.
From Verif Require Import Base BaseLemmas Num NumLaws Values Dimension Space Optimizer SpaceSpec OptSpec OptLemmas OptSamples SamplerSamples PickCases Acquisition AcqSpec Kernels Gpr GprSpec GprSamples Cholesky GpWorld CampaignSpec Campaign GpDependable CampaignCases Sampler SamplerProps Generators ScaleSpec ScaleDim ScaleOpt ScaleGen.
Import ListNotations.
Open Scope R_scope.
Open Scope list_scope.
Set Implicit Arguments.

(** A surrogate that is least at 1/2 *)
Definition WH : world R nat := {|
  w_fit := fun X y => Ok (length X); w_predict := fun m xs => Ok (map (fun _ => 1%R) xs);
  w_acq := fun a m yopt X => Ok (map (fun r => match r with [VFloat x] => (x - / 2) * (x - / 2) | _ => 0 end) X); w_argsort := fun l => seq 0 (length l);
  w_lbfgs := fun a m yopt bs x => Ok (x, 0%R); w_generate := fun dims n seed => Ok []; w_logmax := 709%R |}.
Definition spanR (k : tkind) (lo hi : R) : dim R := DReal (mkReal lo hi PUniform 10 k None DT64).
Definition some_est (gp : bool) : est_desc := {| ed_gp := gp; ed_multi := true; ed_grad := false; ed_regressor := true |}.
Definition argsH (gp : bool) (ds : list (dim R)) : oargs R := mkArgs ds (Some (some_est gp)) true 1 false "EI" "sampling" None 2 5 1.
Definition madeH (gp : bool) (lo hi : R) : opt R nat nat :=
  mkOpt (mkCfg [spanR (if gp then KNormalize else KIdentity) lo hi] (AOne EI) false 2 5 1 (Some (some_est gp)) false 1 None) 1 None [] [] [] [] None None [] 1%nat.
Lemma madeH_ok gp lo hi : make_optimizer Rops GR WH (argsH gp [spanR KIdentity lo hi]) 0%nat = (1%nat, Ok (madeH gp lo hi)).
Proof. destruct gp; cbn. reflexivity. reflexivity. Qed.
Ltac decide_all := repeat match goal with
  | |- context [Rlt_dec ?a ?b] => first [destruct (Rlt_dec a b) as [_|?N]; [|exfalso; lra] | destruct (Rlt_dec a b) as [?N|_]; [exfalso; lra|]]
  | |- context [Rle_dec ?a ?b] => first [destruct (Rle_dec a b) as [_|?N]; [|exfalso; lra] | destruct (Rle_dec a b) as [?N|_]; [exfalso; lra|]]
  end.

Ltac run := lazy -[IZR Rabs Rlt_dec Rle_dec Rlt_le_dec Rplus Rminus Rmult Rdiv Rinv Ropp Req_EM_T total_order_T].
Definition tellH (v : R) : call R := CTell (X1 [VFloat v]) (YNum 1) true.
Definition askH : call R := CAsk NPNone "cl_min".
Definition asked_after (gp : bool) (lo hi v : R) := snd (do_call Rops GR WH askH (fst (do_call Rops GR WH (tellH v) (madeH gp lo hi)))).
Definition answers (r : res (@OptSpec.answer R nat nat)) (x : R) : Prop := exists z, r = Ok (RAsked (A1pt [VFloat z])) /\ z = x.
Ltac found := unfold answers, asked_after;
  match goal with |- context [do_call Rops GR WH (tellH ?v) ?m] => let o := fresh in let r := fresh in let E := fresh in
    evar (o : opt R nat nat); evar (r : res (@OptSpec.answer R nat nat)); assert (E : do_call Rops GR WH (tellH v) m = (o, r)) by (subst o r; run; do 3 (decide_all; run); reflexivity); rewrite E; subst o r; clear E end;
  cbn [fst]; run; decide_all; run; eexists; (split; [reflexivity|lra]).
Lemma raw_one : answers (asked_after false 0 1 0) (/ 2).
Proof. found. Qed.
Lemma raw_four : answers (asked_after false 0 4 0) 0.
Proof. found. Qed.

(** A Gaussian process, a Latin hypercube of initial points, a real and a categorical parameter; the real one is
    stretched by 1000 and shifted by 7. *)
Definition flatR : @lhs_stats R := {| st_corr := fun _ => Ok (Some 0, 0); st_min := fun _ => Ok 0; st_ratio := fun _ => Ok 1 |}.
Definition genS := generate Rops GR flatR (DLhs LClassic CNone 1).
Definition WS (cdf pdf : R -> R) : world R surrogate :=
  gp_world keep cho_inv cho_weights cdf pdf gp1 None None (arg_sort Rops) (fun _ _ _ _ x => Ok (x, 0%R)) genS 709%R.
Definition fsS : list (pyval R -> pyval R) := [measured (fun x => 1000 * x + 7); fun v => v].
Definition milliR : dim R := DReal (mkReal 2007 5007 PUniform 10 KIdentity None DT64).
Lemma spacesS : spaces (a_dims (argsG "EI" true)) [milliR; colorR KOnehot] fsS.
Proof.
  unfold spaces, fsS. cbn [argsG a_dims]. constructor; [|constructor; [apply rs_same|constructor]].
  replace milliR with (moved (1000 * 2 + 7) (1000 * 5 + 7) (mkReal 2 5 PUniform 10 KIdentity None DT64)); [apply (@rs_linear 1000 7 (mkReal 2 5 PUniform 10 KIdentity None DT64)); cbn; try reflexivity; lra|].
  unfold moved, milliR. cbn [r_prior r_base r_kind r_name r_dtype]. do 2 f_equal; lra.
Qed.
Lemma WS_alike cdf pdf : gen_alike fsS (WS cdf pdf) genS.
Proof. apply generate_alike. reflexivity. Qed.
Lemma genS_ok n seed : (0 <= n)%Z -> exists l, genS mixR n seed = Ok l /\ length l = Z.to_nat n /\ Forall (in_space Rops mixR) l.
Proof.
  intros _. unfold genS, generate. destruct (@lhs_generate_ok nat GR GR_ok flatR LClassic CNone 1 mixR (Z.to_nat n) (rg_seed GR seed)) as (l & E & H); [discriminate| |discriminate|now left|].
  - pose proof mixR_workable as F. inversion F as [|d1 l1 W1 F1]; subst. inversion F1 as [|d2 l2 W2 _]; subst.
    constructor; [|constructor; [|constructor]]; (split; [solve [apply W1|apply W2]|]); cbn; [exact I|lia].
  - exists l. rewrite E. cbn [snd]. split; [reflexivity|exact H].
Qed.
Lemma WS_dependable cdf pdf acq lb : dependable (WS cdf pdf) anything mixR acq lb.
Proof.
  apply gp_dependable; try reflexivity.
  - intros k X y H. exact H.
  - repeat constructor; lra.
  - cbn. lra.
  - intros _ m a yopt r _ H. do 2 eexists. split; [reflexivity|exact H].
  - intros l Hl. exact (arg_sort_ok Rops Rops_order l Hl).
  - exact genS_ok.
Qed.
Lemma WS_made cdf pdf s acq gen : acq_of s = Some acq -> exists g o, make_optimizer Rops GR (WS cdf pdf) (argsG s gen) 0%nat = (g, Ok o) /\
  sensible (WS cdf pdf) anything (o_cfg o) /\ c_dims (o_cfg o) = mixR /\ c_acq (o_cfg o) = acq /\ o_left o = 1%Z /\ c_n0 (o_cfg o) = 1%Z /\ c_est (o_cfg o) <> None.
Proof.
  intros E. unfold make_optimizer. cbn [argsG a_acq]. rewrite E. cbn -[finish is_ps].
  assert (F : forall e g, exists g' o, finish Rops GR (WS cdf pdf) (argsG s gen) acq (Some e) false true g = (g', Ok o) /\
    sensible (WS cdf pdf) anything (o_cfg o) /\ c_dims (o_cfg o) = mixR /\ c_acq (o_cfg o) = acq /\ o_left o = 1%Z /\ c_n0 (o_cfg o) = 1%Z /\ c_est (o_cfg o) <> None).
  { intros e g. unfold finish. cbn [argsG a_dims]. change (set_kinds_all KNormalize [realR KIdentity; colorR KOnehot]) with (Ok mixR). cbn [argsG a_gen a_n0 a_npoints a_restarts a_eta a_queue].
    assert (Sn : sensible (WS cdf pdf) anything {| c_dims := mixR; c_acq := acq; c_lbfgs := false; c_npoints := 3; c_restarts := 2; c_eta := 1; c_est := Some e; c_gen := gen; c_n0 := 1; c_queue := Some 2%Z |}).
    { split; [discriminate|]. split; [exact mixR_workable|]. repeat (split; [easy|]). apply WS_dependable. }
    destruct gen.
    - destruct (rg_randint GR g 0 int_max) as [seed g']. destruct (@genS_ok 1 seed) as (l & El & _); [lia|]. cbn [w_generate WS gp_world]. rewrite El. exists g'. eexists. split; [reflexivity|]. cbn [o_cfg c_dims c_acq o_left c_n0 c_est]. split; [exact Sn|]. repeat (split; [reflexivity|]). discriminate.
    - exists g. eexists. split; [reflexivity|]. cbn [o_cfg c_dims c_acq o_left c_n0 c_est]. split; [exact Sn|]. repeat (split; [reflexivity|]). discriminate. }
  destruct (is_ps acq); cbn -[finish]; apply F.
Qed.
Lemma c98_case cdf pdf s acq (gen : bool) : acq_of s = Some acq -> let W := WS cdf pdf in
  exists o o', pair_of GR fsS W genS o o' /\ c_dims (o_cfg o) = mixR /\ c_dims (o_cfg o') <> mixR /\
    same_call fsS (CTell (X1 pR2) (yR acq) true) (CTell (X1 [VFloat (1000 * 2 + 7); VStr "red"]) (yR acq) true) /\
    exists o1 r, tell Rops GR W (X1 pR2) (yR acq) true o = (o1, Ok r) /\ open o1 /\ (c_n0 (o_cfg o1) <= Z.of_nat (length (o_yi o1)))%Z /\ c_est (o_cfg o1) <> None.
Proof.
  intros E W. destruct (WS_made cdf pdf s gen E) as (g & o & Em & Hs & Ed & Ea & El & En & Ee). fold W in Em, Hs.
  pose proof (@c98_make nat surrogate GR W genS fsS (WS_alike cdf pdf) (argsG s gen) [milliR; colorR KOnehot] 0%nat spacesS) as Mk. rewrite Em in Mk.
  destruct (make_optimizer Rops GR (with_gen W genS) (with_dims [milliR; colorR KOnehot] (argsG s gen)) 0%nat) as [g' [o'|e]] eqn:Em'; [|contradiction]. destruct Mk as (_ & S1 & N1).
  assert (N2 : Forall3 normal (c_dims (o_cfg o)) (c_dims (o_cfg o')) fsS) by (apply N1; left; cbn; auto).
  exists o, o'. split; [|split; [exact Ed|split; [|split]]].
  - eapply (@po_make nat surrogate GR fsS W genS (argsG s gen)); [exact spacesS|exact Em|exact Em'|exact N2].
  - rewrite Ed in S1. unfold mixR, realR, fsS in S1. intro Q. rewrite Q in S1. inversion S1 as [|a b c la lb lc H1 _]; subst.
    pose proof (@rescaled_contains _ _ _ (VFloat 3) H1) as C. rewrite !contains_real in C. cbn -[Rleb'] in C. unfold Rleb' in C.
    destruct (Rle_dec 2 3) as [_|?]; [|lra]. destruct (Rle_dec 3 5) as [_|?]; [|lra]. destruct (Rle_dec (1000 * 3 + 7) 5) as [?|_]; [lra|]. repeat match goal with H : context [if ?x then _ else _] |- _ => destruct x end; discriminate.
  - exact (sc_tell fsS (X1 pR2) (yR acq) true).
  - assert (C : campaign GR W anything o) by (eapply camp_make; eauto).
    assert (Y : valid_y1 Rops (ps_of o) (yR acq)) by (unfold ps_of; rewrite Ea; apply yR_ok).
    assert (F : fine o (CTell (X1 pR2) (yR acq) true)) by (constructor; [rewrite Ed; exact pR2_in|exact Y]).
    destruct (tell_user_total GR_ok (campaign_sound GR_ok any_mono C) F) as (o1 & [r|x] & Et & _ & K); [destruct K as (_ & Ec & Hn & Ho & _)|now elim K]. exists o1, r. split; [exact Et|].
    specialize (Ho eq_refl). split; [exact Ho|]. rewrite !Ec, En. split; [destruct (o_yi o1); [easy|]; cbn [length]; lia|exact Ee].
Qed.
(** Logarithmic parameters: grams and kilograms *)
Lemma c98_log : rescaled (DReal (mkReal 1 1000 PLogUniform 10 KNormalize None DT64)) (DReal (mkReal (/ 1000 * 1) (/ 1000 * 1000) PLogUniform 10 KNormalize None DT64)) (measured (fun x => / 1000 * x)).
Proof. apply (@rs_log (/ 1000) (mkReal 1 1000 PLogUniform 10 KNormalize None DT64)); cbn; try reflexivity; lra. Qed.

(** Without normalisation *)
Lemma c98_raw : exists (W : world R nat) gen fs a ds' g g1 g1' o o' c c' d x y,
  gen_alike fs W gen /\ spaces (a_dims a) ds' fs /\ make_optimizer Rops GR W a g = (g1, Ok o) /\ make_optimizer Rops GR (with_gen W gen) (with_dims ds' a) g = (g1', Ok o') /\
  same_call fs c c' /\ same_call fs d d /\
  snd (do_call Rops GR W d (fst (do_call Rops GR W c o))) = Ok (RAsked (A1pt x)) /\
  snd (do_call Rops GR (with_gen W gen) d (fst (do_call Rops GR (with_gen W gen) c' o'))) = Ok (RAsked (A1pt y)) /\ y <> conv fs x.
Proof.
  destruct raw_one as (z1 & E1 & Q1). destruct raw_four as (z4 & E4 & Q4).
  exists WH, (fun _ _ _ => Ok []), [measured (fun x => 4 * x + 0)], (argsH false [spanR KIdentity 0 1]), [spanR KIdentity 0 4], 0%nat, 1%nat, 1%nat, (madeH false 0 1), (madeH false 0 4), (tellH 0), (tellH 0), askH, [VFloat z1], [VFloat z4].
  split; [intros ds ds' n seed _; split; [reflexivity|intros l [= <-]; constructor]|].
  split; [cbn [argsH a_dims]; constructor; [|constructor]|].
  { replace (spanR KIdentity 0 4) with (moved (4 * 0 + 0) (4 * 1 + 0) (mkReal 0 1 PUniform 10 KIdentity None DT64)); [apply (@rs_linear 4 0 (mkReal 0 1 PUniform 10 KIdentity None DT64)); cbn; try reflexivity; lra|].
    unfold moved, spanR. cbn [r_prior r_base r_kind r_name r_dtype]. do 2 f_equal; lra. }
  split; [apply madeH_ok|]. split; [exact (madeH_ok false 0 4)|].
  split; [|split; [apply sc_ask|split; [exact E1|split; [exact E4|]]]].
  - unfold tellH. replace (X1 [VFloat 0]) with (conv_x [measured (fun x => 4 * x + 0)] (X1 [VFloat 0])) at 2; [apply sc_tell|]. cbn. do 4 f_equal; lra.
  - cbn. intros [= H]. subst. lra.
Qed.
