(** Concrete resumed minimisations (C99). *)
From Coq Require Import String List ZArith Bool Lia Reals.
From Flocq Require Import IEEE754.BinarySingleNaN.
From Verif Require Import Base Num Values Dimension Space Optimizer Samples SpaceProps2 Acquisition AcqSpec GaussLemmas SpaceSpec OptSpec OptSamples SamplerSamples
  Kernels KernelPsdSpec Gpr GprSpec Cholesky Forest ForestSpec Gbrt GbrtLemmas GpWorld CampaignSpec CampaignCases TreeWorld TreeCases
  Minimize MinSpec MinTotalSpec MinTotal MinInstances MinSamples ResumeSpec ResumeProps.
Import ListNotations.
Close Scope R_scope.
Open Scope list_scope.
Set Implicit Arguments.

(** Arguments with another start. *)
Definition started {N RNG M} (a : margs N RNG M) x0 y0 : margs N RNG M :=
  mkMargs (m_opt a) (m_ncalls a) (m_n0 a) (m_random_starts a) x0 y0 (m_callback a) (m_verbose a).
Definition resumed {N RNG M RNG' M'} (r : result N RNG M) (a : margs N RNG' M') : margs N RNG' M' :=
  started a (X0Seq true (map (fun x => match x with X1 p => IPt p | X2 _ => IPt [] end) (res_x_iters r))) (Y0Seq (map YNum (res_func_vals r))).
Lemma resumed_resumes N RNG M RNG' M' (r : result N RNG M) (a : margs N RNG' M') ps : res_x_iters r = map (@X1 N) ps -> resumes r (resumed r a).
Proof. intros E. exists ps. split; [exact E|]. split; [|reflexivity]. unfold resumed, started. cbn [m_x0]. rewrite E, map_map. reflexivity. Qed.

(** ** In float64: five calls, then four more *)
Definition plainb {N RNG M} (r : result N RNG M) : bool := forallb (fun x => match x with X1 _ => true | X2 _ => false end) (res_x_iters r).
Lemma plainb_ok N RNG M (r : result N RNG M) : plainb r = true -> exists ps, res_x_iters r = map (@X1 N) ps.
Proof.
  unfold plainb. induction (res_x_iters r) as [|[p|l] L IH]; cbn [forallb andb]; intros H; [now exists []| |discriminate].
  destruct (IH H) as [ps ->]. now exists (p :: ps).
Qed.
Definition then_again (m m' : minimizer) (f : objective float) (a a' : margs float nat nat) : bool :=
  match minimize O0 G0 W0 m f a 7 with
  | (t, Some o, Ok (Some r)) => plainb r && match minimize O0 G0 W0 m' f (resumed r a') 8 with (t', Some o', Ok (Some r')) => Nat.eqb (length (evals t)) 5 && Nat.eqb (length (evals t')) 4 && Nat.eqb (length (res_func_vals r')) 9 | _ => false end
  | _ => false
  end.
Lemma then_again_ok m m' f a a' : then_again m m' f a a' = true ->
  exists t o r t' o' r', minimize O0 G0 W0 m f a 7 = (t, Some o, Ok (Some r)) /\ resumes r (resumed r a') /\ minimize O0 G0 W0 m' f (resumed r a') 8 = (t', Some o', Ok (Some r')) /\
    length (evals t) = 5 /\ length (evals t') = 4 /\ length (res_func_vals r') = 9.
Proof.
  unfold then_again. destruct (minimize O0 G0 W0 m f a 7) as [[t [o|]] [[r|]|]]; try discriminate. intros H. apply andb_true_iff in H. destruct H as [H1 H2].
  destruct (plainb_ok _ H1) as [ps E]. destruct (minimize O0 G0 W0 m' f (resumed r a') 8) as [[t' [o'|]] [[r'|]|]] eqn:E'; try discriminate H2.
  apply andb_true_iff in H2. destruct H2 as [H2 H4]. apply andb_true_iff in H2. destruct H2 as [H2 H3]. apply Nat.eqb_eq in H2, H3, H4.
  exists t, o, r, t', o', r'. split; [reflexivity|]. split; [exact (resumed_resumes _ _ _ E)|]. auto.
Qed.
Lemma continues_case : exists t o r t' o' r', let a := margs0 5 2 pts0 Y0None CBNone in let a' := margs0 4 2 X0None Y0None CBNone in
  minimize O0 G0 W0 MBase fm a 7 = (t, Some o, Ok (Some r)) /\ resumes r (resumed r a') /\ minimize O0 G0 W0 (MGp true) fm (resumed r a') 8 = (t', Some o', Ok (Some r')) /\
  length (evals t) = 5 /\ length (evals t') = 4 /\ length (res_func_vals r') = 9.
Proof. apply then_again_ok. vm_compute. reflexivity. Qed.

(** ** With times *)
Definition fsec : objective float := fun k _ => Ok (YLst [num (5 - Z.of_nat k); num 1]).
Definition margs_ps n_calls x0 y0 : margs float nat nat := mkMargs (args0 "EIps" "sampling" None true 9) n_calls 2 None x0 y0 CBNone false.
Definition then_fails (a a' : margs float nat nat) : bool :=
  match minimize O1 G0 W0 MBase fsec a 7 with
  | (t, Some o, Ok (Some r)) => plainb r && match minimize O1 G0 W0 MBase fsec (resumed r a') 7 with (t', _, Raise _) => match evals t' with [] => true | _ => false end | _ => false end
  | _ => false
  end.
Lemma per_second_case : let a := margs_ps 5 X0None Y0None in
  exists t o r t' o' x, minimize O1 G0 W0 MBase fsec a 7 = (t, Some o, Ok (Some r)) /\ resumes r (resumed r a) /\ same_but_start a (resumed r a) /\ minimize O1 G0 W0 MBase fsec (resumed r a) 7 = (t', o', Raise x) /\ evals t' = [].
Proof.
  assert (H : then_fails (margs_ps 5 X0None Y0None) (margs_ps 5 X0None Y0None) = true) by (vm_compute; reflexivity).
  unfold then_fails in H. cbv zeta. destruct (minimize O1 G0 W0 MBase fsec (margs_ps 5 X0None Y0None) 7) as [[t [o|]] [[r|]|]]; try discriminate H. apply andb_true_iff in H. destruct H as [H1 H2].
  destruct (plainb_ok _ H1) as [ps E]. destruct (minimize O1 G0 W0 MBase fsec (resumed r (margs_ps 5 X0None Y0None)) 7) as [[t' o'] [s|x]] eqn:E'; [discriminate H2|].
  destruct (evals t') eqn:Ee; [|discriminate H2]. exists t, o, r, t', o', x. split; [reflexivity|]. split; [exact (resumed_resumes _ _ _ E)|]. split; [repeat split|]. auto.
Qed.

(** ** Over the reals: gp_minimize, then gp_minimize again *)
Lemma succeeds_case s acq s' acq' (gen gen' : bool) : acq_of s = Some acq -> acq_of s' = Some acq' -> is_ps acq' = false ->
  exists t o r t' o' r', minimize Rops GR (WG Phi phi) (MGp false) (fR acq) (argsM gp_est s gen Y0None) 0%nat = (t, Some o, Ok (Some r)) /\
    minimize Rops GR (WG Phi phi) (MGp true) (fR acq') (resumed r (argsM (M := surrogate) gp_est s' gen' Y0None)) 0%nat = (t', Some o', Ok (Some r')).
Proof.
  intros E E' Hp. assert (Ud : forall own s acq gen, up_to_it (WG Phi phi) anything (MGp own) (m_opt (argsM (M := surrogate) gp_est s gen Y0None)) acq).
  { intros own s0 acq0 gen0 d lb U _. cbn [used argsM m_opt a_dims] in U. rewrite normal_treeR in U. injection U as <-. split; [exact mixR_workable|apply WG_dependable]. }
  assert (Od : forall own s acq gen, acq_of s = Some acq -> orderly (MGp own) (fR acq) (argsM (M := surrogate) gp_est s gen Y0None) [pR1; pR2] acq).
  { intros own s0 acq0 gen0 E0. apply (@orderly_case surrogate (MGp own) gp_est s0 acq0 gen0); [discriminate|reflexivity|exact E0]. }
  assert (Hm : MGp false <> MDummy) by discriminate. assert (Hm' : MGp true <> MDummy) by discriminate.
  destruct (c91 GR_ok 0%nat Hm (Od false s acq gen E) (Ud false s acq gen)) as (t & o & r & H & _).
  destruct (orderly_points GR_ok 0%nat Hm (Od false s acq gen E) (Ud false s acq gen) H) as (ps & Ex & _).
  destruct (@c99_succeeds _ _ GR (WG Phi phi) _ _ GR (WG Phi phi) GR_ok GR_ok (MGp false) (fR acq) _ 0%nat _ acq t o r Hm (Od false s acq gen E) (Ud false s acq gen) H
    (MGp true) (fR acq') (resumed r (argsM (M := surrogate) gp_est s' gen' Y0None)) (argsM (M := surrogate) gp_est s' gen' Y0None) 0%nat [pR1; pR2] acq' Hm' (Od true s' acq' gen' E') (Ud true s' acq' gen') Hp)
    as (t' & o' & r' & H' & _); [reflexivity|exact (resumed_resumes _ _ _ Ex)|repeat split|cbn; lia|cbn; lia|].
  exists t, o, r, t', o', r'. auto.
Qed.
Lemma per_second_refuted : exists (f : objective float) (a : margs float nat nat) t o r a' t' o' x,
  a_acq (m_opt a) = "EIps"%string /\ minimize O1 G0 W0 MBase f a 7 = (t, Some o, Ok (Some r)) /\ resumes r a' /\ same_but_start a a' /\
  minimize O1 G0 W0 MBase f a' 7 = (t', o', Raise x) /\ evals t' = [].
Proof. destruct per_second_case as (t & o & r & t' & o' & x & H). exists fsec, (margs_ps 5 X0None Y0None), t, o, r. eexists. exists t', o', x. split; [reflexivity|exact H]. Qed.
