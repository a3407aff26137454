(** Concrete optimizers for the non-vacuity examples and counterexamples (C13-C26, C61, C62). *)
From Coq Require Import String List ZArith Bool Lia Reals.
From Flocq Require Import IEEE754.BinarySingleNaN.
From Verif Require Import Base Num Values Dimension Space Optimizer NumLaws BaseLemmas SpaceSpec MetricLemmas
  Samples SpaceProps SpaceProps2 OptSpec OptLemmas2 OptLemmas4 OptLemmas5 OptBatch.
Import ListNotations.
Open Scope list_scope.

(** A model is the number of points it was fitted to; all candidates look alike to it. The design is
    one point repeated. *)
Definition pa : point float := [VFloat (fofZ 0); VInt 2].
Definition pb : point float := [VFloat (fofZ 5); VInt (-3)].
Definition pc : point float := [VFloat (fofZ 1); VInt 12].
Definition W0 : world float nat := {|
  w_fit := fun X y => if Nat.eqb (length X) (length y) then Ok (length X) else Raise ValueError;
  w_predict := fun m xs => Ok (map (fun _ => fofZ 1) xs);
  w_acq := fun a m yopt X => Ok (map (fun _ => fofZ 0) X);
  w_argsort := fun l => seq 0 (length l);
  w_lbfgs := fun a m yopt bs x => Ok (x, fofZ 0);
  w_generate := fun dims n seed =>
    match check_x_in_space O0 (X1 pa) dims with Ok _ => Ok (repeat pa (Z.to_nat n)) | Raise e => Raise e end;
  w_logmax := fofZ 709 |}.
Lemma W0_gen dims n : gen_ok O0 W0 dims n.
Proof.
  intros seed l. unfold W0. cbn [w_generate].
  destruct (check_x_in_space O0 (X1 pa) dims) as [[]|] eqn:E; [|discriminate]. intros H. injection H as <-.
  apply check_point_ok in E. split; [apply repeat_length|]. apply Forall_forall. intros p Hp.
  apply repeat_spec in Hp. now subst.
Qed.
Definition gp_est : est_desc := {| ed_gp := true; ed_multi := false; ed_grad := true; ed_regressor := true |}.
Definition dims2 : list (dim float) := [real1 KIdentity; int1 KIdentity].
Definition args0 (acq acqopt : string) (q : option Z) (gen : bool) (n0 : Z) : oargs float :=
  mkArgs dims2 (Some gp_est) true n0 gen acq acqopt q 3 2 (fofZ 1).

Definition made (r : nat * res (opt float nat nat)) : opt float nat nat :=
  match snd r with
  | Ok o => o
  | Raise _ => mkOpt (mkCfg [] AHedge false 0 0 (fofZ 0) None false 0 None) 0 None [] [] [] [] None None [] 0
  end.
Definition new0 acq acqopt q gen n0 := made (make_optimizer O0 G0 W0 (args0 acq acqopt q gen n0) 7).
(** With gp_hedge, L-BFGS, at most two models and a design of two points. *)
Definition opt0 := new0 "gp_hedge" "auto" (Some 2%Z) true 2.
Definition num (z : Z) : yarg float := YNum (fofZ z).
Definition calls0 : list (call float) :=
  [CAsk NPNone "cl_min"; CTell (X1 pa) (num 3) true; CAsk (NPInt 2) "cl_max";
   CTell (X2 [pb; pc]) (YLst [num 1; num 2]) true; CAsk NPNone "cl_min"; CAsk (NPInt 3) "cl_min"; CUpdate;
   CRun (fun k _ => Ok (num (Z.of_nat k))) 2; CResult].
Definition after0 := fst (exec O0 G0 W0 calls0 opt0).

(** Comparison of outcomes. *)
Definition view_x (x : xarg float) : list (list (pyval SpecFloat.spec_float)) :=
  match x with X1 p => [map view p] | X2 l => map (map view) l end.
Definition view_y (v : yval float) : yval SpecFloat.spec_float :=
  match v with YS y => YS (B2SF y) | YP y t => YP (B2SF y) (B2SF t) end.

Lemma made_reachable RNG (G : rng_ops float RNG) a g :
  forall (W : world float nat) L r, make_optimizer (F64 L) G W a g = r -> is_ok (snd r) = true ->
  exists o, snd r = Ok o /\ reachable (F64 L) G W o.
Proof.
  intros W L [g' [o|]] E H; [|discriminate]. exists o. split; [easy|]. eapply r_make; eauto.
Qed.
Lemma new0_reachable acq acqopt q gen n0 :
  is_ok (snd (make_optimizer O0 G0 W0 (args0 acq acqopt q gen n0) 7)) = true ->
  reachable O0 G0 W0 (new0 acq acqopt q gen n0).
Proof.
  intros H. destruct (made_reachable _ G0 (args0 acq acqopt q gen n0) 7 W0 L0 _ eq_refl H) as (o & E & Hr).
  unfold new0, made. fold O0 in E. rewrite E. exact Hr.
Qed.
Lemma opt0_reachable : reachable O0 G0 W0 opt0.
Proof. apply new0_reachable. vm_compute. reflexivity. Qed.
Lemma exec_reachable N RNG M O G W cs : forall o, @reachable N RNG M O G W o -> reachable O G W (fst (exec O G W cs o)).
Proof.
  induction cs as [|c cs IH]; intros o H; [exact H|]. rewrite exec_cons. simpl. apply IH. now apply r_call.
Qed.
Lemma after0_reachable : reachable O0 G0 W0 after0.
Proof. apply exec_reachable, opt0_reachable. Qed.
Lemma forallb_ok {A} (l : list (res A)) : forallb is_ok l = true -> Forall (fun r => is_ok r = true) l.
Proof. intros H. apply Forall_forall. intros x Hx. rewrite forallb_forall in H. auto. Qed.
Lemma calls0_ok : Forall (fun r => is_ok r = true) (snd (exec O0 G0 W0 calls0 opt0)).
Proof. apply forallb_ok. vm_compute. reflexivity. Qed.

(** Reading off outcomes. *)
Lemma outcome {S A} (t : S * res A) : is_ok (snd t) = true -> exists r, t = (fst t, Ok r).
Proof. destruct t as [s [a|]]; [intros _; now exists a|discriminate]. Qed.
Definition raises {A} (e : exn) (r : res A) : bool :=
  match r with
  | Ok _ => false
  | Raise x => match x, e with
               | ValueError, ValueError | TypeError, TypeError | RuntimeError, RuntimeError
               | IndexError, IndexError | AttributeError, AttributeError => true
               | _, _ => false
               end
  end.
Lemma some_of {A} (o : option A) : match o with Some _ => true | None => false end = true -> o <> None.
Proof. now destruct o. Qed.
Lemma cons_of {A} (l : list A) : match l with [] => false | _ => true end = true -> l <> [].
Proof. now destruct l. Qed.
Lemma raised {S A} e (t : S * res A) : raises e (snd t) = true -> t = (fst t, Raise e).
Proof. destruct t as [s [a|x]]; [discriminate|]. simpl. now destruct x, e. Qed.

(** Without a generator, everything in the initial phase. *)
Definition fresh5 := new0 "EI" "sampling" None false 5.
Lemma fresh5_reachable : reachable O0 G0 W0 fresh5.
Proof. apply new0_reachable. vm_compute. reflexivity. Qed.

Lemma mismatched_batch : exists o pts ys o' r, reachable O0 G0 W0 o /\ aligned o /\
  tell O0 G0 W0 (X2 pts) (YLst ys) true o = (o', Ok r) /\ ~ aligned o'.
Proof.
  destruct (outcome (tell O0 G0 W0 (X2 [pa; pb; pc]) (YLst [num 1; num 2]) true fresh5)) as (r & E).
  { vm_compute. reflexivity. }
  exists fresh5, [pa; pb; pc], [num 1; num 2]. eexists _, r.
  split; [apply fresh5_reachable|]. split; [vm_compute; reflexivity|]. split; [exact E|].
  unfold aligned. vm_compute. discriminate.
Qed.
Lemma batch_with_scalar : exists o pts y o' r pts', reachable O0 G0 W0 o /\
  tell O0 G0 W0 (X2 pts) (YNum y) true o = (o', Ok r) /\
  o_Xi o = [] /\ o_Xi o' = [X2 pts'] /\ length pts' = 2 /\ length (o_yi o') = 1.
Proof.
  set (t := tell O0 G0 W0 (X2 [pa; pb]) (num 1) true fresh5).
  assert (H : is_ok (snd t) = true) by (vm_compute; reflexivity).
  assert (V : match o_Xi (fst t) with [X2 l] => Nat.eqb (length l) 2 | _ => false end = true) by (vm_compute; reflexivity).
  assert (V2 : length (o_yi (fst t)) = 1) by (vm_compute; reflexivity).
  destruct (outcome _ H) as (r & E).
  destruct (o_Xi (fst t)) as [|[|l] [|]] eqn:EX; try discriminate V. apply Nat.eqb_eq in V.
  exists fresh5, [pa; pb], (fofZ 1), (fst t), r, l.
  split; [apply fresh5_reachable|]. split; [exact E|]. split; [vm_compute; reflexivity|]. auto.
Qed.

(** Results of two calls. *)
Lemma two_results : exists o1 o2 o3 outs r1 r2,
  do_call O0 G0 W0 (CTell (X1 pa) (num 3) true) opt0 = (o1, Ok (RResult r1)) /\
  exec O0 G0 W0 [CTell (X2 [pb; pc]) (YLst [num 1; num 2]) true] o1 = (o2, outs) /\
  do_call O0 G0 W0 CResult o2 = (o3, Ok (RResult r2)) /\
  no_nan O0 (res_func_vals r2) /\ length (res_func_vals r2) = 3 /\
  nltb O0 (res_fun r2) (res_fun r1) = true.
Proof.
  assert (H1 : is_ok (snd (tell O0 G0 W0 (X1 pa) (num 3) true opt0)) = true) by (vm_compute; reflexivity).
  destruct (outcome _ H1) as (r1 & E1).
  set (o1 := fst (tell O0 G0 W0 (X1 pa) (num 3) true opt0)) in *.
  set (o2 := fst (exec O0 G0 W0 [CTell (X2 [pb; pc]) (YLst [num 1; num 2]) true] o1)).
  assert (H2 : is_ok (snd (get_result O0 o2)) = true) by (vm_compute; reflexivity).
  destruct (outcome _ H2) as (r2 & E2).
  destruct (get_result_spec E2) as [Ef _]. rewrite Ef in E2. clear Ef.
  exists o1, o2, o2, (snd (exec O0 G0 W0 [CTell (X2 [pb; pc]) (YLst [num 1; num 2]) true] o1)), r1, r2.
  split; [cbn [do_call]; rewrite E1; reflexivity|]. split; [apply surjective_pairing|].
  split; [cbn [do_call]; rewrite E2; reflexivity|].
  assert (R1 : snd (tell O0 G0 W0 (X1 pa) (num 3) true opt0) = Ok r1) by (rewrite E1; reflexivity).
  assert (R2 : snd (get_result O0 o2) = Ok r2) by (rewrite E2; reflexivity).
  assert (V : forallb (fun v => negb (nisnan O0 v)) (match snd (get_result O0 o2) with Ok r => res_func_vals r | _ => [] end) = true /\
              length (match snd (get_result O0 o2) with Ok r => res_func_vals r | _ => [] end) = 3 /\
              match snd (get_result O0 o2), snd (tell O0 G0 W0 (X1 pa) (num 3) true opt0) with
              | Ok r2, Ok r1 => nltb O0 (res_fun r2) (res_fun r1) | _, _ => false end = true).
  { split; [vm_compute; reflexivity|]. split; vm_compute; reflexivity. }
  rewrite R1, R2 in V. cbv beta iota in V. destruct V as (V1 & V2 & V3). split; [|auto].
  apply Forall_forall. intros v Hv. rewrite forallb_forall in V1. apply V1 in Hv. now apply negb_true_iff in Hv.
Qed.

(** After the nine calls the model phase has begun. *)
Lemma after0_facts : o_cfg after0 = o_cfg opt0 /\ length (o_yi after0) = 5 /\ length (o_Xi after0) = 5 /\
  c_est (o_cfg after0) <> None /\ c_n0 (o_cfg after0) = 2%Z /\ o_models after0 = [4; 5] /\ o_cache after0 = [].
Proof.
  split.
  { assert (E : forall cs o, o_cfg (fst (exec O0 G0 W0 cs o)) = o_cfg o).
    { induction cs as [|c cs IH]; intros o; [easy|]. rewrite exec_cons. simpl. rewrite IH.
      destruct (call_grows O0 G0 W0 c o) as (xs & ys & (E & _)). exact E. }
    apply E. }
  split; [vm_compute; reflexivity|]. split; [vm_compute; reflexivity|]. split; [vm_compute; discriminate|].
  split; [vm_compute; reflexivity|]. split; vm_compute; reflexivity.
Qed.
Lemma dims2_samplable k : k = KIdentity \/ k = KNormalize -> Forall (samplable L0) [real1 k; int1 k].
Proof.
  intros Hk. constructor; [|constructor; [|constructor]].
  - split; [apply wf_real1; destruct Hk; auto|]. split; [split; [|split]; now vm_compute|]. intros E; discriminate E.
  - split; [apply wf_int1; destruct Hk; auto|]. split; [split; [|split]; now vm_compute|]. intros E; discriminate E.
Qed.
Lemma opt0_dims : c_dims (o_cfg opt0) = [real1 KNormalize; int1 KNormalize].
Proof.
  assert (E : snd (make_optimizer O0 G0 W0 (args0 "gp_hedge" "auto" (Some 2%Z) true 2) 7) = Ok opt0).
  { assert (K : is_ok (snd (make_optimizer O0 G0 W0 (args0 "gp_hedge" "auto" (Some 2%Z) true 2) 7)) = true) by (vm_compute; reflexivity).
    destruct (outcome _ K) as (o & E). unfold opt0, new0, made. rewrite E. reflexivity. }
  destruct (make_optimizer O0 G0 W0 (args0 "gp_hedge" "auto" (Some 2%Z) true 2) 7) as [g' r] eqn:Em. simpl in E. subst r.
  change (finish O0 G0 W0 (args0 "gp_hedge" "auto" (Some 2%Z) true 2) AHedge (Some gp_est) true true
    (snd (rg_randint G0 7 0 int_max)) = (g', Ok opt0)) in Em.
  apply finish_ok in Em. destruct Em as (d & init & Ed & -> & _). cbn [o_cfg c_dims].
  change (Ok [real1 KNormalize; int1 KNormalize] = Ok d) in Ed. congruence.
Qed.
Lemma after0_samplable : Forall (samplable L0) (c_dims (o_cfg after0)) /\ c_dims (o_cfg after0) <> [].
Proof.
  destruct after0_facts as (E & _). rewrite E, opt0_dims. split; [apply dims2_samplable; auto|discriminate].
Qed.
Lemma asks_one N RNG M (O : numops N) (G : rng_ops N RNG) (W : world N M) s o :
  is_ok (snd (ask1 O G o)) = true -> exists o' p, ask O G W NPNone s o = (o', Ok (A1pt p)).
Proof.
  intros H. rewrite ask_none. destruct (ask1 O G o) as [o1 [p|]]; [|discriminate]. now exists o1, p.
Qed.
Lemma asks_many N RNG M (O : numops N) (G : rng_ops N RNG) (W : world N M) n s o :
  is_ok (snd (ask_n O G W n s o)) = true -> exists o' X, ask O G W (NPInt n) s o = (o', Ok (Apts X)).
Proof.
  cbn [ask]. unfold andthen, ret. destruct (ask_n O G W n s o) as [o1 [X|]]; [|discriminate]. now exists o1, X.
Qed.
Lemma after0_asks s : (exists p, ask O0 G0 W0 NPNone s after0 = (after0, Ok (A1pt p))) /\
  (exists o' X, ask O0 G0 W0 (NPInt 2) "cl_min" after0 = (o', Ok (Apts X))).
Proof.
  split.
  - destruct (asks_one _ _ _ O0 G0 W0 s after0) as (o' & p & E); [vm_compute; reflexivity|].
    destruct after0_facts as (_ & F1 & _ & F2 & F3 & _).
    assert (He : has_est after0 = true) by (unfold has_est; now destruct (c_est (o_cfg after0))).
    assert (Hn : (c_n0 (o_cfg after0) <= Z.of_nat (length (o_yi after0)))%Z) by (rewrite F1, F3; simpl; lia).
    destruct (ask_surrogate _ (reachable_good after0_reachable) Hn He E) as (Ef & _). rewrite Ef in E. now exists p.
  - apply asks_many. vm_compute. reflexivity.
Qed.

(** A tell that fits, with the weights of gp_hedge. *)
Lemma after0_tells : exists o' r, tell O0 G0 W0 (X1 pc) (num 8) true after0 = (o', Ok r) /\
  (c_n0 (o_cfg o') <= Z.of_nat (length (o_yi o')))%Z /\ c_est (o_cfg o') <> None /\ c_acq (o_cfg o') = AHedge /\
  o_next_xs after0 <> None.
Proof.
  assert (H : is_ok (snd (tell O0 G0 W0 (X1 pc) (num 8) true after0)) = true) by (vm_compute; reflexivity).
  destruct (outcome _ H) as (r & E). eexists _, r. split; [exact E|].
  split; [vm_compute; discriminate|]. split; [vm_compute; discriminate|].
  split; [vm_compute; reflexivity|apply some_of; vm_compute; reflexivity].
Qed.

(** Sampling and expected improvement. *)
Definition opt1 := fst (exec O0 G0 W0 [CTell (X1 pa) (num 3) true] (new0 "EI" "sampling" None false 1)).
Lemma opt1_reachable : reachable O0 G0 W0 opt1.
Proof. apply exec_reachable, new0_reachable. vm_compute. reflexivity. Qed.
Lemma opt1_tells : exists o' r, tell O0 G0 W0 (X1 pb) (num 2) true opt1 = (o', Ok r) /\
  (c_n0 (o_cfg o') <= Z.of_nat (length (o_yi o')))%Z /\ c_est (o_cfg o') <> None /\
  c_lbfgs (o_cfg o') = false /\ c_acq (o_cfg o') = AOne EI /\ ps_of o' = false /\ no_nan O0 (map y_obj (o_yi o')).
Proof.
  assert (H : is_ok (snd (tell O0 G0 W0 (X1 pb) (num 2) true opt1)) = true) by (vm_compute; reflexivity).
  destruct (outcome _ H) as (r & E). eexists _, r. split; [exact E|].
  split; [vm_compute; discriminate|]. split; [vm_compute; discriminate|].
  split; [vm_compute; reflexivity|]. split; [vm_compute; reflexivity|]. split; [vm_compute; reflexivity|].
  assert (V : forallb (fun v => negb (nisnan O0 v)) (map y_obj (o_yi (fst (tell O0 G0 W0 (X1 pb) (num 2) true opt1)))) = true)
    by (vm_compute; reflexivity).
  apply Forall_forall. intros v Hv. rewrite forallb_forall in V. apply V in Hv. now apply negb_true_iff in Hv.
Qed.
Lemma opt1_plain : aligned opt1 /\ o_yi opt1 <> [] /\ no_nan O0 (map y_obj (o_yi opt1)) /\ ps_of opt1 = false /\ o_cache opt1 = [] /\
  exists o' X, ask O0 G0 W0 (NPInt 3) "cl_max" opt1 = (o', Ok (Apts X)).
Proof.
  split; [vm_compute; reflexivity|]. split; [apply cons_of; vm_compute; reflexivity|]. split.
  { assert (V : forallb (fun v => negb (nisnan O0 v)) (map y_obj (o_yi opt1)) = true) by (vm_compute; reflexivity).
    apply Forall_forall. intros v Hv. rewrite forallb_forall in V. apply V in Hv. now apply negb_true_iff in Hv. }
  split; [vm_compute; reflexivity|]. split; [vm_compute; reflexivity|].
  apply asks_many. vm_compute. reflexivity.
Qed.

(** Telling everything without fitting leaves nothing to ask. *)
Lemma unfitted_ask : exists o, reachable O0 G0 W0 o /\ (c_n0 (o_cfg o) <= Z.of_nat (length (o_yi o)))%Z /\
  c_est (o_cfg o) <> None /\ exists o', ask O0 G0 W0 NPNone "cl_min" o = (o', Raise RuntimeError).
Proof.
  exists (fst (exec O0 G0 W0 [CTell (X1 pa) (num 3) false] (new0 "EI" "sampling" None false 1))).
  split. { apply exec_reachable, new0_reachable. vm_compute. reflexivity. }
  split; [vm_compute; discriminate|]. split; [vm_compute; discriminate|].
  eexists. apply raised. vm_compute. reflexivity.
Qed.

(** A queue of size 0. *)
Lemma empty_queue : exists o, reachable O0 G0 W0 o /\ c_queue (o_cfg o) = Some 0%Z /\
  exists o', tell O0 G0 W0 (X1 pa) (num 3) true o = (o', Raise IndexError).
Proof.
  exists (new0 "EI" "sampling" (Some 0%Z) false 1). split; [apply new0_reachable; vm_compute; reflexivity|].
  split; [vm_compute; reflexivity|]. eexists. apply raised. vm_compute. reflexivity.
Qed.
(** A copy forgets the queue size. *)
Lemma copy_queue : exists o g' o', reachable O0 G0 W0 o /\ copy O0 G0 W0 o 5 = (g', Ok o') /\
  c_queue (o_cfg o) = Some 2%Z /\ c_queue (o_cfg o') = None.
Proof.
  assert (H : is_ok (snd (copy O0 G0 W0 after0 5)) = true) by (vm_compute; reflexivity).
  destruct (outcome _ H) as (o' & E).
  assert (Q : match snd (copy O0 G0 W0 after0 5) with Ok o => c_queue (o_cfg o) | _ => Some 1%Z end = None) by (vm_compute; reflexivity).
  rewrite E in Q. eexists after0, _, o'.
  split; [apply after0_reachable|]. split; [exact E|]. split; [vm_compute; reflexivity|exact Q].
Qed.
(** A copy made during the initial phase. *)
Definition mid0 := fst (exec O0 G0 W0 [CTell (X1 pb) (num 3) true] opt0).
Lemma mid0_copies : reachable O0 G0 W0 mid0 /\ aligned mid0 /\ o_init mid0 <> None /\
  (Z.of_nat (length (o_yi mid0)) < c_n0 (o_cfg mid0))%Z /\ length (o_yi mid0) = 1 /\
  exists g' o', copy O0 G0 W0 mid0 5 = (g', Ok o').
Proof.
  split; [apply exec_reachable, opt0_reachable|]. split; [vm_compute; reflexivity|].
  split; [apply some_of; vm_compute; reflexivity|]. split; [vm_compute; reflexivity|]. split; [vm_compute; reflexivity|].
  assert (H : is_ok (snd (copy O0 G0 W0 mid0 5)) = true) by (vm_compute; reflexivity).
  destruct (outcome _ H) as (o' & E). eexists _, o'. exact E.
Qed.

(** *** Per-second acquisition *)
Definition feqb (x y : float) : bool := fleb x y && fleb y x.
(** A log with log 1 = 0. *)
Definition L1 : libm := {|
  l_log10 := fun x => x; l_pow := fun b _ => b; l_exp := fun x => x;
  l_log := fun x => if feqb x (fofZ 1) then fofZ 0 else x;
  l_str := fun _ => EmptyString; l_parse := fun _ => None |}.
Definition O1 := F64 L1.
(** Surrogates that can only be fitted to objective values of 5. *)
Definition W1 : world float nat := {|
  w_fit := fun X y => if forallb (fun v => feqb (y_obj v) (fofZ 5)) y then Ok (length X) else Raise ValueError;
  w_predict := w_predict W0; w_acq := w_acq W0; w_argsort := w_argsort W0; w_lbfgs := w_lbfgs W0;
  w_generate := w_generate W0; w_logmax := w_logmax W0 |}.
(** Acquisition functions that insist on an incumbent of 5. *)
Definition W2 : world float nat := {|
  w_fit := w_fit W0; w_predict := w_predict W0;
  w_acq := fun a m yopt X => if feqb yopt (fofZ 5) then Ok (map (fun _ => fofZ 0) X) else Raise ValueError;
  w_argsort := w_argsort W0; w_lbfgs := w_lbfgs W0; w_generate := w_generate W0; w_logmax := w_logmax W0 |}.
Definition new_ps W := made (make_optimizer O1 G0 W (args0 "EIps" "sampling" None false 1) 7).
Lemma new_ps_reachable W : is_ok (snd (make_optimizer O1 G0 W (args0 "EIps" "sampling" None false 1) 7)) = true ->
  reachable O1 G0 W (new_ps W).
Proof.
  intros H. destruct (made_reachable _ G0 (args0 "EIps" "sampling" None false 1) 7 W L1 _ eq_refl H) as (o & E & Hr).
  unfold new_ps, made. fold O1 in E. rewrite E. exact Hr.
Qed.
Definition five_sec : yarg float := YLst [num 5; num 1].
Lemma log_one : l_log L1 (fofZ 1) = fofZ 0.
Proof.
  cbn [l_log L1]. replace (feqb (fofZ 1) (fofZ 1)) with true by (vm_compute; reflexivity). reflexivity.
Qed.
Lemma ps_lie : l_log L1 (fofZ 1) = fofZ 0 /\
  (forall X y, forallb (fun v => feqb (y_obj v) (fofZ 5)) y = true -> is_ok (w_fit W1 X y) = true) /\
  exists o, reachable O1 G0 W1 o /\ map (fun v => B2SF (y_obj v)) (o_yi o) = [B2SF (fofZ 5)] /\
  exists o', ask O1 G0 W1 (NPInt 2) "cl_min" o = (o', Raise ValueError).
Proof.
  split; [exact log_one|]. split; [intros X y H; unfold W1; cbn [w_fit]; now rewrite H|].
  exists (fst (exec O1 G0 W1 [CTell (X1 pa) five_sec true] (new_ps W1))).
  split. { apply exec_reachable, new_ps_reachable. vm_compute. reflexivity. }
  split; [vm_compute; reflexivity|]. eexists. apply raised. vm_compute. reflexivity.
Qed.
Lemma ps_incumbent : l_log L1 (fofZ 1) = fofZ 0 /\
  (forall a m X, is_ok (w_acq W2 a m (fofZ 5) X) = true) /\
  exists o, reachable O1 G0 W2 o /\ o_yi o = [] /\
  exists o', tell O1 G0 W2 (X1 pa) (YLst [YNum (fofZ 5); YNum (fofZ 1)]) true o = (o', Raise ValueError) /\
    map (fun v => B2SF (y_obj v)) (o_yi o') = [B2SF (fofZ 5)].
Proof.
  split; [exact log_one|]. split; [intros a m X; reflexivity|].
  exists (new_ps W2). split. { apply new_ps_reachable. vm_compute. reflexivity. }
  split; [vm_compute; reflexivity|]. eexists. split; [apply raised; vm_compute; reflexivity|vm_compute; reflexivity].
Qed.
Lemma ps_tells : exists o' r, reachable O1 G0 W0 (new_ps W0) /\ ps_of (new_ps W0) = true /\
  tell O1 G0 W0 (X2 [pa; pb]) (YLst [five_sec; YLst [num 2; num 3]]) true (new_ps W0) = (o', Ok r).
Proof.
  assert (H : is_ok (snd (tell O1 G0 W0 (X2 [pa; pb]) (YLst [five_sec; YLst [num 2; num 3]]) true (new_ps W0))) = true)
    by (vm_compute; reflexivity).
  destruct (outcome _ H) as (r & E). eexists _, r. split. { apply new_ps_reachable. vm_compute. reflexivity. }
  split; [vm_compute; reflexivity|exact E].
Qed.

(** A run of three evaluations. *)
Lemma runs3 : exists o' r, run O0 G0 W0 (fun k _ => Ok (num (3 - Z.of_nat k))) 3 opt0 = (o', Ok r).
Proof.
  assert (H : is_ok (snd (run O0 G0 W0 (fun k _ => Ok (num (3 - Z.of_nat k))) 3 opt0)) = true) by (vm_compute; reflexivity).
  destruct (outcome _ H) as (r & E). eexists _, r. exact E.
Qed.

(** *** Exact arithmetic *)
Definition GR : rng_ops R nat := {|
  rg_random := fun g => (0%R, S g);
  rg_randint := fun g lo hi => (lo, S g);
  rg_choice := fun g p => (0, S g);
  rg_perm := fun g n => (seq 0 n, S g);
  rg_multinomial := fun g p => (0, S g);
  rg_seed := fun z => Z.to_nat z |}.
Definition catR : dim R := DCat (mkCat [VInt 7; VInt 3] None KIdentity None).
Definition WR : world R nat := {|
  w_fit := fun X y => Ok (length X); w_predict := fun m xs => Ok (map (fun _ => 1%R) xs);
  w_acq := fun a m yopt X => Ok (map (fun _ => 0%R) X); w_argsort := fun l => seq 0 (length l);
  w_lbfgs := fun a m yopt bs x => Ok (x, 0%R);
  w_generate := fun dims n seed =>
    match check_x_in_space Rops (X1 [VInt 7]) dims with Ok _ => Ok (repeat [VInt 7] (Z.to_nat n)) | Raise e => Raise e end;
  w_logmax := 709%R |}.
Lemma WR_gen dims n : gen_ok Rops WR dims n.
Proof.
  intros seed l. unfold WR. cbn [w_generate].
  destruct (check_x_in_space Rops (X1 [VInt 7]) dims) as [[]|] eqn:E; [|discriminate]. intros H. injection H as <-.
  apply check_point_ok in E. split; [apply repeat_length|]. apply Forall_forall. intros p Hp.
  apply repeat_spec in Hp. now subst.
Qed.
Definition argsR : oargs R := mkArgs [catR] (Some gp_est) false 5 true "EI" "sampling" None 3 2 1%R.
Definition optR0 : opt R nat nat :=
  mkOpt (mkCfg [DCat (mkCat [VInt 7; VInt 3] None KNormalize None)] (AOne EI) false 3 2 1%R (Some gp_est) true 5 None)
    5 (Some (repeat [VInt 7] 5)) [] [] [] [] None None [] 1.
Lemma optR0_made : make_optimizer Rops GR WR argsR 0 = (1, Ok optR0).
Proof. reflexivity. Qed.
Definition optR := fst (do_call Rops GR WR (CTell (X1 [VInt 7]) (YNum 2%R) true) optR0).
Lemma optR_sample : reachable Rops GR WR optR /\ aligned optR /\ o_yi optR = [YS 2%R] /\ ps_of optR = false /\ o_cache optR = [] /\
  exists o' X, ask Rops GR WR (NPInt 3) "cl_mean" optR = (o', Ok (Apts X)).
Proof.
  assert (Hr : reachable Rops GR WR optR) by (apply r_call; eapply r_make; exact optR0_made).
  assert (Hy : o_yi optR = [YS 2%R]) by reflexivity.
  assert (Ha : aligned optR) by reflexivity.
  split; [exact Hr|]. split; [exact Ha|]. split; [exact Hy|]. split; [reflexivity|]. split; [reflexivity|].
  assert (Hw : forall seed, is_ok (w_generate WR (c_dims (o_cfg optR)) (c_n0 (o_cfg optR)) seed) = true) by reflexivity.
  assert (Hi : o_init optR = Some (repeat [VInt 7] 5)) by reflexivity.
  assert (Hl : liar_of "cl_mean" <> None) by discriminate.
  assert (Hc : o_cache optR = []) by reflexivity.
  destruct (initial_batch (z := 3%Z) _ Hr Ha (WR_gen _ _) Hw Hi Hc Hl) as (o' & E); [reflexivity|reflexivity|].
  exists o'. eexists. exact E.
Qed.
(** A batch of two during the design. *)
Definition opt4 := fst (exec O0 G0 W0 [CTell (X1 pb) (num 3) true] (new0 "gp_hedge" "auto" None true 4)).
Lemma opt4_sample : reachable O0 G0 W0 opt4 /\ aligned opt4 /\ gen_ok O0 W0 (c_dims (o_cfg opt4)) (c_n0 (o_cfg opt4)) /\
  (forall seed, is_ok (w_generate W0 (c_dims (o_cfg opt4)) (c_n0 (o_cfg opt4)) seed) = true) /\
  o_init opt4 <> None /\ o_cache opt4 = [] /\ (Z.of_nat (length (o_yi opt4)) + 2 < c_n0 (o_cfg opt4))%Z.
Proof.
  split; [apply exec_reachable, new0_reachable; vm_compute; reflexivity|].
  split; [vm_compute; reflexivity|]. split; [apply W0_gen|].
  split; [intros seed; vm_compute; reflexivity|]. split; [apply some_of; vm_compute; reflexivity|].
  split; vm_compute; reflexivity.
Qed.
