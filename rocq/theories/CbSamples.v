(** Concrete cases for the callback properties (C29, C32-C37). *)
From Coq Require Import String List ZArith Bool Lia Reals Lra.
From Flocq Require Import IEEE754.BinarySingleNaN.
From Verif Require Import Base Num Values Dimension Space Optimizer NumLaws SpaceSpec MetricLemmas SpaceProps SpaceProps2 SpaceProps3
  Samples OptSpec OptSamples Minimize MinSpec MinLemmas MinTrace MinSamples Callbacks CbSpec CbLemmas CbLemmas2 Dump DumpSpec.
Import ListNotations.
Open Scope list_scope.

Definition hist {N} (dims : list (dim N)) (xs : list (point N)) (vs : list N) (d : N) : result N nat nat :=
  mkResult (X1 []) d vs (map (@X1 N) xs) [] None dims 0.
Definition h5 : result float nat nat := hist [] (map (fun _ => []) (seq 0 5)) (map fofZ [5; 2; 9; 3; 2]%Z) (fofZ 2).
Lemma C32_sample : delta_y O0 (fofZ 2) 3 h5 = Ok (Some true) /\ delta_y O0 (fofZ 1) 3 h5 = Ok (Some false) /\
  delta_y O0 (fofZ 9) 6 h5 = Ok None /\ (1 <= 3)%Z /\ no_nan O0 (res_func_vals h5).
Proof. do 3 (split; [vm_compute; reflexivity|]). split; [lia|]. unfold no_nan. repeat (constructor; [vm_compute; reflexivity|]). constructor. Qed.
Lemma C34_sample : hollow O0 2 (fofZ 0) h5 = Ok (Some true) /\ hollow O0 4 (fofZ 0) h5 = Ok (Some false) /\
  hollow O0 5 (fofZ 0) h5 = Ok (Some false) /\ hollow O0 4 (fofZ (-3)) h5 = Ok (Some true).
Proof. do 3 (split; [vm_compute; reflexivity|]). vm_compute; reflexivity. Qed.
Definition h2 : result R nat nat :=
  hist dspace [[VFloat 1%R; VInt 5; VStr "a"%string]; [VFloat 3%R; VInt 7; VStr "b"%string]] [1%R; 2%R] 1%R.
Lemma C33_sample : Forall (wf_dim Rops) (res_space h2) /\
  (forall x, In x (res_x_iters h2) -> exists p, x = X1 p /\ in_space Rops (res_space h2) p) /\ 2 <= length (res_x_iters h2).
Proof.
  destruct C08_sample as (H1 & H2 & H3). split; [exact H1|]. split; [|cbn; lia].
  intros x [<-|[<-|[]]]; eexists; (split; [reflexivity|]); assumption.
Qed.
(** A clock that goes one second per reading. *)
Definition ticks (k : nat) : float := fofZ (Z.of_nat k).
Lemma C35_sample : threshold O0 (fofZ 2) h5 = Ok (Some true) /\ threshold O0 (fofZ 1) h5 = Ok (Some false) /\
  deadline O0 (fofZ 4) ticks [h5; h5] = Ok (Some false) /\ deadline O0 (fofZ 4) ticks [h5; h5; h5] = Ok (Some true) /\
  no_nan O0 (durations O0 ticks 3).
Proof. do 4 (split; [vm_compute; reflexivity|]). unfold no_nan. repeat (constructor; [vm_compute; reflexivity|]). constructor. Qed.
Lemma C35_sum_sample : exists clk : nat -> R, (forall k, (clk k <= clk (S k))%R) /\
  np_sum Rops (durations Rops clk 2) <> (clk 3%nat - clk 0%nat)%R.
Proof. exists INR. split; [intros k; rewrite S_INR; lra|]. unfold durations, np_sum. cbn. lra. Qed.

Lemma C35_min_sample : let run := run_min MBase 6 2 pts0 Y0None (CBOne (early (threshold O0 (fofZ 2)))) in
  succeeds run = true /\ length (evals (trace_of run)) = 4.
Proof. split; [vm_compute; reflexivity|vm_compute; reflexivity]. Qed.

(** A run whose objective raises at the fourth evaluation, and one that is checkpointed. *)
Definition fail3 : objective float := fun k p => if Nat.eqb k 3 then Raise ValueError else fm k p.
Definition is_call (i : nat) (e : event float nat nat) : bool := match e with ECall j _ => Nat.eqb i j | EEval _ => false end.
Lemma C29_any_sample : let run := minimize O0 G0 W0 MBase fail3 (margs0 5 2 pts0 Y0None CBNone) 7 in
  raises ValueError (snd run) = true /\ length (filter (is_call 0) (trace_of run)) = 2 /\ length (evals (trace_of run)) = 4 /\
  given pts0 [pb; pc].
Proof.
  split; [vm_compute; reflexivity|]. split; [vm_compute; reflexivity|]. split; [vm_compute; reflexivity|].
  apply (gv_list (ps := [pb; pc])). discriminate.
Qed.
Definition saved := minimize O0 G0 W0 MBase fm (margs0 5 2 pts0 Y0None (CBOne (saver (N:=float) (RNG:=nat) (M:=nat)))) 7.
Lemma C36_sample : succeeds saved = true /\ length (filter (is_call 0) (trace_of saved)) = 4 /\
  nth_error (callbacks_of (margs0 5 2 pts0 Y0None (CBOne (saver (N:=float) (RNG:=nat) (M:=nat))))) 0 = Some (saver (N:=float) (RNG:=nat) (M:=nat)).
Proof. split; [vm_compute; reflexivity|]. split; [vm_compute; reflexivity|]. reflexivity. Qed.
Lemma call_in i t : existsb (is_call i) t = true -> exists r, In (ECall i r) t.
Proof.
  intros H. apply existsb_exists in H. destruct H as ([p|j r] & Hin & H); [discriminate|]. cbn in H. apply Nat.eqb_eq in H. subst.
  now exists r.
Qed.
Lemma torn {B} (ser : result float nat nat -> list B) (run : list (event float nat nat) * option (opt float nat nat) * res (option (result float nat nat))) : (forall r, ser r <> []) -> succeeds run = true ->
  existsb (is_call 0) (trace_of run) = true ->
  exists t o r d, run = (t, Some o, Ok (Some r)) /\ In d (disks ser 0 None t) /\ d <> None /\ forall r', d <> Some (ser r').
Proof.
  intros Hs H Hc. destruct (success run H) as (o & r & E). destruct (call_in _ _ Hc) as (r0 & Hr).
  exists (trace_of run), o, r, (Some []). split; [exact E|]. split; [now apply c36_torn with r0|]. split; [discriminate|].
  intros r' K. injection K as K. symmetry in K. now apply Hs in K.
Qed.
Lemma C36_torn {B} (ser : result float nat nat -> list B) : (forall r, ser r <> []) ->
  exists t o r d, saved = (t, Some o, Ok (Some r)) /\ In d (disks ser 0 None t) /\ d <> None /\ forall r', d <> Some (ser r').
Proof. intros H. apply torn; [exact H|vm_compute; reflexivity|vm_compute; reflexivity]. Qed.

(** A result whose space refers back to it. *)
Definition heap0 : heap :=
  [CDict [("x", RAtom "1"); ("space", RObj 3); ("specs", RObj 1)];
   CDict [("function", RAtom "base_minimize"); ("args", RObj 2)];
   CDict [("n_calls", RAtom "5"); ("func", RAtom "f"); ("dimensions", RObj 3)];
   CSeq [RObj 0; RAtom "d"]]%string.
Lemma C37_sample : wf_heap heap0 /\ wf_ref (length heap0) (RObj 0) /\ get_attr heap0 (RObj 0) "specs" = Ok (RObj 1) /\
  get_item heap0 (RObj 1) "args" = Ok (RObj 2) /\ has_key heap0 (RObj 2) "func" = Ok true /\
  dump heap0 (RObj 0) false =
    let h' := heap0 ++ [CDict [("x", RAtom "1"); ("space", RObj 5); ("specs", RObj 6)]; CSeq [RObj 4; RAtom "d"];
                        CDict [("function", RAtom "base_minimize"); ("args", RObj 7)];
                        CDict [("n_calls", RAtom "5"); ("dimensions", RObj 5)]]%string in
    Ok (h', (h', RObj 4)).
Proof.
  split. { intros c v Hc Hv. cbn in Hc. repeat destruct Hc as [<-|Hc]; cbn in Hv; try easy; repeat destruct Hv as [<-|Hv]; cbn; try easy; lia. }
  split; [cbn; lia|]. repeat (split; [reflexivity|]). vm_compute. reflexivity.
Qed.
Definition heap1 : heap := [CDict [("x", RAtom "1"); ("fun", RAtom "2"); ("specs", RAtom "None")]]%string.
Lemma C37_no_specs : wf_heap heap1 /\ dump heap1 (RObj 0) false = Raise TypeError /\ dump heap1 (RObj 0) true = Ok (heap1, (heap1, RObj 0)).
Proof.
  split. { intros c v Hc Hv. cbn in Hc. repeat destruct Hc as [<-|Hc]; cbn in Hv; try easy; repeat destruct Hv as [<-|Hv]; cbn; easy. }
  split; reflexivity.
Qed.
