(** Concrete minimisations for the non-vacuity examples and counterexamples (C27-C31, C63). *)
From Coq Require Import String List ZArith Bool Lia.
From Flocq Require Import IEEE754.BinarySingleNaN.
From Verif Require Import Base Num Values Dimension Space Optimizer NumLaws BaseLemmas SpaceSpec MetricLemmas
  Samples SpaceProps SpaceProps2 OptSpec OptLemmas2 OptLemmas4 OptLemmas5 OptBatch OptSamples
  Minimize MinSpec MinLemmas MinDummy.
Import ListNotations.
Open Scope list_scope.

Definition fm : objective float := fun k _ => Ok (num (5 - Z.of_nat k)).
Definition pts0 : x0arg float := X0Seq true [IPt pb; IPt pc].
(** One callback that asks to stop once it has seen [n] results, and one that never does. *)
Definition stopper (n : nat) : callback float nat nat := fun seen => Ok (Some (Nat.leb n (length seen))).
Definition margs0 (n_calls n0 : Z) (x0 : x0arg float) (y0 : y0arg float) (cb : cbarg float nat nat) : margs float nat nat :=
  mkMargs (args0 "gp_hedge" "auto" None true 9) n_calls n0 None x0 y0 cb true.
Definition run_min m n_calls n0 x0 y0 cb := minimize O0 G0 W0 m fm (margs0 n_calls n0 x0 y0 cb) 7.
Definition trace_of {A B C : Type} (r : A * B * C) : A := fst (fst r).
Definition succeeds {A B C} (r : A * option B * res (option C)) : bool :=
  match r with (_, Some _, Ok (Some _)) => true | _ => false end.
Lemma success {A B C} (r : A * option B * res (option C)) : succeeds r = true ->
  exists o s, r = (trace_of r, Some o, Ok (Some s)).
Proof. destruct r as [[t [o|]] [[s|]|]]; try discriminate. intros _. now exists o, s. Qed.

(** Five calls with two given points; a stop after the third result. *)
Lemma min_base : succeeds (run_min MBase 5 2 pts0 Y0None CBNone) = true /\
  length (evals (trace_of (run_min MBase 5 2 pts0 Y0None CBNone))) = 5 /\
  never_stops (callbacks_of (margs0 5 2 pts0 Y0None CBNone)).
Proof.
  split; [vm_compute; reflexivity|]. split; [vm_compute; reflexivity|].
  intros seen (c & [<-|[]] & H). discriminate H.
Qed.
Lemma min_all m : m = MBase \/ m = MForest \/ m = MGbrt \/ m = MGp true \/ m = MGp false ->
  succeeds (run_min m 4 1 pts0 (Y0Seq [num 1; num 2]) (CBOne (stopper 3))) = true /\
  length (evals (trace_of (run_min m 4 1 pts0 (Y0Seq [num 1; num 2]) (CBOne (stopper 3))))) = 2.
Proof.
  intros H. repeat destruct H as [H|H]; subst; (split; [vm_compute; reflexivity|vm_compute; reflexivity]).
Qed.

(** Too many evaluations. *)
Lemma over (k : Z) (r : list (event float nat nat) * option (opt float nat nat) * res (option (result float nat nat))) :
  succeeds r = true -> (k <? Z.of_nat (length (evals (trace_of r))))%Z = true ->
  exists t o s, r = (t, Some o, Ok (Some s)) /\ (k < Z.of_nat (length (evals t)))%Z.
Proof.
  intros H K. destruct (success r H) as (o & s & E). apply Z.ltb_lt in K. exists (trace_of r), o, s. auto.
Qed.
Lemma min_negative : exists n_calls n0 x0, (0 < n_calls)%Z /\
  exists t o r, base_minimize O0 G0 W0 fm (margs0 n_calls n0 x0 Y0None CBNone) 7 = (t, Some o, Ok (Some r)) /\
    (n_calls < Z.of_nat (length (evals t)))%Z.
Proof.
  exists 1%Z, (-1)%Z, pts0. split; [lia|].
  apply over; [vm_compute; reflexivity|vm_compute; reflexivity].
Qed.
Lemma min_dummy_many : exists n_calls x0, (0 < n_calls)%Z /\
  exists t o r, dummy_minimize O0 G0 W0 fm (margs0 n_calls 0 x0 Y0None CBNone) 7 = (t, Some o, Ok (Some r)) /\
    (n_calls < Z.of_nat (length (evals t)))%Z.
Proof.
  exists 1%Z, pts0. split; [lia|].
  apply over; [vm_compute; reflexivity|vm_compute; reflexivity].
Qed.

(** One point given to dummy_minimize, with a generator that is fine. *)
Definition one0 : x0arg float := X0Seq true (map IVal pa).
Lemma raised3 {A B C} e (r : A * B * res C) : raises e (snd r) = true -> exists t o, r = (t, o, Raise e).
Proof. destruct r as [[t o] [c|x]]; [discriminate|]. cbn. intros H. exists t, o. now destruct x, e. Qed.
Lemma min_dummy_one : given one0 [pa] /\ member O0 dims2 pa /\
  (forall n seed, (0 <= n)%Z -> is_ok (w_generate W0 dims2 n seed) = true) /\
  exists t o, dummy_minimize O0 G0 W0 fm (margs0 3 0 one0 Y0None CBNone) 7 = (t, o, Raise IndexError).
Proof.
  split; [apply gv_one; discriminate|]. split; [apply check_point_ok; vm_compute; reflexivity|].
  split; [intros n seed _; reflexivity|]. apply raised3. vm_compute. reflexivity.
Qed.
Definition wide_args : margs float nat nat :=
  mkMargs (mkArgs [real1 KIdentity; int1 KIdentity; int1 KIdentity] None true 9 false "EI" "sampling" None 3 2 (fofZ 1))
    1 0 None (X0Seq true (map IVal [VFloat (fofZ 0); VInt 2; VInt 2])) Y0None CBNone false.
Lemma min_dummy_wide : exists p, given (m_x0 wide_args) [p] /\ member O0 (a_dims (m_opt wide_args)) p /\
  exists t o, dummy_minimize O0 G0 W0 fm wide_args 7 = (t, o, Raise ValueError).
Proof.
  exists [VFloat (fofZ 0); VInt 2; VInt 2]. split; [apply gv_one; discriminate|]. split; [apply check_point_ok; vm_compute; reflexivity|].
  apply raised3. vm_compute. reflexivity.
Qed.

(** Requirements of the totality theorem. *)
Definition dummy_args (gen : bool) : margs float nat nat :=
  mkMargs (mkArgs dims2 None true 9 gen "EI" "sampling" None 3 2 (fofZ 1))
    4 0 None pts0 Y0None (CBOne (stopper 9)) true.
Lemma dummy_input : good_input O0 dims2 pts0 Y0None [pb; pc] /\ numeric O0 fm dims2 /\ Forall (samplable L0) dims2 /\
  answers (callbacks_of (dummy_args true)) /\
  (forall n seed, (0 <= n)%Z -> is_ok (w_generate W0 dims2 n seed) = true).
Proof.
  split. { apply (gi_points (d := dims2) (ps := [pb; pc])); [discriminate|]. constructor; [|constructor; [|constructor]]; apply check_point_ok; vm_compute; reflexivity. }
  split; [intros k p _; eexists; reflexivity|]. split; [apply dims2_samplable; auto|].
  split; [|intros n seed _; reflexivity].
  intros c seen [<-|[<-|[]]]; eexists; reflexivity.
Qed.
Lemma dummy_runs gen : succeeds (dummy_minimize O0 G0 W0 fm (dummy_args gen) 7) = true /\
  length (evals (trace_of (dummy_minimize O0 G0 W0 fm (dummy_args gen) 7))) = 4.
Proof. destruct gen; (split; [vm_compute; reflexivity|vm_compute; reflexivity]). Qed.
