(** Concrete minimisations with verbose=True (C95). *)
From Coq Require Import String List ZArith Bool Lia.
From Flocq Require Import IEEE754.BinarySingleNaN.
From Verif Require Import Base Num Values Dimension Space Optimizer Samples SpaceProps2 OptSamples Minimize MinSpec MinSamples CbSamples Verbose VerboseSpec.
Import ListNotations.
Open Scope list_scope.

Definition lines (r : res (list (shown float))) : list (shown float) := match r with Ok l => l | Raise _ => [] end.
Lemma lines_ok r : (match r with Ok _ => true | Raise _ => false end) = true -> r = Ok (lines r).
Proof. now destruct r. Qed.
Lemma run_ok (r : list (event float nat nat) * option (opt float nat nat) * res (option (result float nat nat))) (P : list (event float nat nat) -> Prop) :
  succeeds r = true -> P (trace_of r) -> exists t o s, r = (t, o, Ok (Some s)) /\ P t.
Proof. intros H K. destruct (success r H) as (o & s & E). exists (trace_of r), (Some o), s. split; [exact E|exact K]. Qed.
Lemma cut {A} (l : list A) k x d : nth_error l k = Some x -> nth_error l (S k) = Some d -> l = firstn k l ++ x :: d :: skipn (S (S k)) l.
Proof.
  revert l. induction k as [|k IH]; intros [|y l] H K; try discriminate.
  - injection H as ->. destruct l; [discriminate|]. injection K as ->. reflexivity.
  - cbn [nth_error] in H, K. change (y :: l = y :: (firstn k l ++ x :: d :: skipn (S (S k)) l)). f_equal. exact (IH l H K).
Qed.
Lemma cut_ok (q : res (list (shown float))) k x d : nth_error (lines q) k = Some x -> nth_error (lines q) (S k) = Some d ->
  exists pre post, length pre = k /\ q = Ok (pre ++ x :: d :: post).
Proof.
  intros H K. destruct q as [l|]; [|destruct k; discriminate]. cbn [lines] in H, K. exists (firstn k l), (skipn (S (S k)) l).
  split; [|f_equal; now apply cut]. rewrite firstn_length. assert (k < length l) by (apply nth_error_Some; congruence). lia.
Qed.
(** Two given points, two initial points, five calls: the second announcement speaks of a provided point. *)
Lemma verbose_provided : exists t o r, minimize O0 G0 W0 MBase fm (margs0 5 2 pts0 Y0None CBNone) 7 = (t, o, Ok (Some r)) /\
  exists p pre post, verbose_screen O0 ticks 1 2 5 [pb; pc] Y0None t = Ok (pre ++ Line (Status 2 true Provided) :: Evaluated p :: post) /\ ~ In p [pb; pc].
Proof.
  apply (@run_ok (minimize O0 G0 W0 MBase fm (margs0 5 2 pts0 Y0None CBNone) 7)); [vm_compute; reflexivity|].
  exists [VFloat (B754_zero false); VInt 2].
  destruct (@cut_ok (verbose_screen O0 ticks 1 2 5 [pb; pc] Y0None (trace_of (minimize O0 G0 W0 MBase fm (margs0 5 2 pts0 Y0None CBNone) 7))) 7
    (Line (Status 2 true Provided)) (Evaluated [VFloat (B754_zero false); VInt 2])) as (pre & post & _ & H); [vm_compute; reflexivity|vm_compute; reflexivity|].
  exists pre, post. split; [exact H|]. intros [K|[K|[]]]; apply (f_equal (fun q => match nth_error q 1 with Some (VInt z) => z | _ => 0%Z end)) in K; vm_compute in K; discriminate K.
Qed.
(** Two given points with values: one iteration is reported before anything has been evaluated. *)
Lemma verbose_values : exists t o r, minimize O0 G0 W0 MBase fm (margs0 3 2 pts0 (Y0Seq [num 1; num 2]) CBNone) 7 = (t, o, Ok (Some r)) /\
  exists post, verbose_screen O0 ticks 1 2 3 [pb; pc] (Y0Seq [num 1; num 2]) t = Ok (Line (Status 1 true Random) :: Line (Status 1 false Random) :: post).
Proof.
  apply (@run_ok (minimize O0 G0 W0 MBase fm (margs0 3 2 pts0 (Y0Seq [num 1; num 2]) CBNone) 7)); [vm_compute; reflexivity|].
  destruct (@cut_ok (verbose_screen O0 ticks 1 2 3 [pb; pc] (Y0Seq [num 1; num 2]) (trace_of (minimize O0 G0 W0 MBase fm (margs0 3 2 pts0 (Y0Seq [num 1; num 2]) CBNone) 7))) 0
    (Line (Status 1 true Random)) (Line (Status 1 false Random))) as (pre & post & L & H); [vm_compute; reflexivity|vm_compute; reflexivity|].
  destruct pre; [|discriminate L]. exists post. exact H.
Qed.
(** Nothing given: two random points, then a search. *)
Lemma verbose_plain : m_verbose (margs0 3 2 X0None Y0None CBNone) = true /\ m_x0 (margs0 3 2 X0None Y0None CBNone) = X0None /\
  exists t o r, minimize O0 G0 W0 MBase fm (margs0 3 2 X0None Y0None CBNone) 7 = (t, o, Ok (Some r)) /\
  length (evals t) = 3 /\
  forall l, verbose_screen O0 ticks 1 2 3 [] Y0None t = Ok l ->
    nth_error l 0 = Some (Line (Status 1 true Random)) /\ nth_error l 2 = Some (Line (Status 1 false Random)) /\
    nth_error l 6 = Some (Line (Status 2 true Random)) /\ nth_error l 12 = Some (Line (Status 3 true Search)) /\ nth_error l 18 = None.
Proof.
  split; [reflexivity|]. split; [reflexivity|].
  apply (@run_ok (minimize O0 G0 W0 MBase fm (margs0 3 2 X0None Y0None CBNone) 7)); [vm_compute; reflexivity|].
  split; [vm_compute; reflexivity|]. intros l Hl. apply (f_equal lines) in Hl. cbn [lines] in Hl. subst l.
  split; [vm_compute; reflexivity|]. split; [vm_compute; reflexivity|]. split; [vm_compute; reflexivity|]. split; [vm_compute; reflexivity|]. vm_compute; reflexivity.
Qed.
