(** Concrete batches for C96. *)
From Coq Require Import String List ZArith Bool Lia Reals.
From Verif Require Import Base Num Values Dimension Space Optimizer NumLaws BaseLemmas MetricLemmas Samples SpaceProps SpaceProps2 OptSpec OptSamples BatchSpec.
Import ListNotations.
Open Scope list_scope.

Definition told3 := tell O0 G0 W0 (X2 [pa; pb; pc]) (YLst [num 3; num 1; num 2]) true opt0.
Lemma told3_ok : is_ok (snd told3) = true /\ length (o_models (fst told3)) = 1.
Proof. split; vm_compute; reflexivity. Qed.
Lemma batch_case : length (o_Xi opt0) = length (o_yi opt0) /\
  Forall2 (fun p y => member O0 (c_dims (o_cfg opt0)) p /\ valid_y1 O0 (ps_of opt0) y) [pa; pb; pc] [num 3; num 1; num 2] /\
  is_ok (snd told3) = true /\ length (o_models (fst told3)) = 1.
Proof.
  split; [vm_compute; reflexivity|]. split; [|exact told3_ok].
  assert (Ep : ps_of opt0 = false) by (vm_compute; reflexivity). rewrite Ep.
  repeat (constructor; [split; [apply check_point_ok; vm_compute; reflexivity|unfold num; eexists; reflexivity]|]). constructor.
Qed.
Definition single (p : point float) (y : yarg float) (fit : bool) (o : opt float nat nat) := fst (tell O0 G0 W0 (X1 p) y fit o).
Lemma told_ok (p : point float) y fit (o : opt float nat nat) l o2 : is_ok (snd (tell O0 G0 W0 (X1 p) y fit o)) = true -> told_singly O0 G0 W0 l (single p y fit o) o2 -> told_singly O0 G0 W0 ((p, y, fit) :: l) o o2.
Proof. unfold single. destruct (tell O0 G0 W0 (X1 p) y fit o) as [o1 [r|e]] eqn:E; [|discriminate]. intros _ H. econstructor; [exact E|exact H]. Qed.
Lemma singly_case : exists o1, told_singly O0 G0 W0 [(pa, num 3, true); (pb, num 1, true); (pc, num 2, true)] opt0 o1 /\ length (o_models o1) = 2 /\
  is_ok (snd told3) = true /\ length (o_models (fst told3)) = 1.
Proof.
  exists (single pc (num 2) true (single pb (num 1) true (single pa (num 3) true opt0))). split.
  - do 3 (apply told_ok; [vm_compute; reflexivity|]). constructor.
  - split; [vm_compute; reflexivity|exact told3_ok].
Qed.
Lemma refused_case : ~ Forall2 (fun p y => member O0 (c_dims (o_cfg opt0)) p /\ valid_y1 O0 (ps_of opt0) y) [pa; pb] [num 3; YLst [num 1]].
Proof. intro H. inversion H as [|? ? ? ? _ H1]; subst. inversion H1 as [|? ? ? ? [_ K] _]; subst. assert (Ep : ps_of opt0 = false) by (vm_compute; reflexivity). rewrite Ep in K. destruct K as [v K]. discriminate K. Qed.
