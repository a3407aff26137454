(** A surrogate whose candidates are sorted, for C76. *)
From Coq Require Import String List ZArith Bool Lia Sorted Permutation.
From Verif Require Import Base Num Values Dimension Space Optimizer NumLaws BaseLemmas SpaceSpec MetricLemmas
  Samples SpaceProps SpaceProps2 OptSpec OptLemmas2 OptLemmas4 OptLemmas5 OptBatch OptSamples.
Import ListNotations.
Open Scope list_scope.
Open Scope nat_scope.

Section Sort.
  Context {N : Type} (O : numops N) (L : order_laws O) (l : list N).
  Definition key_le (i j : nat) : bool := match nth_error l i, nth_error l j with Some a, Some b => nleb O a b | _, _ => true end.
  Fixpoint put (i : nat) (s : list nat) : list nat :=
    match s with [] => [i] | j :: s' => if key_le i j then i :: s else j :: put i s' end.
  Definition arg_sort : list nat := fold_right put [] (seq 0 (length l)).
  Definition below (i j : nat) : Prop := forall a b, nth_error l i = Some a -> nth_error l j = Some b -> nleb O a b = true.
  Lemma put_perm i s : Permutation (put i s) (i :: s).
  Proof. induction s as [|j s IH]; cbn; [easy|]. destruct (key_le i j); [easy|]. rewrite IH. apply perm_swap. Qed.
  Lemma key_below i j : key_le i j = true -> below i j.
  Proof. unfold key_le, below. intros H a b Ha Hb. now rewrite Ha, Hb in H. Qed.
  Hypothesis Hn : no_nan O l.
  Lemma num_of a : In a l -> nleb O a a = true.
  Proof. intro H. unfold no_nan in Hn. rewrite Forall_forall in Hn. specialize (Hn a H). unfold nisnan, neqb in Hn. destruct (nleb O a a); [easy|discriminate]. Qed.
  Lemma key_above i j : key_le i j = false -> below j i.
  Proof.
    unfold key_le, below. intros H a b Ha Hb. rewrite Ha, Hb in H. destruct (ol_total L b a) as [Q|Q]; auto; try (apply num_of; eapply nth_error_In; eauto). congruence.
  Qed.
  Lemma below_trans i j k : j < length l -> below i j -> below j k -> below i k.
  Proof. intros Hj H1 H2 a c Ha Hc. destruct (nth_error l j) as [b|] eqn:E; [|apply nth_error_None in E; lia]. eapply (ol_trans L); eauto. Qed.
  Lemma put_sorted i s : i < length l -> Forall (fun j => j < length l) s -> StronglySorted below s -> StronglySorted below (put i s).
  Proof.
    intros Hi Hs S. induction S as [|j s S IH F]; cbn; [repeat constructor|]. inversion Hs as [|? ? Hj Hs']; subst. destruct (key_le i j) eqn:E.
    - constructor; [now constructor|]. constructor; [now apply key_below|]. eapply Forall_impl; [|exact F]. intros k. apply below_trans; [easy|now apply key_below].
    - constructor; [now apply IH|]. eapply Permutation_Forall; [apply Permutation_sym, put_perm|]. constructor; [now apply key_above|exact F].
  Qed.
  Lemma arg_sort_ok : Permutation arg_sort (seq 0 (length l)) /\ StronglySorted below arg_sort.
  Proof.
    unfold arg_sort. assert (Q : Forall (fun j => j < length l) (seq 0 (length l))) by (apply Forall_forall; intros j Hj; apply in_seq in Hj; lia).
    revert Q. generalize (seq 0 (length l)). induction l0 as [|i s IH]; intro Q; cbn; [split; constructor|]. inversion Q as [|? ? Qi Qs]; subst. destruct (IH Qs) as [P S]. split.
    - rewrite put_perm. now constructor.
    - apply put_sorted; [easy| |easy]. eapply Permutation_Forall; [apply Permutation_sym; exact P|exact Qs].
  Qed.
End Sort.

(** [W0] with this sort and acquisition values that differ. *)
Definition W3 : world float nat := {|
  w_fit := w_fit W0; w_predict := w_predict W0; w_acq := fun a m yopt X => Ok (map (fun i => fofZ (7 - Z.of_nat i)) (seq 0 (length X)));
  w_argsort := arg_sort O0; w_lbfgs := w_lbfgs W0; w_generate := w_generate W0; w_logmax := w_logmax W0 |}.
Lemma W3_sorts : argsort_ok O0 W3.
Proof. intros l Hl. exact (arg_sort_ok O0 (F64_order L0) l Hl). Qed.
Definition opt3 := made (make_optimizer O0 G0 W3 (args0 "EI" "lbfgs" None true 1) 7).
Lemma opt3_case : argsort_ok O0 W3 /\ reachable O0 G0 W3 opt3 /\
  exists o' r, tell O0 G0 W3 (X1 pb) (num 2) true opt3 = (o', Ok r) /\
  (c_n0 (o_cfg o') <= Z.of_nat (length (o_yi o')))%Z /\ c_est (o_cfg o') <> None /\
  c_lbfgs (o_cfg o') = true /\ c_acq (o_cfg o') = AOne EI /\ ps_of o' = false /\ no_nan O0 (map y_obj (o_yi o')).
Proof.
  split; [exact W3_sorts|]. split.
  { destruct (made_reachable _ G0 (args0 "EI" "lbfgs" None true 1) 7 W3 L0 _ eq_refl) as (o & E & Hr); [vm_compute; reflexivity|].
    unfold opt3, made. fold O0 in E. rewrite E. exact Hr. }
  assert (H : is_ok (snd (tell O0 G0 W3 (X1 pb) (num 2) true opt3)) = true) by (vm_compute; reflexivity).
  destruct (outcome _ H) as (r & E). eexists _, r. split; [exact E|].
  split; [vm_compute; discriminate|]. split; [vm_compute; discriminate|].
  split; [vm_compute; reflexivity|]. split; [vm_compute; reflexivity|]. split; [vm_compute; reflexivity|].
  assert (V : forallb (fun v => negb (nisnan O0 v)) (map y_obj (o_yi (fst (tell O0 G0 W3 (X1 pb) (num 2) true opt3)))) = true)
    by (vm_compute; reflexivity).
  apply Forall_forall. intros v Hv. rewrite forallb_forall in V. apply V in Hv. now apply negb_true_iff in Hv.
Qed.
