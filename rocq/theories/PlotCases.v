From Coq Require Import String List ZArith Bool Lia Reals Lra.
From Verif Require Import Base BaseLemmas Num Values Dimension Space NumLaws Optimizer OptSpec ArgLemmas CbSpec ForestSpec Samples Plots PlotSpec PlotLemmas.
Import ListNotations.
Open Scope nat_scope.
Open Scope list_scope.
Set Implicit Arguments.

Lemma regret_one {RNG M} (r : result R RNG M) name t : complete Rops r -> (forall v, t = Some v -> Forall (fun w => v <= w)%R (res_func_vals r)) ->
  exists ch ys m, plot_regret Rops [(name, TOne r)] t = Ok ch /\ ch_lines ch = [mkLine (seq 1 (length (res_func_vals r))) ys] /\
    (match t with Some v => m = v | None => least Rops (res_func_vals r) m end) /\
    running_regret m (length (res_func_vals r)) (res_func_vals r) ys /\
    (forall i j v w, i <= j -> nth_error ys i = Some v -> nth_error ys j = Some w -> (0 <= v <= w)%R).
Proof.
  intros C Ht. destruct (@regrets RNG M [(name, TOne r)] t) as (ch & lss & m & E & El & _ & Hm & F); [easy|constructor; [exact C|constructor]|].
  inversion F as [|? ls ? lss' D F']; subst. inversion F'; subst. cbn in D. destruct D as (ys & -> & T). exists ch, ys, m.
  assert (Hm' : match t with Some v => m = v | None => least Rops (res_func_vals r) m end).
  { destruct t; [easy|]. unfold seen, all_results in Hm. cbn in Hm. now rewrite app_nil_r in Hm. }
  split; [easy|]. split; [now rewrite El|]. split; [easy|]. split; [easy|].
  intros i j v w Hij Hi Hj. destruct T as [_ T]. rewrite (T _ _ Hi), (T _ _ Hj). apply regret_grows; [|lia].
  destruct t as [v0|]; [subst; auto|]. apply Forall_forall. intros x Hx. apply Rle_of. now apply Hm'.
Qed.

Definition run1 : res (result float unit unit) :=
  create_result O0 (map (fun z => X1 [VFloat (fofZ z)]) [1; 2; 3; 4]%Z) (map (fun z => YS (fofZ z)) [5; 2; 7; -1]%Z) [] tt [].
Lemma run1_ok : exists r, run1 = Ok r /\ no_nan O0 (map (@y_obj float) (map (fun z => YS (fofZ z)) [5; 2; 7; -1]%Z)).
Proof. eexists. split; [reflexivity|]. repeat constructor. Qed.
Definition run1_trace : res (list (pyval SpecFloat.spec_float)) :=
  r <- run1 ;; ch <- plot_convergence O0 [(None, TOne r)] None ;; Ok (map (fun x => view (VFloat x)) (flat_map (@l_y float) (ch_lines ch))).

Open Scope R_scope.
Definition run2 : result R unit unit := mkResult (X1 []) 1 [3; 1; 2] [X1 []; X1 []; X1 []] [] None [] tt.
Lemma run2_ok : complete Rops run2.
Proof.
  split; [reflexivity|]. split; [discriminate|]. apply Forall_forall. intros x _. unfold nisnan. cbn. unfold Rleb'. destruct (Rle_dec x x); [easy|]. exfalso. apply n. apply Rle_refl.
Qed.
Lemma regret_decreases : exists ch ys v w, plot_regret Rops [(None, TOne run2)] (Some 2) = Ok ch /\ ch_lines ch = [mkLine [1; 2; 3]%nat ys] /\
  nth_error ys 0 = Some v /\ nth_error ys 1 = Some w /\ w < v.
Proof.
  eexists _, _, _, _. split; [reflexivity|]. split; [reflexivity|]. split; [reflexivity|]. split; [reflexivity|]. rewrite !np_sum_R. cbn. lra.
Qed.
Lemma zero_minimum : exists ch, plot_convergence Rops [(None, TOne run2)] (Some 0) = Ok ch /\ ch_hline ch = None.
Proof.
  destruct (@convergence _ _ _ Rops Rops_order [(None, TOne run2)] (Some 0)) as (ch & lss & E & _ & _ & Hl); [easy|constructor; [exact run2_ok|constructor]|].
  exists ch. split; [easy|]. rewrite Hl. unfold truthy, neqb. cbn. unfold Rleb'. destruct (Rle_dec 0 0); [reflexivity|]. exfalso. apply n. apply Rle_refl.
Qed.
Lemma run1_trace_ok : run1_trace = Ok (map (fun z => view (VFloat (fofZ z))) [5; 2; 2; -1]%Z).
Proof. vm_compute. reflexivity. Qed.
Lemma regret_falls : exists ch ys v w, complete Rops run2 /\ plot_regret Rops [(None, TOne run2)] (Some 2) = Ok ch /\ ch_lines ch = [mkLine [1; 2; 3]%nat ys] /\
  nth_error ys 0 = Some v /\ nth_error ys 1 = Some w /\ w < v.
Proof. destruct regret_decreases as (ch & ys & v & w & H). exists ch, ys, v, w. exact (conj run2_ok H). Qed.
Lemma convergence_R {RNG M} (args : list (named R RNG M)) t : args <> [] -> List.Forall (fun a => all_in (complete Rops) (snd a)) args ->
  exists ch lss, plot_convergence Rops args t = Ok ch /\ ch_lines ch = concat lss /\
    Forall2 (fun a ls => drawn (running_least Rops) is_mean (snd a) ls) args lss.
Proof.
  intros H1 H2. destruct (convergence Rops_order t H1 H2) as (ch & lss & E & El & F & _). exists ch, lss. split; [easy|]. split; [easy|].
  clear -F. induction F; constructor; [|easy]. eapply drawn_mono; [| |exact H]; [apply col_mean_R|easy].
Qed.
