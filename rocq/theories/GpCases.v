(** Concrete cases and counterexamples for C74 and C75. *)
From Coq Require Import String List ZArith Bool Lia Reals Lra.
From Flocq Require Import IEEE754.BinarySingleNaN.
From Verif Require Import Base BaseLemmas Num Values Transformers Dimension Space NumLaws SpaceSpec RealLemmas Samples SpaceProps SpaceProps2 Optimizer OptSpec OptSamples Minimize MinSpec MinSamples
  Plots DependSpec FitSpec FitLemmas GpPlot GpPlotSpec GpPlotLemmas.
Import ListNotations.
Open Scope list_scope.
Open Scope nat_scope.

Lemma fit_case : is_ok (snd (make_optimizer O0 G0 W0 (args0 "gp_hedge" "auto" (Some 2%Z) true 2) 7)) = true /\ Forall matched calls0 /\
  o_models (fst (exec O0 G0 W0 calls0 opt0)) = [4; 5].
Proof. split; [vm_compute; reflexivity|]. split; [|vm_compute; reflexivity]. unfold calls0. repeat (apply Forall_cons || apply Forall_nil); try exact I. cbn. now exists [num 1; num 2]. Qed.
Lemma fit_run_case : succeeds (run_min MBase 6 2 pts0 Y0None CBNone) = true /\ (0 <= n_initial (margs0 6 2 pts0 Y0None CBNone))%Z /\
  rmap (option_map (@res_models _ _ _)) (snd (run_min MBase 6 2 pts0 Y0None CBNone)) = Ok (Some [4; 5; 6]).
Proof. split; [vm_compute; reflexivity|]. split; [vm_compute; discriminate|vm_compute; reflexivity]. Qed.

(** One dimension. *)
Definition point1 : point float := [VFloat (fofZ 1)].
Definition W1 : world float nat := {|
  w_fit := w_fit W0; w_predict := w_predict W0; w_acq := w_acq W0; w_argsort := w_argsort W0; w_lbfgs := w_lbfgs W0;
  w_generate := fun dims n seed => Ok (repeat point1 (Z.to_nat n)); w_logmax := w_logmax W0 |}.
Definition margs1 (n0 : Z) (rs : option Z) (x0 : x0arg float) : margs float nat nat :=
  mkMargs (mkArgs [real1 KIdentity] (Some gp_est) true 9 true "EI" "auto" None 3 2 (fofZ 1)) 5 n0 rs x0 Y0None CBNone false.
Definition run1 n0 rs x0 := minimize O0 G0 W1 MBase fm (margs1 n0 rs x0) 7.
Definition flat_predict : nat -> list (list (pyval float)) -> res (list float * list float) := fun _ X => Ok (map (fun _ => fofZ 2) X, map (fun _ => fofZ 1) X).
Definition flat_acq : acq1 -> option unit -> nat -> float -> list (list (pyval float)) -> res (list float) := fun _ _ _ _ X => Ok (map (fun _ => fofZ 0) X).
Definition show1 (calls : Z) : gp_args float := mkGpArgs calls None (fofZ 0) 4 true true true true true.
Definition result_of {A B C} (d : C) (r : A * B * res (option C)) : C := match snd r with Ok (Some x) => x | _ => d end.
Definition res0 : result float nat nat := mkResult (X1 []) (fofZ 0) [] [] [] None [] 0.

Definition shown_count (pic : res (picture float)) : res (option (nat * nat)) := rmap (fun p => option_map (fun c => (length (fst c), length (snd c))) (pic_obs p)) pic.
Definition plot1 n0 rs x0 calls := plot_gaussian_process O0 flat_predict flat_acq (result_of res0 (run1 n0 rs x0)) (Some (specs_of (margs1 n0 rs x0))) (show1 calls).

Lemma counted pic n k : shown_count pic = Ok (Some (n, k)) -> exists p cx cy, pic = Ok p /\ pic_obs p = Some (cx, cy) /\ length cx = n /\ length cy = k.
Proof. destruct pic as [p|]; [|discriminate]. cbn. destruct (pic_obs p) as [[cx cy]|] eqn:E; [|discriminate]. cbn. intro H. injection H as <- <-. now exists p, cx, cy. Qed.
Lemma fit_len (dims : list (dim float)) cx cy md : fitted_on O0 W1 dims cx cy md -> length cy = md.
Proof.
  intros (ys & -> & P & Xt & _ & _ & H). cbn in H. rewrite map_length. destruct (Nat.eqb (length Xt) (length ys)) eqn:E; [|discriminate]. injection H as <-. apply Nat.eqb_eq in E. congruence.
Qed.
Lemma short n0 rs x0 md k : succeeds (run1 n0 rs x0) = true -> shown_count (plot1 n0 rs x0 0) = Ok (Some (k, k)) ->
  nth_error (res_models (result_of res0 (run1 n0 rs x0))) 0 = Some md -> k <> md ->
  exists t o r pic cx cy, run1 n0 rs x0 = (t, Some o, Ok (Some r)) /\
    plot_gaussian_process O0 flat_predict flat_acq r (Some (specs_of (margs1 n0 rs x0))) (show1 0) = Ok pic /\
    pic_obs pic = Some (cx, cy) /\ model_of r 0 md /\ ~ fitted_on O0 W1 (res_space r) cx cy md.
Proof.
  intros Hs Hc Hm Hk. destruct (success _ Hs) as (o & r & E). destruct (counted _ _ _ Hc) as (pic & cx & cy & Ep & Eo & L1 & L2).
  exists (trace_of (run1 n0 rs x0)), o, r, pic, cx, cy. assert (Er : result_of res0 (run1 n0 rs x0) = r) by (rewrite E; reflexivity). unfold plot1 in Ep. rewrite Er in *.
  split; [exact E|]. split; [exact Ep|]. split; [exact Eo|]. split; [exact Hm|]. intro F. apply fit_len in F. congruence.
Qed.
Lemma short_default : exists t o r pic cx cy, run1 3 None X0None = (t, Some o, Ok (Some r)) /\
    plot_gaussian_process O0 flat_predict flat_acq r (Some (specs_of (margs1 3 None X0None))) (show1 0) = Ok pic /\
    pic_obs pic = Some (cx, cy) /\ model_of r 0 3 /\ ~ fitted_on O0 W1 (res_space r) cx cy 3.
Proof. apply (short 3 None X0None 3 2); [vm_compute; reflexivity|vm_compute; reflexivity|vm_compute; reflexivity|discriminate]. Qed.
Definition given1 : x0arg float := X0Seq true [IPt point1; IPt point1].
Lemma short_given : exists t o r pic cx cy, run1 0 (Some 1%Z) given1 = (t, Some o, Ok (Some r)) /\
    plot_gaussian_process O0 flat_predict flat_acq r (Some (specs_of (margs1 0 (Some 1%Z) given1))) (show1 0) = Ok pic /\
    pic_obs pic = Some (cx, cy) /\ model_of r 0 3 /\ ~ fitted_on O0 W1 (res_space r) cx cy 3.
Proof. apply (short 0 (Some 1%Z) given1 3 1); [vm_compute; reflexivity|vm_compute; reflexivity|vm_compute; reflexivity|discriminate]. Qed.
Lemma right_case : succeeds (run1 0 (Some 3%Z) X0None) = true /\ (0 <= n_initial (margs1 0 (Some 3%Z) X0None))%Z /\ shown_count (plot1 0 (Some 3%Z) X0None 1) = Ok (Some (4, 4)) /\
  res_models (result_of res0 (run1 0 (Some 3%Z) X0None)) = [3; 4; 5].
Proof. split; [vm_compute; reflexivity|]. split; [vm_compute; discriminate|]. split; vm_compute; reflexivity. Qed.
(** With one initial point there is nothing to show with the first model. *)
Lemma first_fails : succeeds (run1 1 None X0None) = true /\ plot1 1 None X0None 0 = Raise ValueError.
Proof. split; vm_compute; reflexivity. Qed.

(** Categories. *)
Definition cat_result (k : tkind) : result float nat nat :=
  mkResult (X1 [VStr "a"%string]) (fofZ 1) [fofZ 1; fofZ 2] [X1 [VStr "a"%string]; X1 [VStr "c"%string]] [2] None [cat3 k] 0.
Definition cat_specs : specs unit := mkSpecs (Some 2%Z) "EI" None.
Lemma cat_fails : Forall (wf_dim O0) [cat3 KOnehot; cat3 KNormalize] /\
  Forall (fun x => exists p, x = X1 p /\ in_space O0 [cat3 KOnehot] p /\ in_space O0 [cat3 KNormalize] p) (res_x_iters (cat_result KOnehot)) /\
  plot_gaussian_process O0 flat_predict flat_acq (cat_result KOnehot) (Some cat_specs) (mkGpArgs 0 None (fofZ 0) 4 false false true true false) = Raise ValueError /\
  plot_gaussian_process O0 flat_predict flat_acq (cat_result KNormalize) (Some cat_specs) (mkGpArgs 0 None (fofZ 0) 4 false false true true true) = Raise TypeError.
Proof.
  split; [apply Forall_cons; [apply wf_cat3|apply Forall_cons; [apply wf_cat3|apply Forall_nil]]|]. split; [|split; vm_compute; reflexivity].
  assert (A : forall k v, In v [VStr "a"; VStr "c"]%string -> in_space O0 [cat3 k] [v]).
  { intros k v Hv. apply Forall2_cons; [|apply Forall2_nil]. constructor. cbn in *. tauto. }
  apply Forall_cons; [|apply Forall_cons; [|apply Forall_nil]]; eexists; (split; [reflexivity|split; apply A; cbn; auto]).
Qed.

(** Over the reals. *)
Definition rdim1 : dim R := DReal (rreal PLogUniform 2 KNormalize).
Definition r_predict : nat -> list (list (pyval R)) -> res (list R * list R) := fun _ X => Ok (map (fun _ => 2%R) X, map (fun _ => 1%R) X).
Definition r_acq : acq1 -> option unit -> nat -> R -> list (list (pyval R)) -> res (list R) := fun _ _ _ _ X => Ok (map (fun _ => 0%R) X).
Definition r_result : result R nat nat :=
  mkResult (X1 [VFloat 4%R]) 1%R [3; 1]%R [X1 [VFloat 2%R]; X1 [VFloat 4%R]] [1; 2] None [rdim1] 0.
Definition r_specs : specs unit := mkSpecs (Some 1%Z) "gp_hedge" None.
Definition r_show : gp_args R := mkGpArgs 1 (Some (fun _ => Ok 1%R)) (1/10)%R 5 true true true true true.
Lemma picture_case : ideal_dim rdim1 /\ tsize rdim1 = 1 /\ (0 <= before r_result r_specs)%Z /\
  subject r_result r_specs (gp_calls r_show) 2 [X1 [VFloat 2%R]; X1 [VFloat 4%R]] [3; 1]%R /\
  exists pic, plot_gaussian_process Rops r_predict r_acq r_result (Some r_specs) r_show = Ok pic.
Proof.
  assert (Hi : ideal_dim rdim1) by (pose proof rspace_ideal as H; now inversion H).
  assert (Hs : subject r_result r_specs (gp_calls r_show) 2 [X1 [VFloat 2%R]; X1 [VFloat 4%R]] [3; 1]%R) by (split; reflexivity || (split; reflexivity)).
  assert (Hb : (0 <= before r_result r_specs)%Z) by (cbn; lia).
  split; [exact Hi|]. split; [reflexivity|]. split; [exact Hb|]. split; [exact Hs|]. eapply (@c75_total nat nat unit r_predict r_acq r_result rdim1 r_specs r_show 2 _ _ eq_refl Hi eq_refl); [cbn; lia| | | |exact Hb|exact Hs|easy|].
  - intros m rows. eexists _, _. split; [reflexivity|]. now rewrite !map_length.
  - intros k kw m y rows. eexists. split; [reflexivity|]. now rewrite !map_length.
  - intros f E x. injection E as <-. eauto.
  - intros _. eexists _, _, _. now split.
Qed.
