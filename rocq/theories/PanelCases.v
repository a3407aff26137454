From Coq Require Import String List ZArith Bool Lia Reals Lra.
From Verif Require Import Base BaseLemmas Num Values Transformers Dimension Space NumLaws SpaceSpec CatLemmas EachLemmas NormLaws RealLemmas ForestSpec Optimizer OptSpec ArgLemmas CbSpec
  Samples SpaceProps SpaceProps2 SamplerSamples Plots PlotSpec PlotLemmas PlotCases DependSpec DependTotal PlotCats Expected Objective PanelSpec ObjectiveLemmas EvalLemmas ObjectiveTotal.
Import ListNotations.
Open Scope nat_scope.
Open Scope list_scope.
Set Implicit Arguments.

Lemma known_line L {RNG M} (args : list (named float RNG M)) t : args <> [] -> Forall (fun a => all_in (complete (F64 L)) (snd a)) args ->
  (forall v, t = Some v -> neqb (F64 L) v (fofZ 0) = false) -> exists ch, plot_convergence (F64 L) args t = Ok ch /\ ch_hline ch = t.
Proof.
  intros Hne H Ht. destruct (@convergence _ RNG M (F64 L) (F64_order L) args t Hne H) as (ch & lss & E & _ & _ & Hl). exists ch. split; [easy|]. rewrite Hl.
  destruct t as [v|]; [|easy]. cbn [truthy]. now rewrite (Ht v eq_refl : neqb (F64 L) v (nofZ (F64 L) 0) = false).
Qed.
Lemma labels L dims P m : Forall (wf_dim (F64 L)) dims -> Forall (in_space (F64 L) dims) P -> in_space (F64 L) dims m ->
  exists xss ms, map_categories (F64 L) dims P m = Ok (xss, ms, map (@is_cat float) dims) /\
    Forall2 (fun p xs => Forall2 (labelled L) (combine dims p) xs) P xss /\ Forall2 (labelled L) (combine dims m) ms.
Proof.
  intros Hw HP Hm. destruct (map_categories_ok Hw HP Hm) as (xss & ms & E & A & B). exists xss, ms. split; [easy|].
  assert (K : forall dv x, axis_value (F64 L) (fst dv) (snd dv) x -> labelled L dv x).
  { intros [d v] x. unfold labelled. cbn [fst snd]. destruct d as [r|i|c]; try easy. intros Ha Hl. now apply (@cat_label _ (F64 L) (F64_trunc L) c v x Ha Hl). }
  assert (K2 : forall l xs, Forall2 (fun dv x => axis_value (F64 L) (fst dv) (snd dv) x) l xs -> Forall2 (labelled L) l xs) by (intros l xs H; induction H; constructor; auto).
  split; [|now apply K2]. clear -A K2. induction A; constructor; auto.
Qed.

Definition points4 : list (point float) := [[VFloat (fofZ 3); VInt 5; VStr "c"; VInt 3]; [VFloat fhalf; VInt (-3); VStr "b"; VInt 7]]%string.
Lemma space4_ok : Forall (wf_dim O0) space4 /\ Forall (in_space O0 space4) points4 /\ Forall (fun d => is_constant O0 d = false) space4.
Proof.
  destruct C05_sample as (A & B & _). split; [eapply Forall_impl; [|exact A]; now intros d []|]. split; [exact B|]. repeat constructor.
Qed.
Lemma labels_case : rmap (fun r => map (map (fun x => view (VFloat x))) (fst (fst r))) (map_categories O0 space4 points4 [VFloat (fofZ 3); VInt 5; VStr "c"; VInt 3]%string) =
  Ok (map (map (fun z => view (VFloat z))) [[fofZ 3; fofZ 5; fofZ 2; fofZ 1]; [fhalf; fofZ (-3); fofZ 0; fofZ 0]]).
Proof. vm_compute. reflexivity. Qed.
Lemma histogram_case : space_get space4 (GName "c") = Some (2, cat3 KOnehot) /\ space_get space4 (GIndex 1) = Some (1, int1 KNormalize) /\
  plot_histogram O0 space4 points4 (GName "c") 10 = Ok (HBars [VStr "c"; VStr "b"]%string [1; 1]).
Proof. split; [reflexivity|]. split; [reflexivity|]. vm_compute. reflexivity. Qed.

(** A constant dimension in front. *)
Definition odd_space : list (dim float) := [DCat (mkCat [VStr "a"]%string None KOnehot None); real1 KIdentity].
Definition odd_point : point float := [VStr "a"; VFloat (fofZ 1)]%string.
Lemma odd_case : Forall (wf_dim O0) odd_space /\ in_space O0 odd_space odd_point /\ plot_evaluations O0 odd_space odd_point [odd_point] None 10 = Raise AttributeError.
Proof.
  split; [|split; [|vm_compute; reflexivity]].
  - constructor; [|constructor; [apply wf_real1; auto|constructor]]. repeat split; try easy; [exists TyStr; repeat constructor|repeat constructor|repeat constructor].
  - constructor; [constructor; now left|]. constructor; [constructor; reflexivity|constructor].
Qed.
Definition no_sp : (list R -> res R) -> list (pyval R) -> list (R * R) -> res (list R * R) := fun _ _ _ => Raise NotModelled.
Lemma objective_case : rspace <> [] /\ Forall ideal_dim rspace /\ Forall (in_space Rops rspace) [rpoint; rpoint] /\
  sources row_sums GR (fun _ => true) no_sp rspace rpoint 5 None 0 0 (MName "result") [rpoint] /\
  meant row_sums GR (fun _ => true) no_sp rspace rpoint None 0 (MName "result") rpoint /\
  asked Rops rspace (Some [GIndex 0; GIndex 3; GIndex 1]) 2 1 (DInt rint) /\
  forall i, i < panels_asked Rops rspace (Some [GIndex 0; GIndex 3; GIndex 1]) -> exists a d, asked Rops rspace (Some [GIndex 0; GIndex 3; GIndex 1]) i a d.
Proof.
  destruct C05_real_sample as [A B]. split; [easy|]. split; [exact A|]. split; [exact B|]. split; [apply source_point; constructor|]. split; [constructor|]. split; [exists (GIndex 1); now split|].
  intros [|[|[|i]]] Hi; [..|cbn in Hi; lia]; eexists _, _; (eexists; split; [reflexivity|reflexivity]).
Qed.
