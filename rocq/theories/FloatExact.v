(** A float64 value that scaling to [0, 1] changes (C04). *)
From Coq Require Import String List ZArith Bool.
From Flocq Require Import IEEE754.BinarySingleNaN.
From Verif Require Import Base Num Values Transformers Dimension Space SpaceSpec Samples.
Import ListNotations.
Open Scope list_scope.

Definition tenth : float := fdiv (fofZ 1) (fofZ 10).
Definition wide : real_dim float := mkReal (fofZ (-5)) (fofZ 10) PUniform (fofZ 10) KNormalize None DT64.
Lemma tenth_lost : exists r x,
  (forall L, wf_real (F64 L) r) /\ r_prior r = PUniform /\
  fleb (r_low r) x = true /\ fleb x (r_high r) = true /\
  forall L a, dim_transform (F64 L) (DReal r) [VFloat x] = Ok a ->
    dim_inverse (F64 L) (DReal r) a <> Ok [VFloat x].
Proof.
  exists wide, tenth. split; [|split; [reflexivity|split; [now vm_compute|split; [now vm_compute|]]]].
  - intros L. split; [|split; [reflexivity|now right]]. cbn [nltb F64 r_low r_high wide]. now vm_compute.
  - intros L a. unfold dim_transform. cbn [dim_transformer real_transformer wide r_kind r_prior r_low r_high r_base transform as_A1 bind nums mapM to_num].
    intros E C. assert (V : rmap (map view) (a <- dim_transform (F64 L) (DReal wide) [VFloat tenth] ;; dim_inverse (F64 L) (DReal wide) a) = Ok [view (VFloat tenth)]).
    { unfold dim_transform. cbn [dim_transformer real_transformer wide r_kind r_prior r_low r_high r_base transform as_A1 bind nums mapM to_num]. rewrite E. cbn [bind]. rewrite C. reflexivity. }
    vm_compute in V. discriminate V.
Qed.
