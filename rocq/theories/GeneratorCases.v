(** Concrete cases for Props_Generators.v. *)
From Coq Require Import String List ZArith Bool Reals Lia.
From Flocq Require Import Core.Core IEEE754.BinarySingleNaN.
From Verif Require Import Base Num NumLaws Values Dimension Space SpaceSpec Samples SpaceProps2 Sampler SamplerSpec
  HaltonLemmas DesignLemmas GridLemmas SamplerSamples Sobol SobolState SobolProps Cook CookSpec Optimizer OptSpec OptSamples
  Minimize MinSpec MinLemmas MinDummy MinSamples Generators FloatDesign FloatSobol GeneratorLemmas.
Import ListNotations.
Open Scope nat_scope.
Open Scope list_scope.

(** Statistics that exist for every design *)
Definition flat_stats : @lhs_stats float := {|
  st_corr := fun _ => Ok (Some (fofZ 0), fofZ 0); st_min := fun _ => Ok (fofZ 0); st_ratio := fun _ => Ok (fofZ 1) |}.
Lemma flat_ok n : stats_okF n flat_stats.
Proof. intros h _. repeat split; eexists; reflexivity. Qed.
Lemma space4_samplable : Forall (samplable L0) space4. Proof. exact (proj1 (proj2 (proj2 C06_sample))). Qed.

Definition exclude := mkGrid BExclude false BOnly.
Lemma float_case : rng_ok O0 G0 /\ pow_ok L0 /\ space4 <> [] /\ Forall (samplable L0) space4 /\
  bases_ok hal (length space4) /\ bases_ok hal 3 /\ skips_ok hal /\ in_reach hal (length space4) 1000 /\ in_reach hal 3 1000 /\
  stats_okF 10 flat_stats /\ grid_fits exclude (length space4) 20.
Proof.
  split; [apply G0_ok|]. split; [apply L0_pow|]. split; [discriminate|]. split; [exact space4_samplable|].
  split; [exact I|]. split; [exact I|]. split; [now left|].
  split; [apply small_reach; [cbn; lia|now vm_compute]|]. split; [apply small_reach; [lia|now vm_compute]|].
  split; [apply flat_ok|]. split; [now vm_compute|intros _; now vm_compute].
Qed.

(** An optimizer whose initial points come from the generator of a name *)
Definition WN (k : designer) : world float nat := {|
  w_fit := w_fit W0; w_predict := w_predict W0; w_acq := w_acq W0; w_argsort := w_argsort W0; w_lbfgs := w_lbfgs W0;
  w_generate := generate O0 G0 flat_stats k; w_logmax := w_logmax W0 |}.
Lemma WN_uses k : uses L0 G0 flat_stats (WN k) k. Proof. intros dims n seed. reflexivity. Qed.
Definition words : list (string * gclass) := [("Sobol", GSobol); ("HALTON", GHalton); ("hammersly", GHammersly); ("lhs", GLhs); ("grid", GGrid)]%string.
Definition cooked (s : string) : option designer :=
  match cook_generator (GArgName s) [] with Ok (Some g) => designer_of g | _ => None end.
Definition starts (s : string) : bool :=
  match cooked s with
  | None => false
  | Some k => match make_optimizer O0 G0 (WN k) (args0 "EI" "sampling" None true 4) 3 with
              | (_, Ok o) => match ask O0 G0 (WN k) NPNone "cl_min" o with
                             | (_, Ok (A1pt _)) => true | _ => false end
              | _ => false
              end
  end.
Lemma named_case : forallb (fun w => starts (fst w)) words = true.
Proof. now vm_compute. Qed.
Lemma asked_case : asked flat_stats GSobol 2 4 /\ asked flat_stats GHalton 2 4 /\ asked flat_stats GHammersly 2 4 /\ asked flat_stats GLhs 2 4 /\
  asked flat_stats GGrid 2 4.
Proof.
  unfold asked. split; [|split; [|split; [|split]]]; (split; [lia|]).
  - split; [lia|now vm_compute].
  - split; [lia|now vm_compute].
  - split; [lia|now vm_compute].
  - split; [now vm_compute|]. right. apply flat_ok.
  - split; [lia|]. split; [now vm_compute|intros _; now vm_compute].
Qed.
