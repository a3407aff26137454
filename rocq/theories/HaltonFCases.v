(** A Halton design in two dimensions. *)
From Coq Require Import List ZArith Lia Reals.
From Verif Require Import Base Num Values Dimension Space Samples SpaceProps2 Sampler SamplerSpec HaltonLemmas FloatDesign GeneratorCases.
Import ListNotations.
Open Scope nat_scope.

Lemma c64_float_case : rng_ok O0 G0 /\ skip_counts (mkHalton (-1) (-2) None) /\ in_reach (mkHalton (-1) (-2) None) 2 40 /\
  is_box [2; 3] [2; 2] [3; 8]%Z /\ (Z.of_nat 4 + box_count [2; 3]%nat [2; 2]%nat <= Z.of_nat 40)%Z.
Proof.
  split; [apply G0_ok|]. split; [right; cbn; lia|]. split.
  - intros ps E. assert (X : halton_primes None 2 = Ok [2; 3]) by now vm_compute. cbn [h_primes] in E. rewrite X in E. injection E as <-.
    cbn [h_min h_max]. intros p q [<-|[<-|[]]] [<-|[<-|[]]]; vm_compute; discriminate.
  - split; [cbn; lia|]. vm_compute. discriminate.
Qed.
