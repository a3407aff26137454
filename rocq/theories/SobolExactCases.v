(** Four points of a Sobol generator in float64. *)
From Coq Require Import String List ZArith Bool Reals Lia.
From Verif Require Import Base Num Values Dimension Space Samples SpaceProps2 Sampler SamplerSpec Sobol SobolProps GeneratorCases.
Import ListNotations.
Open Scope nat_scope.
Open Scope list_scope.

Lemma c46_float_case : exists s s' h, sobol_history O0 G0 4 false s 0 /\ sobol_design O0 G0 s 3 4 1 = (s', Ok h) /\ length h = 4 /\ (2 ^ Z.of_nat 2 | 4 + Z.of_nat 0)%Z.
Proof.
  set (s := mkSobol 4 false 0 None (-1) (repeat (repeat 0%Z maxcol) dim_max) (-1)).
  assert (E : sobol_new 4 false = Ok s) by reflexivity.
  assert (C : match snd (sobol_design O0 G0 s 3 4 1) with Ok h => Nat.eqb (length h) 4 | _ => false end = true) by (vm_compute; reflexivity).
  destruct (sobol_design O0 G0 s 3 4 1) as [s' [h|x]] eqn:D; [|discriminate]. cbn [snd] in C. apply Nat.eqb_eq in C.
  exists s, s', h. split; [exact (history_new O0 G0 E)|]. split; [exact D|]. split; [exact C|]. exists 1%Z. reflexivity.
Qed.
