(** What Hammersly designs are expected to deliver. *)
From Coq Require Import List ZArith Reals.
From Verif Require Import SamplerSpec.
Import ListNotations.
Open Scope list_scope.

(** The numbers of [pt] but the last are in the box, the last is in the slab made of [len] of the [n] equal parts of [0,1)
    from the part [s] on. *)
Definition in_box_slab (bases ks : list nat) (js : list Z) (n s len : nat) (pt : list R) : Prop :=
  exists row y, pt = row ++ [y] /\ in_box bases ks js row /\ (INR s / INR n <= y < INR (s + len) / INR n)%R.
