(** Vocabulary for C37. *)
From Coq Require Import String List.
From Verif Require Import Base Dump.
Import ListNotations.
Set Implicit Arguments.

(** No reference points outside the heap. *)
Definition wf_ref (n : nat) (v : ref) : Prop := match v with RAtom _ => True | RObj k => k < n end.
Definition refs_of (c : cell) : list ref := match c with CDict l => map snd l | CSeq l => l end.
Definition wf_heap (h : heap) : Prop := forall c v, In c h -> In v (refs_of c) -> wf_ref (length h) v.

(** The object [r'] of heap [h'] is a copy of [r] of [h], with the same sharing, that has no object in common
    with the first [k] of [h'], and where the dict that was at [at_] lacks [key]. *)
Definition related (rel : nat -> nat -> Prop) (a b : ref) : Prop :=
  match a, b with RAtom s, RAtom s' => s = s' | RObj n, RObj m => rel n m | _, _ => False end.
Definition copy_without (key : string) (at_ : nat) (k : nat) (h : heap) (r : ref) (h' : heap) (r' : ref) : Prop :=
  exists rel : nat -> nat -> Prop,
    (forall n m m', rel n m -> rel n m' -> m = m') /\ (forall n n' m, rel n m -> rel n' m -> n = n') /\
    (forall n m, rel n m -> k <= m) /\ related rel r r' /\
    forall n m, rel n m ->
      match nth_error h n, nth_error h' m with
      | Some (CDict l), Some (CDict l') =>
        Forall2 (fun a b => fst a = fst b /\ related rel (snd a) (snd b))
                (filter (fun p => negb (andb (Nat.eqb n at_) (String.eqb key (fst p)))) l) l'
      | Some (CSeq l), Some (CSeq l') => Forall2 (related rel) l l'
      | _, _ => False
      end.
