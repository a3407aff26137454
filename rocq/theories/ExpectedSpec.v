(** Points with coordinates between the bounds, and what is assumed of the minimiser (C60). *)
From Coq Require Import List Bool.
From Verif Require Import Base Num Values Transformers Dimension Space Optimizer Expected.
Import ListNotations.
Section ExpectedSpec.
  Context {N : Type} (O : numops N).
  Definition between (b : N * N) (c : N) : Prop := nleb O (fst b) c = true /\ nleb O c (snd b) = true.
  (** [sp] returns a point between the bounds with its value, no larger than at the start. *)
  Definition descends (f : list N -> res N) (bounds : list (N * N)) (sp : (list N -> res N) -> list (pyval N) -> list (N * N) -> res (list N * N)) : Prop :=
    forall x0 x v, sp f x0 bounds = Ok (x, v) ->
      Forall2 between bounds x /\ f x = Ok v /\ nisnan O v = false /\
      forall xs v0, nums O x0 = Ok xs -> f xs = Ok v0 -> nleb O v v0 = true.
  (** [below x]: x is less than every greatest number. *)
  Definition infinite (below : N -> bool) : Prop :=
    forall v w, nisnan O v = false -> nisnan O w = false -> below w = false -> nleb O v w = true.
  Definition real_only (dims : list (dim N)) : Prop := Forall (fun d => match d with DReal _ => True | _ => False end) dims.
End ExpectedSpec.
