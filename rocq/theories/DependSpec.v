(** Vocabulary for partial dependence (C59). *)
From Coq Require Import String List ZArith Bool Reals.
From Verif Require Import Base Num Values Transformers Dimension Space NumLaws SpaceSpec ForestSpec.
Import ListNotations.
Open Scope list_scope.

Section Rows.
  Context {N : Type}.
  (** A row made of one part for each dimension. *)
  Definition split_row (dims : list (dim N)) (row : list (pyval N)) (parts : list (list (pyval N))) : Prop :=
    Forall2 (fun d p => length p = tsize d) dims parts /\ row = concat parts.
  (** Part [i] replaced. *)
  Definition with_part {A} (i : nat) (x : A) (l : list A) : list A := firstn i l ++ [x] ++ skipn (S i) l.
End Rows.

Open Scope R_scope.
(** [n] evenly spaced numbers from [lo] to [hi]. *)
Definition even (lo hi : R) (n : nat) (l : list R) : Prop :=
  length l = n /\ forall k v, nth_error l k = Some v -> v = lo + INR k * (hi - lo) / INR (n - 1).
(** The coordinates [xi] on the axis and the values of the dimension they stand for. *)
Definition plotted (d : dim R) (n : nat) (xi vals : list (pyval R)) : Prop :=
  match d with
  | DReal r => xi = vals /\ exists l, vals = map (@VFloat R) l /\ even (r_low r) (r_high r) n l
  | DInt i => xi = vals /\ exists l, vals = map (@VFloat R) l /\ even (IZR (i_low i)) (IZR (i_high i)) n l
  | DCat c => Forall2 (fun x v => exists k, x = VInt (Z.of_nat k) /\ nth_error (c_cats c) k = Some v) xi vals /\
      length xi = Nat.min (length (c_cats c)) n /\ ((length (c_cats c) <= n)%nat -> vals = c_cats c)
  end.
Definition plottable (d : dim R) : Prop := match d with DCat _ => exact_dim Rops d | _ => True end.
(** [y] is the mean prediction over the points. *)
Definition mean_at (predict : list (list (pyval R)) -> res (list R)) (dims : list (dim R)) (pts : list (list (pyval R))) (y : R) : Prop :=
  exists rows p, space_transform Rops dims pts = Ok rows /\ predict rows = Ok p /\ y = avg p.
