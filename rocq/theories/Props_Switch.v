(** Property theorems: changing the transformers of a space (C87). *)
From Coq Require Import String List ZArith Bool Reals.
From Verif Require Import Base Num NumLaws Values Dimension Space Switch SwitchSpec SwitchProps.
Import ListNotations.
Open Scope list_scope.

(** C87. Space.set_transformer changes nothing but the warping, whether or not it raises: the points of the space, their
    distances and the names stay the same. *)
Theorem C87_meaning : forall N (O : numops N) t ds ds' r, space_set t ds = (ds', r) ->
  Forall2 (@alike N) (map (@ob_dim N) ds) (map (@ob_dim N) ds') /\
  (forall p, space_contains O (map (@ob_dim N) ds') p = space_contains O (map (@ob_dim N) ds) p) /\
  (forall p q, space_distance O (map (@ob_dim N) ds') p q = space_distance O (map (@ob_dim N) ds) p q) /\
  dimension_names (map (@ob_dim N) ds') = dimension_names (map (@ob_dim N) ds).
Proof. exact @c87_meaning. Qed.
Print Assumptions C87_meaning.
(** If it returns, get_transformer gives what was asked for, and this is what the dimensions do and report: *)
Theorem C87_set : forall N (O : numops N) t ds ds', space_set t ds = (ds', Ok tt) ->
  get_transformer ds' = match t with TOne s => repeat s (length ds) | TList l => firstn (length ds) l end /\
  length ds' = length ds /\
  Forall (fun o => ob_label o = kind_name (dim_kind (ob_dim o)) /\
                   obj_tbounds O o = tbounds O (ob_dim o) /\ obj_tsize o = tsize (ob_dim o)) ds'.
Proof. exact @c87_set. Qed.
Print Assumptions C87_set.
(** it returns if every dimension offers the transformer asked for, *)
Theorem C87_offered : forall N (ds : list (dobj N)),
  (forall l, Forall2 (fun o s => In s (offered (ob_dim o))) ds l -> exists ds', space_set (TList l) ds = (ds', Ok tt)) /\
  (forall s, Forall (fun o => In s (offered (ob_dim o))) ds -> exists ds', space_set (TOne s) ds = (ds', Ok tt)).
Proof. intros N ds. exact (conj (@space_set_total N ds) (@space_set_one N ds)). Qed.
Print Assumptions C87_offered.
(** and raises ValueError if one of them does not. *)
Theorem C87_refused : forall N (ds : list (dobj N)) s, Exists (fun o => ~ In s (offered (ob_dim o))) ds ->
  exists ds', space_set (TOne s) ds = (ds', Raise ValueError).
Proof. exact @space_set_refused. Qed.
Print Assumptions C87_refused.
(** Remembering get_transformer() and setting it again puts everything back, even after a call that raised. *)
Theorem C87_restore : forall N t (ds ds' : list (dobj N)) r, Forall (@honest N) ds -> space_set t ds = (ds', r) ->
  space_set (TList (get_transformer ds)) ds' = (ds, Ok tt).
Proof. exact @c87_restore. Qed.
Print Assumptions C87_restore.
(** set_transformer_by_type changes no dimensions of another type, whether or not it raises, and those of the type in the
    warping only; if it returns they have the transformer asked for. *)
Theorem C87_by_type : forall N s t (ds ds' : list (dobj N)) r, set_by_type s t ds = (ds', r) ->
  Forall2 (fun o o' => alike (ob_dim o) (ob_dim o') /\ (~ of_type t (ob_dim o) -> o' = o) /\
                       (r = Ok tt -> of_type t (ob_dim o) -> honest o' /\ ob_label o' = s)) ds ds'.
Proof. exact @c87_by_type. Qed.
Print Assumptions C87_by_type.

(** A Real and a Categorical: "normalize" is offered by both, "onehot" by the second only. *)
Example C87_case : Forall (@honest R) half_way /\ Forall (fun o => In "normalize"%string (offered (ob_dim o))) half_way /\
  Exists (fun o => ~ In "onehot"%string (offered (ob_dim o))) half_way /\
  Forall2 (fun o s => In s (offered (ob_dim o))) half_way ["identity"; "onehot"]%string /\
  exists ds', set_by_type "label" TyCategorical half_way = (ds', Ok tt).
Proof. exact half_way_case. Qed.

(** "A request that raises leaves the space as it was" is false: after the refused "onehot" the Real reports the bounds of
    its unscaled values, while its transform still scales to [0, 1]. *)
Theorem C87_refused_refuted : exists ds',
  Forall (@honest R) half_way /\ space_set (TOne "onehot") half_way = (ds', Raise ValueError) /\ get_transformer ds' = ["onehot"; "normalize"]%string /\
  map (obj_tbounds Rops) half_way = [[(0, 1)]; [(0, 1)]]%R /\ map (obj_tbounds Rops) ds' = [[(10, 20)]; [(0, 1)]]%R /\
  exists o, nth_error ds' 0 = Some o /\ obj_transform Rops o [VFloat 15%R] = Ok (Transformers.A1 [VFloat (1 / 2)%R]).
Proof. exact c87_refused. Qed.
Print Assumptions C87_refused_refuted.
