(** Proofs about changing transformers (C87). *)
From Coq Require Import String List ZArith Bool Reals Lra Lia.
From Verif Require Import Base BaseLemmas Num NumLaws Values Transformers Dimension Space Switch SwitchSpec.
Import ListNotations.
Open Scope list_scope.
Set Implicit Arguments.

Section SwitchProps.
  Context {N : Type} (O : numops N).
  Notation obj := (dobj N).
  Implicit Types (o : obj) (ds : list obj).

  Lemma alike_refl (d : dim N) : alike d d.
  Proof. destruct d; cbn; auto 10. Qed.
  Lemma alike_trans (a b c : dim N) : alike a b -> alike b c -> alike a c.
  Proof. destruct a, b, c; cbn; try easy; intros; intuition congruence. Qed.
  Lemma alike_kind (a b : dim N) : alike a b -> dim_kind a = dim_kind b -> a = b.
  Proof. destruct a as [[]|[]|[]], b as [[]|[]|[]]; cbn; try easy; intros; f_equal; f_equal; intuition congruence. Qed.

  Lemma kind_of_name k : kind_of (kind_name k) = Some k.
  Proof. now destruct k. Qed.
  Lemma name_of_kind s k : kind_of s = Some k -> s = kind_name k.
  Proof.
    unfold kind_of.
    destruct (String.eqb_spec s "identity") as [->|]; [now intros [= <-]|].
    destruct (String.eqb_spec s "normalize") as [->|]; [now intros [= <-]|].
    destruct (String.eqb_spec s "onehot") as [->|]; [now intros [= <-]|].
    destruct (String.eqb_spec s "string") as [->|]; [now intros [= <-]|].
    destruct (String.eqb_spec s "label") as [->|]; [now intros [= <-]|easy].
  Qed.

  Lemma set_ok s o o' : set_transformer s o = (o', Ok tt) -> ob_label o' = s /\ honest o' /\ alike (ob_dim o) (ob_dim o') /\ In s (offered (ob_dim o)).
  Proof.
    unfold set_transformer. destruct (kind_of s) as [k|] eqn:E; [|easy]. pose proof (name_of_kind _ E) as ->.
    destruct o as [lb d]. cbn. destruct d as [r|i|c]; destruct k; cbn; intros [= <-]; unfold honest; cbn; auto 20.
  Qed.
  Lemma set_offered s o : In s (offered (ob_dim o)) -> exists o', set_transformer s o = (o', Ok tt).
  Proof.
    destruct o as [lb d]. destruct d as [r|i|c]; cbn; intro H; decompose [or] H; subst; try easy; eexists; reflexivity.
  Qed.
  Lemma set_refused s o : ~ In s (offered (ob_dim o)) -> set_transformer s o = (mkObj s (ob_dim o), Raise ValueError).
  Proof.
    intro H. unfold set_transformer. destruct (kind_of s) as [k|] eqn:E; [|reflexivity]. pose proof (name_of_kind _ E) as ->.
    destruct o as [lb d]. destruct d as [r|i|c]; destruct k; cbn in *; try reflexivity; exfalso; tauto.
  Qed.
  Lemma set_cases s o : (exists o', set_transformer s o = (o', Ok tt)) \/ set_transformer s o = (mkObj s (ob_dim o), Raise ValueError).
  Proof.
    destruct (in_dec string_dec s (offered (ob_dim o))) as [I|I]; [left; now apply set_offered|right; now apply set_refused].
  Qed.
  Lemma set_alike s o o' r : set_transformer s o = (o', r) -> alike (ob_dim o) (ob_dim o').
  Proof.
    intro E. destruct (set_cases s o) as [(x & H)|H]; rewrite H in E; injection E as <- <-; [now apply set_ok in H|apply alike_refl].
  Qed.
  (** Whatever was done to an object, its own label puts it back *)
  Lemma set_back o o' : honest o -> alike (ob_dim o) (ob_dim o') -> set_transformer (ob_label o) o' = (o, Ok tt).
  Proof.
    intros (I & L) A. destruct (@set_offered (ob_label o) o') as (x & E).
    { destruct (ob_dim o), (ob_dim o'); cbn in A; try easy. }
    rewrite E. f_equal. destruct (set_ok _ _ E) as (Lx & (_ & Hx) & Ax & _). destruct x as [lx dx], o as [lo d]. cbn in *. subst lx.
    f_equal. symmetry. apply alike_kind; [now apply alike_trans with (ob_dim o')|]. rewrite L in Hx.
    destruct (dim_kind d), (dim_kind dx); cbn in Hx; easy.
  Qed.

  Lemma space_set_alike : forall ds t ds' r, space_set t ds = (ds', r) -> Forall2 (fun o o' => alike (ob_dim o) (ob_dim o')) ds ds'.
  Proof.
    assert (R : forall ds, Forall2 (fun o o' => alike (ob_dim o) (ob_dim o')) ds ds) by (induction ds; constructor; [apply alike_refl|easy]).
    induction ds as [|o ds IH]; cbn; intros t ds' r E; [injection E as <- <-; constructor|].
    destruct (match t with TOne s => Some (s, t) | TList [] => None | TList (s :: l) => Some (s, TList l) end) as [[s t']|] eqn:Et; [|injection E as <- <-; apply R].
    destruct (set_transformer s o) as [o' [[]|e]] eqn:Es.
    - destruct (space_set t' ds) as [ds1 r1] eqn:E1. injection E as <- <-. constructor; [now apply set_alike in Es|]. now apply IH in E1.
    - injection E as <- <-. constructor; [now apply set_alike in Es|apply R].
  Qed.
  Definition wanted (t : targ) (n : nat) : list string := match t with TOne s => repeat s n | TList l => firstn n l end.
  Lemma space_set_ok : forall ds t ds', space_set t ds = (ds', Ok tt) ->
    get_transformer ds' = wanted t (length ds) /\ Forall honest ds' /\ length ds' = length ds.
  Proof.
    induction ds as [|o ds IH]; cbn; intros t ds' E.
    { injection E as <-. destruct t; cbn; repeat split; constructor. }
    destruct (match t with TOne s => Some (s, t) | TList [] => None | TList (s :: l) => Some (s, TList l) end) as [[s t']|] eqn:Et; [|discriminate].
    destruct (set_transformer s o) as [o' [[]|e]] eqn:Es; [|discriminate].
    destruct (space_set t' ds) as [ds1 r1] eqn:E1. injection E as <- ->. destruct (IH _ _ E1) as (G & H & L). destruct (set_ok _ _ Es) as (Lb & Ho & _ & _).
    split; [|split; [now constructor|cbn; now rewrite L]]. cbn. rewrite Lb. change (map (@ob_label N) ds1) with (get_transformer ds1). rewrite G.
    destruct t as [s0|[|s0 l]]; cbn in Et; try easy; injection Et as <- <-; reflexivity.
  Qed.
  Lemma space_set_total ds l : Forall2 (fun o s => In s (offered (ob_dim o))) ds l -> exists ds', space_set (TList l) ds = (ds', Ok tt).
  Proof.
    induction 1 as [|o s ds l H F (ds' & E)]; [now exists []|]. destruct (set_offered _ _ H) as (o' & E'). exists (o' :: ds'). cbn. now rewrite E', E.
  Qed.
  Lemma space_set_one ds s : Forall (fun o => In s (offered (ob_dim o))) ds -> exists ds', space_set (TOne s) ds = (ds', Ok tt).
  Proof.
    induction 1 as [|o ds H F (ds' & E)]; [now exists []|]. destruct (set_offered _ _ H) as (o' & E'). exists (o' :: ds'). cbn. now rewrite E', E.
  Qed.
  Lemma space_set_refused ds s : Exists (fun o => ~ In s (offered (ob_dim o))) ds -> exists ds', space_set (TOne s) ds = (ds', Raise ValueError).
  Proof.
    induction 1 as [o ds H|o ds F (ds' & E)]; cbn.
    - rewrite (set_refused s o H). eexists. reflexivity.
    - destruct (set_cases s o) as [(o' & E')|E']; rewrite E'; [rewrite E|]; eexists; reflexivity.
  Qed.
  Lemma space_restore : forall ds ds', Forall honest ds -> Forall2 (fun o o' => alike (ob_dim o) (ob_dim o')) ds ds' ->
    space_set (TList (get_transformer ds)) ds' = (ds, Ok tt).
  Proof.
    induction ds as [|o ds IH]; intros ds' H F; inversion F as [|? o' ? ds1 A F']; subst; [reflexivity|]. inversion H as [|? ? Ho Hs]; subst.
    cbn. rewrite (@set_back o o' Ho A). change (map (@ob_label N) ds) with (get_transformer ds). now rewrite (IH _ Hs F').
  Qed.
  Theorem c87_restore t ds ds' r : Forall honest ds -> space_set t ds = (ds', r) -> space_set (TList (get_transformer ds)) ds' = (ds, Ok tt).
  Proof. intros H E. apply space_restore; [exact H|]. now apply space_set_alike in E. Qed.

  Lemma has_type_is t (d : dim N) : has_type t d = true <-> of_type t d.
  Proof. split; [destruct t, d; cbn; try discriminate; constructor|now destruct 1]. Qed.
  Theorem c87_by_type s t ds ds' r : set_by_type s t ds = (ds', r) ->
    Forall2 (fun o o' => alike (ob_dim o) (ob_dim o') /\ (~ of_type t (ob_dim o) -> o' = o) /\
                         (r = Ok tt -> of_type t (ob_dim o) -> honest o' /\ ob_label o' = s)) ds ds'.
  Proof.
    revert ds'. induction ds as [|o ds IH]; cbn; intros ds' E; [injection E as <- <-; constructor|].
    assert (Same : forall l, Forall2 (fun o o' : dobj N => alike (ob_dim o) (ob_dim o') /\ (~ of_type t (ob_dim o) -> o' = o) /\ (r = Ok tt -> of_type t (ob_dim o) -> honest o' /\ ob_label o' = s)) l l \/ r = Ok tt).
    { destruct r as [[]|e]; [now right|]. left. induction l; constructor; [|assumption]. split; [apply alike_refl|]. split; [reflexivity|discriminate]. }
    destruct (has_type t (ob_dim o)) eqn:T.
    - pose proof (proj1 (has_type_is _ _) T) as T'. destruct (set_transformer s o) as [o' [[]|e]] eqn:Es.
      + destruct (set_by_type s t ds) as [ds1 r1] eqn:E1. injection E as <- ->.
        constructor; [|now apply IH]. destruct (set_ok _ _ Es) as (A & B & C & _). split; [exact C|]. split; [now intro n|]. auto.
      + injection E as <- <-. constructor; [|now destruct (Same ds)]. split; [now apply set_alike in Es|]. split; [now intro n|discriminate].
    - destruct (set_by_type s t ds) as [ds1 r1] eqn:E1. injection E as <- ->. constructor; [|now apply IH]. split; [apply alike_refl|]. split; [reflexivity|].
      intros _ T'. apply has_type_is in T'. congruence.
  Qed.

  (** What does not depend on the warping *)
  Lemma alike_contains d d' v : alike d d' -> contains O d v = contains O d' v.
  Proof. destruct d as [[]|[]|[]], d' as [[]|[]|[]]; cbn; try easy; intros; intuition subst; reflexivity. Qed.
  Lemma alike_distance d d' a b : alike d d' -> dim_distance O d a b = dim_distance O d' a b.
  Proof.
    intro A. unfold dim_distance. rewrite (@alike_contains d d' a A), (@alike_contains d d' b A). destruct d, d'; cbn in A; try easy; reflexivity.
  Qed.
  Lemma alike_constant d d' : alike d d' -> is_constant O d = is_constant O d'.
  Proof. destruct d as [[]|[]|[]], d' as [[]|[]|[]]; cbn; try easy; intros; intuition subst; reflexivity. Qed.
  Lemma alike_name (d d' : dim N) : alike d d' -> dim_name d = dim_name d'.
  Proof. destruct d as [[]|[]|[]], d' as [[]|[]|[]]; cbn; try easy; intros; intuition subst; reflexivity. Qed.
  Lemma alike_points : forall (ds ds' : list (dim N)) p, Forall2 (@alike N) ds ds' -> space_contains O ds p = space_contains O ds' p.
  Proof.
    intros ds ds' p F. revert p. induction F as [|d d' ds ds' A F IH]; intros [|v p]; try reflexivity. cbn. rewrite (@alike_contains d d' v A).
    destruct (contains O d' v) as [[]|]; cbn; auto.
  Qed.
  Lemma alike_distances : forall (ds ds' : list (dim N)) p q, Forall2 (@alike N) ds ds' -> space_distance O ds p q = space_distance O ds' p q.
  Proof.
    unfold space_distance. intros ds ds' p q F. generalize (nofZ O 0). revert p q.
    induction F as [|d d' ds ds' A F IH]; intros [|v p] [|w q] acc; try reflexivity. cbn. rewrite (@alike_distance d d' v w A).
    destruct (dim_distance O d' v w) as [x|]; cbn; auto.
  Qed.
  Lemma alike_names : forall (ds ds' : list (dim N)), Forall2 (@alike N) ds ds' -> dimension_names ds = dimension_names ds'.
  Proof.
    unfold dimension_names, enumerate. intros ds ds' F. generalize 0. induction F as [|d d' ds ds' A F IH]; intro k; [reflexivity|]. cbn. now rewrite (@alike_name d d' A), IH.
  Qed.
  Lemma forall2_map (R : dim N -> dim N -> Prop) ds ds' : Forall2 (fun o o' : obj => R (ob_dim o) (ob_dim o')) ds ds' -> Forall2 R (map (@ob_dim N) ds) (map (@ob_dim N) ds').
  Proof. induction 1; constructor; auto. Qed.

  Theorem c87_meaning t ds ds' r : space_set t ds = (ds', r) ->
    Forall2 (@alike N) (map (@ob_dim N) ds) (map (@ob_dim N) ds') /\
    (forall p, space_contains O (map (@ob_dim N) ds') p = space_contains O (map (@ob_dim N) ds) p) /\
    (forall p q, space_distance O (map (@ob_dim N) ds') p q = space_distance O (map (@ob_dim N) ds) p q) /\
    dimension_names (map (@ob_dim N) ds') = dimension_names (map (@ob_dim N) ds).
  Proof.
    intro E. apply space_set_alike in E. apply forall2_map in E. split; [exact E|]. repeat split; intros; symmetry.
    - now apply alike_points.
    - now apply alike_distances.
    - now apply alike_names.
  Qed.

  (** Objects that are honest show the warped size and bounds of the transformer in place. *)
  Lemma honest_bounds o : honest o -> obj_tbounds O o = tbounds O (ob_dim o) /\ obj_tsize o = tsize (ob_dim o).
  Proof.
    destruct o as [lb d]. unfold honest, obj_tbounds, obj_tsize, labelled. cbn. intros (I & ->).
    destruct d as [[]|[]|[]]; cbn in *; [destruct r_kind|destruct i_kind|destruct c_kind]; cbn in *; try (exfalso; intuition discriminate); auto.
  Qed.
  Theorem c87_set t ds ds' : space_set t ds = (ds', Ok tt) ->
    get_transformer ds' = match t with TOne s => repeat s (length ds) | TList l => firstn (length ds) l end /\ length ds' = length ds /\
    Forall (fun o => ob_label o = kind_name (dim_kind (ob_dim o)) /\ obj_tbounds O o = tbounds O (ob_dim o) /\ obj_tsize o = tsize (ob_dim o)) ds'.
  Proof.
    intro E. destruct (space_set_ok _ _ E) as (A & B & C). split; [destruct t; exact A|]. split; [exact C|]. revert B. apply Forall_impl.
    intros o H. split; [apply H|now apply honest_bounds].
  Qed.
End SwitchProps.

(** A request that is refused leaves a label behind that does not fit the transformer. *)
Definition half_way : list (dobj R) :=
  [new_obj (DReal (mkReal 10%R 20%R PUniform 10%R KNormalize None DT64)); new_obj (DCat (mkCat [VStr "a"; VStr "b"; VStr "c"] None KNormalize None))]%string.
Theorem c87_refused : exists ds',
  Forall (@honest R) half_way /\ space_set (TOne "onehot") half_way = (ds', Raise ValueError) /\ get_transformer ds' = ["onehot"; "normalize"]%string /\
  map (obj_tbounds Rops) half_way = [[(0, 1)]; [(0, 1)]]%R /\ map (obj_tbounds Rops) ds' = [[(10, 20)]; [(0, 1)]]%R /\
  exists o, nth_error ds' 0 = Some o /\ obj_transform Rops o [VFloat 15%R] = Ok (A1 [VFloat (1 / 2)%R]).
Proof.
  eexists. split; [|split; [reflexivity|split; [reflexivity|]]].
  { constructor; [|constructor; [|constructor]]; (split; [cbn; auto 10|reflexivity]). }
  unfold obj_tbounds, labelled, half_way, new_obj. cbn.
  split; [reflexivity|]. split; [reflexivity|]. eexists. split; [reflexivity|].
  unfold obj_transform, dim_transform. cbn.
  unfold normalize_transform. cbn.
  rewrite (proj2 (Rltb_false _ _)) by lra. rewrite (proj2 (Rltb_false _ _)) by lra. unfold neqb. cbn.
  rewrite (proj2 (Rleb_false _ _)) by lra. cbn. do 4 f_equal. lra.
Qed.
Lemma half_way_case : Forall (@honest R) half_way /\ Forall (fun o => In "normalize"%string (offered (ob_dim o))) half_way /\
  Exists (fun o => ~ In "onehot"%string (offered (ob_dim o))) half_way /\
  Forall2 (fun o s => In s (offered (ob_dim o))) half_way ["identity"; "onehot"]%string /\
  exists ds', set_by_type "label" TyCategorical half_way = (ds', Ok tt).
Proof.
  split; [|split; [|split; [|split; [|eexists; reflexivity]]]].
  - constructor; [|constructor; [|constructor]]; (split; [cbn; auto 10|reflexivity]).
  - unfold half_way, new_obj. repeat (apply Forall_cons || apply Forall_nil || apply Forall2_cons || apply Forall2_nil); cbn; auto 10.
  - constructor. cbn. intuition discriminate.
  - unfold half_way, new_obj. repeat (apply Forall_cons || apply Forall_nil || apply Forall2_cons || apply Forall2_nil); cbn; auto 10.
Qed.
