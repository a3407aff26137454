(** Vocabulary of the properties of named points and of BayesSearchCV (C38-C41). *)
From Coq Require Import String List ZArith Bool Permutation Sorted.
From Verif Require Import Base Num Values Transformers Dimension Space Optimizer Minimize Search.
Import ListNotations.
Open Scope list_scope.
Set Implicit Arguments.

(** The names of a dict in alphabetical order. *)
Definition str_le (a b : string) : Prop := String.leb a b = true.
Definition ordered_names {V} (d : list (string * V)) (ks : list string) : Prop :=
  Permutation ks (map fst d) /\ StronglySorted str_le ks.
(** A dict has each key once. *)
Definition is_dict {V} (d : list (string * V)) : Prop := NoDup (map fst d).
(** [d[k] == v] *)
Definition holds {V} (d : list (string * V)) (k : string) (v : V) : Prop := is_dict d /\ In (k, v) d.
(** [c] is the point [x] with the names of the space [d] attached, in alphabetical order. *)
Definition named {D V} (d : list (string * D)) (x : list V) (c : list (string * V)) : Prop :=
  exists ks, ordered_names d ks /\ c = combine ks x.

(** Sizes of the batches for [n] candidates: [size] each except a last smaller one. *)
Inductive batched (size : Z) : Z -> list nat -> Prop :=
| bt_none n : (n <= 0)%Z -> batched size n []
| bt_last n k : (0 < n <= size)%Z -> Z.of_nat k = n -> batched size n [k]
| bt_full n k ks : (0 < size < n)%Z -> Z.of_nat k = size -> batched size (n - size) ks -> batched size n (k :: ks).

Section SearchSpec.
  Context {N RNG M : Type} (neg : N -> N).
  Notation state := (opt N RNG M).
  Notation result := (result N RNG M).
  Definition space_in (e : space_elem N) (sp : space_dict N) : Prop :=
    e = EDict sp \/ exists n, e = EPair sp n.
  Definition given_spaces (s : spaces_arg N) : list (space_elem N) :=
    match s with SDict sp => [EDict sp] | SList l => l | SOther _ => [] end.
  (** The number of candidates asked for a space. *)
  Definition budget (n_iter : Z) (e : space_elem N) : Z := match e with EPair _ n => n | _ => n_iter end.
  Definition all_dicts (l : list (space_elem N)) : Prop := forall e sp, In e l -> space_in e sp -> is_dict sp.

  (** The evaluated candidates [rows], space by space: those of a space are named after that space; its optimizer was
      told each point with minus its score, and reports so. *)
  Inductive accounted : list (space_elem N) -> list state -> list result -> batch N -> Prop :=
  | acc_nil : accounted [] [] [] []
  | acc_cons e sp o r (seg : list (point N * N)) mine l os rs rows :
      space_in e sp ->
      Forall2 (fun ps row => named sp (fst ps) (fst row) /\ snd row = snd ps) seg mine ->
      o_Xi o = map (fun ps => X1 (fst ps)) seg ->
      o_yi o = map (fun ps => YS (neg (snd ps))) seg ->
      (seg <> [] -> res_x_iters r = map (fun ps => X1 (fst ps)) seg /\ res_func_vals r = map (fun ps => neg (snd ps)) seg) ->
      accounted l os rs rows -> accounted (e :: l) (o :: os) (r :: rs) (mine ++ rows).

  (** No callback ever asks to stop. *)
  Definition never_stops (cbs : list (callback N RNG M)) : Prop :=
    forall c seen, In c cbs -> c seen <> Ok (Some true).
End SearchSpec.
