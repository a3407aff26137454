(** What a YAML description of a space means (docstring of Space.from_yaml, space.py 810-841), in terms of the entries as
    they are written. *)
From Coq Require Import String List ZArith Bool.
From Verif Require Import Base Num Values Transformers Dimension Optimizer CookSpec Yaml.
Import ListNotations.
Open Scope list_scope.
Set Implicit Arguments.

Section YamlSpec.
  Context {N : Type} (O : numops N).
  Notation val := (pyval N).
  Notation node := (ynode N).
  Notation body := (list (val * node)).

  (** The entries of the file: the file is a list, or a dict whose first item, or the one asked for, is a list. *)
  Inductive lists : node -> option string -> list node -> Prop :=
  | lists_plain l ns : lists (YList l) ns l
  | lists_first k l rest : lists (YDict ((k, YList l) :: rest)) None l
  | lists_named before s l after : (forall v, ~ In (VStr s, v) before) -> lists (YDict (before ++ (VStr s, YList l) :: after)) (Some s) l.

  (** The option called [name], in small or capital letters, is [v]; given twice, the later one counts. *)
  Definition absent (b : body) (name : string) : Prop := forall k v, In (VStr k, v) b -> ~ spelled k name.
  Inductive given (b : body) (name : string) (v : node) : Prop :=
  | given_as b1 k b2 : b = b1 ++ (VStr k, v) :: b2 -> spelled k name -> absent b2 name -> given b name v.
  (** ... or takes its default. *)
  Inductive setting {A} (b : body) (name : string) (default : A) (means : node -> A -> Prop) : A -> Prop :=
  | set_default : absent b name -> setting b name default means default
  | set_given v a : given b name v -> means v a -> setting b name default means a.
  Definition no_others (b : body) (names : list string) : Prop :=
    forall k v, In (k, v) b -> exists s w, k = VStr s /\ In w names /\ spelled s w.

  (** What the options mean *)
  Inductive number : node -> N -> Prop :=
  | number_float x : number (YVal (VFloat x)) x
  | number_int z : number (YVal (VInt z)) (nofZ O z)
  | number_bool (b : bool) : number (YVal (VBool b)) (nofZ O (if b then 1 else 0)).
  Inductive whole : node -> Z -> Prop :=
  | whole_int z : whole (YVal (VInt z)) z
  | whole_bool (b : bool) : whole (YVal (VBool b)) (if b then 1 else 0)%Z.
  Inductive word {A} (table : list (string * A)) : node -> A -> Prop :=
  | word_is s a : In (s, a) table -> word table (YVal (VStr s)) a.
  Inductive or_null {A} (default : A) (means : node -> A -> Prop) : node -> A -> Prop :=
  | is_null : or_null default means (YVal VNone) default
  | not_null v a : means v a -> or_null default means v a.
  Inductive text : node -> option string -> Prop := text_is s : text (YVal (VStr s)) (Some s).
  Definition priors : list (string * prior) := [("uniform", PUniform); ("log-uniform", PLogUniform)]%string.
  Definition scalings : list (string * tkind) := [("identity", KIdentity); ("normalize", KNormalize)]%string.
  Definition encodings : list (string * tkind) :=
    scalings ++ [("onehot", KOnehot); ("string", KString); ("label", KLabel)]%string.
  Definition float_types : list (string * fdtype) := [("float", DT64); ("float64", DT64); ("float32", DT32); ("float16", DT16)]%string.
  Definition int_types : list (string * idtype) :=
    let t b n := {| id_signed := b; id_bits := n |} in
    [("int", t true 64); ("int8", t true 8); ("int16", t true 16); ("int32", t true 32); ("int64", t true 64);
     ("uint8", t false 8); ("uint16", t false 16); ("uint32", t false 32); ("uint64", t false 64)]%string%Z.
  Inductive choices : node -> list val -> Prop :=
  | choices_list l : choices (YList (map YVal l)) l
  | choices_keys l : choices (YDict l) (map fst l)
  | choices_letters s : choices (YVal (VStr s)) (map (fun c => VStr (String c EmptyString)) (list_ascii_of_string s)).
  Inductive weights : node -> option (list N) -> Prop := weights_are l ps : Forall2 number l ps -> weights (YList l) (Some ps).

  Definition number_options : list string := ["low"; "high"; "prior"; "base"; "transform"; "name"; "dtype"]%string.
  Definition category_options : list string := ["categories"; "prior"; "transform"; "name"]%string.
  Inductive describes : string -> body -> dim N -> Prop :=
  | describes_real b low high p base k n t lo hi : no_others b number_options ->
      given b "low" lo -> number lo low -> given b "high" hi -> number hi high -> nleb O high low = false ->
      setting b "prior" PUniform (word priors) p -> setting b "base" (nofZ O 10) number base ->
      setting b "transform" KIdentity (or_null KIdentity (word scalings)) k -> setting b "name" None (or_null None text) n ->
      setting b "dtype" DT64 (word float_types) t -> describes "real" b (DReal (mkReal low high p base k n t))
  | describes_integer b low high p base k n t lo hi : no_others b number_options ->
      given b "low" lo -> whole lo low -> given b "high" hi -> whole hi high -> (low < high)%Z ->
      setting b "prior" PUniform (word priors) p -> setting b "base" (nofZ O 10) number base ->
      setting b "transform" KIdentity (or_null KIdentity (word scalings)) k -> setting b "name" None (or_null None text) n ->
      setting b "dtype" int64 (word int_types) t -> describes "integer" b (DInt (mkInt low high p base k n t))
  | describes_categorical b cats c ps k n : no_others b category_options ->
      given b "categories" c -> choices c cats ->
      setting b "prior" None (or_null None weights) ps -> setting b "transform" KOnehot (or_null KOnehot (word encodings)) k ->
      setting b "name" None (or_null None text) n ->
      (ps = None -> cats <> []) ->
      (forall l, ps = Some l -> k <> KNormalize -> length l = length cats /\ allclose O (np_sum O l) (nofZ O 1) = true) ->
      describes "categorical" b (DCat (mkCat cats ps k n)).

  (** An entry is a dict; its first key is the kind of dimension, with the options as a dict. Entries of another kind count for nothing. *)
  Inductive reads : list node -> list (dim N) -> Prop :=
  | reads_nil : reads [] []
  | reads_dim key kind b more d es ds : spelled key kind -> describes kind b d -> reads es ds ->
      reads (YDict ((VStr key, YDict b) :: more) :: es) (d :: ds)
  | reads_other key b more es ds : (forall kind, In kind ["real"; "integer"; "categorical"]%string -> ~ spelled key kind) ->
      (forall k v, In (k, v) b -> exists s, k = VStr s) -> reads es ds ->
      reads (YDict ((VStr key, YDict b) :: more) :: es) ds.
End YamlSpec.
