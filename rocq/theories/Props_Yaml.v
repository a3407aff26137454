(** C89: Space.from_yaml *)
From Coq Require Import String List ZArith Reals.
From Verif Require Import Base Num NumLaws Values Dimension Yaml YamlSpec YamlLemmas YamlCases.
Import ListNotations.
Open Scope list_scope.
Set Implicit Arguments.

(** The space read from a file has, in order, the dimension that each entry describes, and nothing else; it is read whenever
    every entry describes one or is of a kind that is not known. *)
Theorem C89_entries : forall N (O : numops N) config ns entries ds, lists config ns entries ->
  (from_yaml O config ns = Ok ds <-> reads O entries ds).
Proof. exact (@c89_entries). Qed.
Print Assumptions C89_entries.
Example C89_entries_case : lists (file 5%R "real") (Some "Space"%string) [entry_cat; entry_real 5%R "real"] /\
  from_yaml Rops (file 5%R "real") (Some "Space"%string) = Ok [cat_ab; rate Rops 5%R].
Proof. exact c89_sample. Qed.

(** A file that is neither a list nor a dict, and a namespace that the file does not have, are refused. *)
Theorem C89_refused : forall N (O : numops N),
  (forall v ns, from_yaml O (YVal v) ns = Raise TypeError) /\
  (forall l s, (forall v, ~ In (VStr s, v) l) -> from_yaml O (YDict l) (Some s) = Raise KeyError).
Proof. exact (@c89_refused). Qed.
Print Assumptions C89_refused.

(** Not every entry becomes a dimension: one whose kind is misspelt is passed over. *)
Theorem C89_dropped_refuted : exists (config : ynode R) ns entries ds, lists config ns entries /\ from_yaml Rops config ns = Ok ds /\ length ds < length entries.
Proof. exact c89_ignored. Qed.
Print Assumptions C89_dropped_refuted.

(** The file shown in the documentation is not read. *)
Theorem C89_documented_refuted : forall N (O : numops N), from_yaml O (documented (nofZ O 1) (nofZ O 5)) None = Raise AttributeError.
Proof. exact (@c89_documented). Qed.
Print Assumptions C89_documented_refuted.
