(** Refused files, and concrete files. *)
From Coq Require Import String List ZArith Bool Reals Lra.
From Verif Require Import Base BaseLemmas Num NumLaws Values Transformers Dimension Optimizer CookSpec Yaml YamlSpec YamlLemmas.
Import ListNotations.
Open Scope list_scope.
Set Implicit Arguments.

Lemma c89_refused {N} (O : numops N) :
  (forall v ns, from_yaml O (YVal v) ns = Raise TypeError) /\
  (forall l s, (forall v, ~ In (VStr s, v) l) -> from_yaml O (YDict l) (Some s) = Raise KeyError).
Proof.
  split; [reflexivity|]. intros l s H. unfold from_yaml. cbn [options_of]. assert (E : item_of O l s = Raise KeyError); [|now rewrite E].
  induction l as [|[k v] l IH]; cbn [item_of]; [reflexivity|]. destruct (py_eqb O k (VStr s)) eqn:E; [|apply IH; intros w I; apply (H w); now right].
  exfalso. destruct k; cbn in E; try discriminate. apply String.eqb_eq in E. subst. apply (H v). now left.
Qed.

(** The file of the docstring (space.py 817-830): the options stand beside the kind, not below it. *)
Definition documented {N} (one five : N) : ynode N :=
  YDict [(VStr "Space", YList
    [YDict [(VStr "Integer", YVal VNone); (VStr "low", YVal (VInt (-5))); (VStr "high", YVal (VInt 5))];
     YDict [(VStr "Categorical", YVal VNone); (VStr "categories", YList [YVal (VStr "a"); YVal (VStr "b")])];
     YDict [(VStr "Real", YVal VNone); (VStr "low", YVal (VFloat one)); (VStr "high", YVal (VFloat five)); (VStr "prior", YVal (VStr "log-uniform"))]])]%string.
Lemma c89_documented {N} (O : numops N) : from_yaml O (documented (nofZ O 1) (nofZ O 5)) None = Raise AttributeError.
Proof. reflexivity. Qed.

Section File.
  Context {N : Type} (O : numops N) (five : N).
  Definition entry_real (kind : string) : ynode N :=
    YDict [(VStr kind, YDict [(VStr "Low", YVal (VInt 1)); (VStr "high", YVal (VFloat five)); (VStr "prior", YVal (VStr "log-uniform")); (VStr "name", YVal (VStr "rate"))])]%string.
  Definition entry_cat : ynode N := YDict [(VStr "CATEGORICAL", YDict [(VStr "categories", YList [YVal (VStr "a"); YVal (VStr "b")])])]%string.
  Definition file (kind : string) : ynode N := YDict [(VStr "Other", YList []); (VStr "Space", YList [entry_cat; entry_real kind])]%string.
  Definition cat_ab : dim N := DCat (mkCat [VStr "a"; VStr "b"]%string None KOnehot None).
  Definition rate : dim N := DReal (mkReal (nofZ O 1) five PLogUniform (nofZ O 10) KIdentity (Some "rate"%string) DT64).
  Lemma file_read : nleb O five (nofZ O 1) = false -> from_yaml O (file "real") (Some "Space"%string) = Ok [cat_ab; rate].
  Proof. intro H. vm_compute in H |- *. rewrite !H. reflexivity. Qed.
  Lemma file_lists kind : lists (file kind) (Some "Space"%string) [entry_cat; entry_real kind].
  Proof. apply (@lists_named N [(VStr "Other"%string, YList [])] "Space" _ []). intros v [E|[]]; discriminate. Qed.
End File.
Lemma c89_sample : lists (file 5%R "real") (Some "Space"%string) [entry_cat; entry_real 5%R "real"] /\
  from_yaml Rops (file 5%R "real") (Some "Space"%string) = Ok [cat_ab; rate Rops 5%R].
Proof. split; [apply file_lists|]. apply file_read. cbn [nleb nofZ Rops]. apply Rleb_false. lra. Qed.
(** A kind that is not known is passed over without a word. *)
Lemma c89_ignored : exists (config : ynode R) ns entries ds, lists config ns entries /\ from_yaml Rops config ns = Ok ds /\ length ds < length entries.
Proof. exists (file 5%R "reals"), (Some "Space"%string), [entry_cat; entry_real 5%R "reals"], [cat_ab]. split; [apply file_lists|]. split; [reflexivity|]. cbn. apply le_n. Qed.
