(** Vocabulary for the surrogates and generators that are asked for by name (C84, C85, C86). *)
From Coq Require Import String List ZArith Bool Ascii Reals.
From Verif Require Import Base Num Values Dimension Space CheckDim Switch SwitchSpec Kernels Gpr Cook.
Import ListNotations.
Open Scope list_scope.
Set Implicit Arguments.

(** The same letter, small or capital *)
Definition same_letter (c d : ascii) : Prop :=
  c = d \/ exists k, (k < 26)%nat /\ (c = ascii_of_nat (65 + k) /\ d = ascii_of_nat (97 + k) \/ d = ascii_of_nat (65 + k) /\ c = ascii_of_nat (97 + k)).
Definition spelled (s w : string) : Prop := Forall2 same_letter (list_ascii_of_string s) (list_ascii_of_string w).

(** What the documentation of cook_estimator and of the minimisers promises for a name *)
Inductive surrogate_name := NGP | NRF | NET | NGBRT.
Definition word (n : surrogate_name) : string :=
  (match n with NGP => "GP" | NRF => "RF" | NET => "ET" | NGBRT => "GBRT" end)%string.
Definition class_for (n : surrogate_name) : eclass := match n with NGP => CGP | NRF => CRF | NET => CET | NGBRT => CGBRT end.
(** Parameters that are not at the default of their class *)
Definition promised (n : surrogate_name) : list (string * pval) :=
  (match n with
   | NGP => [("normalize_y", PBool true); ("noise", PStr "gaussian"); ("n_restarts_optimizer", PInt 2)]
   | NRF | NET => [("n_estimators", PInt 100); ("min_samples_leaf", PInt 3)]
   | NGBRT => [("base_estimator", PEst (Est CGB [("n_estimators", PInt 30); ("loss", PStr "quantile"); ("random_state", PNone)]))]
   end)%string.
(** The names of the parameters one may pass *)
Definition known (n : surrogate_name) : list string :=
  (match n with
   | NGP => ["kernel"; "alpha"; "optimizer"; "n_restarts_optimizer"; "normalize_y"; "copy_X_train"; "random_state"; "noise"]
   | NRF | NET => ["n_estimators"; "criterion"; "max_depth"; "min_samples_split"; "min_samples_leaf"; "min_weight_fraction_leaf";
                   "max_features"; "max_leaf_nodes"; "min_impurity_decrease"; "bootstrap"; "oob_score"; "n_jobs"; "random_state";
                   "verbose"; "warm_start"; "min_variance"]
   | NGBRT => ["quantiles"; "base_estimator"; "n_jobs"; "random_state"]
   end)%string.

(** The gradients the acquisition optimizer "lbfgs" asks the surrogate for exist: predict takes the keyword arguments,
    and the kernel can be differentiated at every point of [n] coordinates. *)
Definition differentiable (e : est) (n : nat) : Prop :=
  incl ["return_std"; "return_mean_grad"; "return_std_grad"]%string (predict_keywords (e_class e)) /\
  exists g, to_gpr e = Some g /\
    forall k, e_kernel g = Some k -> forall x t, length x = n -> length t = n -> exists v, gradient_x k 1 x t = Ok v.
(** They do not exist: every request is refused. *)
Definition no_gradients (e : est) : Prop :=
  ~ In "return_mean_grad"%string (predict_keywords (e_class e)) \/
  exists g k, to_gpr e = Some g /\ e_kernel g = Some k /\ forall x t, length x = length t -> exists err, gradient_x k 1 x t = Raise err.

Section HeapSpec.
  Context {N : Type}.
  (** Every object of the first heap is the same in the second. *)
  Definition untouched (h h' : heap N) : Prop := forall a o, nth_error h a = Some o -> nth_error h' a = Some o.
  Definition given (ds : list (harg N)) (a : nat) : Prop := In (HObj a) ds.
End HeapSpec.
Section ArgSpec.
  Context {N : Type} (O : numops N).
  (** The dimension an argument stands for: an existing object, or what the shorthand means *)
  Inductive stands_for (h : heap N) : harg N -> dim N -> Prop :=
  | sf_obj a o : nth_error h a = Some o -> stands_for h (HObj a) (ob_dim o)
  | sf_seq l d : check_dimension O None (CSeq l) = Ok d -> stands_for h (HSeq l) d.
  Definition categorical (d : dim N) : Prop := exists c, d = DCat c.
End ArgSpec.

(** The initial point generators the documentation names, and the defaults in their signatures *)
Definition generator_words : list (string * gclass) :=
  [("sobol", GSobol); ("halton", GHalton); ("hammersly", GHammersly); ("lhs", GLhs); ("grid", GGrid)]%string.
Definition documented (c : gclass) : list (string * gval) :=
  (match c with
   | GSobol => [("skip", GInt 0); ("randomize", GBool true)]
   | GHalton | GHammersly => [("min_skip", GInt 0); ("max_skip", GInt 0); ("primes", GNone)]
   | GLhs => [("lhs_type", GStr "classic"); ("criterion", GStr "maximin"); ("iterations", GInt 1000)]
   | GGrid => [("border", GStr "exclude"); ("use_full_layout", GBool true); ("append_border", GStr "only")]
   | GUser => []
   end)%string.
Definition attribute (g : generator) (s : string) : option gval := dict_get String.eqb (gen_attrs g) s.
