(** Concrete regressors for the examples. *)
From Coq Require Import String List ZArith Bool Reals Lra Lia.
From Coquelicot Require Import Coquelicot.
From Verif Require Import Base Num NumLaws Acquisition AcqSpec AcqLemmas.
Import ListNotations.
Open Scope R_scope.

(** One feature; mean x^2, deviation 1 + x^2. *)
Definition mean1 (x : list R) : R := match x with [a] => a * a | _ => 0 end.
Definition dev1 (x : list R) : R := match x with [a] => 1 + a * a | _ => 0 end.
Definition mean1_grad (x : list R) : list R := match x with [a] => [2 * a] | _ => [] end.
Definition sample_reg : predictor := regressor mean1 dev1 mean1_grad mean1_grad.
Lemma sample_gradients a : gradient mean1 [a] (mean1_grad [a]) /\ gradient dev1 [a] (mean1_grad [a]) /\ 0 < dev1 [a].
Proof.
  split; [split; [reflexivity|]|split; [split; [reflexivity|]|]].
  - intros [|[|i]] b d Hb Hd; try discriminate. cbn in Hb, Hd. injection Hb as <-. injection Hd as <-. cbn.
    auto_derive; [exact I|ring].
  - intros [|[|i]] b d Hb Hd; try discriminate. cbn in Hb, Hd. injection Hb as <-. injection Hd as <-. cbn.
    auto_derive; [exact I|ring].
  - cbn. nra.
Qed.
Lemma sample_predicts : predicts (Single sample_reg) [[1]; [2]] [1; 4] [2; 5].
Proof. eexists. split; [reflexivity|]. cbn. repeat split; repeat f_equal; ring. Qed.
(** A regressor that is certain of the value 0. *)
Definition certain : predictor := regressor (fun _ => 0) (fun _ => 0) (fun x => map (fun _ => 0) x) (fun x => map (fun _ => 0) x).
Lemma certain_predicts x : predicts (Single certain) [[x]] [0] [0].
Proof. eexists. split; [reflexivity|]. cbn. auto. Qed.
