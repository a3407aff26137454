(** What a candidate is worth to the acquisition functions, given the normal distribution predicted for it. *)
From Coq Require Import List Reals.
From Verif Require Import Base Acquisition AcqSpec Optimizer.
Open Scope R_scope.
Set Implicit Arguments.

(** [kappa] deviations below the mean are good; for "inf" only the deviation counts; 1.96 by default. *)
Definition optimism (k : option (@kappa_arg R)) (mu s : R) : R :=
  match k with None => 196 / 100 * s - mu | Some (Kappa k) => k * s - mu | Some KappaInf => s end.
(** The margin an improvement has to reach, 0.01 by default. *)
Definition margin (xi : option R) : R := match xi with Some x => x | None => / 100 end.

(** [worth y xi k a mu s v]: with least observation [y], the candidate whose objective value is predicted to be normal
    with mean [mu] and deviation [s] is worth [v]: the expected improvement, the probability of an improvement, or
    the lower confidence bound turned round. *)
Inductive worth (y : R) (xi : option R) (k : option (@kappa_arg R)) : acq1 -> R -> R -> R -> Prop :=
| worth_lcb mu s : worth y xi k LCB mu s (optimism k mu s)
| worth_ei mu s v : 0 < s -> expectation mu s (fun t => Rmax (y - margin xi - t) 0) v -> worth y xi k EI mu s v
| worth_ei_0 mu s : s <= 0 -> worth y xi k EI mu s 0
| worth_pi mu s v : 0 < s -> probability_below mu s (y - margin xi) v -> worth y xi k PI mu s v
| worth_pi_0 mu s : s <= 0 -> worth y xi k PI mu s 0.
