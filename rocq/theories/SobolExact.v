(** The points of the Sobol generator are exact in float64 (C46, C77). *)
From Coq Require Import String List ZArith Bool Reals Lra Lia Psatz.
From Flocq Require Import Core.Core IEEE754.BinarySingleNaN.
From Verif Require Import Base BaseLemmas Num NumLaws Values Dimension Space SpaceSpec F64Arith F64Dim Sampler SamplerSpec DesignLemmas Sobol SobolState SobolSpec SobolLemmas SobolProps FloatDesign FloatSobol.
Import ListNotations.
Open Scope nat_scope.
Open Scope list_scope.
Set Implicit Arguments.
Local Arguments Z.pow : simpl never.

Lemma history_root {N RNG} (O : numops N) (G : rng_ops N RNG) skip rand s total : sobol_history O G skip rand s total -> exists s0, sobol_new skip rand = Ok s0.
Proof. intros H. induction H as [s E|]; eauto. Qed.

Lemma map_nth_some {A B} (f : A -> B) l i y : nth_error (map f l) i = Some y -> exists x, nth_error l i = Some x /\ y = f x.
Proof. rewrite nth_error_map. destruct (nth_error l i) as [x|]; [|discriminate]. intro E. injection E as <-. eauto. Qed.
(** The generator is not asked without randomize. *)
Definition no_rng : rng_ops R unit := Build_rng_ops (fun g => (0%R, g)) (fun g a _ => (a, g)) (fun g _ => (0, g)) (fun g n => (seq 0 n, g)) (fun g _ => (0, g)) (fun _ => tt).

Section Exact.
  Context (L : libm).
  Notation O := (F64 L).
  Lemma coordinate_exact q : (0 <= q < 2 ^ 30)%Z -> is_finite (nmul O (nofZ O q) (recipd O)) = true /\ B2R (nmul O (nofZ O q) (recipd O)) = nmul Rops (nofZ Rops q) (recipd Rops).
  Proof.
    intro Hq. destruct (@recipd_F L) as [Fr Er]. unfold recipd at 3. cbn [nmul nofZ ndiv F64 Rops].
    assert (P : (2 ^ 30 <= 2 ^ 53)%Z) by now vm_compute. destruct (fofZ_exact q ltac:(lia)) as [Fq Eq].
    assert (T : (0 < / IZR (2 ^ 30))%R) by (apply Rinv_0_lt_compat, IZR_lt; now vm_compute).
    assert (Tt : (IZR (2 ^ 30) * / IZR (2 ^ 30) = 1)%R) by (apply Rinv_r, not_0_IZR; easy).
    assert (B : (0 <= IZR q <= IZR (2 ^ 30))%R) by (split; apply IZR_le; lia).
    assert (M : (0 <= IZR q * / IZR (2 ^ 30) <= 1)%R) by (set (t := (/ IZR (2 ^ 30))%R) in *; nra).
    assert (R1 : rnd (IZR q * / IZR (2 ^ 30)) = (IZR q * / IZR (2 ^ 30))%R).
    { apply round_generic; [apply valid_rnd_N|]. apply generic_format_FLT with (emin := (-1074)%Z) (prec := 53%Z).
      exists (Float radix2 q (-30)); [reflexivity| |now vm_compute]. cbn [Fnum]. change (radix2 ^ 53)%Z with (2 ^ 53)%Z. lia. }
    change (fdiv (fofZ 1) (fofZ (2 ^ 30))) with (recipd O).
    destruct (@fmul_ok (fofZ q) (recipd O) Fq Fr) as [F E]; rewrite ?Eq, ?Er in *.
    { apply Rle_trans with (Rabs (IZR 1)); [rewrite !Rabs_pos_eq; lra|apply big_Z; now vm_compute]. }
    split; [exact F|]. rewrite E, R1. unfold Rdiv. ring.
  Qed.
  Lemma rows_exact d from n : d <= 40 -> Forall (Forall (fun x => is_finite x = true)) (quasi_rows O d from n) /\ map (map (@B2R 53 1024)) (quasi_rows O d from n) = quasi_rows Rops d from n.
  Proof.
    intro Hd. assert (Q : forall i q, In q (qrow d i) -> (0 <= q < 2 ^ 30)%Z).
    { intros i q Hq. unfold qrow in Hq. apply in_map_iff in Hq. destruct Hq as (j & <- & Hj). apply in_seq in Hj. apply qn_range, drow_directions. unfold dim_max. lia. }
    unfold quasi_rows, quasi_row. split.
    - apply Forall_map, Forall_forall. intros i _. apply Forall_map, Forall_forall. intros q Hq. now apply coordinate_exact, (Q i).
    - rewrite map_map. apply map_ext. intro i. rewrite map_map. apply map_ext_in. intros q Hq. now apply coordinate_exact, (Q i).
  Qed.
  Lemma c46_float RNG (G : rng_ops float RNG) RNG' (G' : rng_ops R RNG') skip s total d n g g' s' h :
    sobol_history O G skip false s total -> (skip < 2 ^ 30)%Z -> 1 <= d <= 40 -> sobol_design O G s d n g = (s', Ok h) ->
    exists s0 s0', sobol_new skip false = Ok s0 /\ Forall (Forall (fun x => is_finite x = true)) h /\ sobol_design Rops G' s0 d n g' = (s0', Ok (map (map (@B2R 53 1024)) h)).
  Proof.
    intros H Hs Hd E. destruct (history_root H) as (s0 & E0). destruct (history_settled H Hs) as (k & K1 & K2 & K3 & K4 & K5).
    destruct (design_all O G n g K3 Hd K2) as (s1 & D & _). rewrite D in E. injection E as _ E. unfold design_outcome, rows_outcome in E. rewrite K4 in E.
    destruct (Z.leb_spec (Z.of_nat (k + n)) (2 ^ 30 - 1)) as [Le|]; [|discriminate E]. cbn [bind] in E. injection E as <-.
    destruct (@rows_exact d k n (proj2 Hd)) as (F & M). destruct (new_settled E0 Hs) as (k' & J1 & J2 & J3 & J4 & _).
    assert (k' = k) as -> by lia. destruct (design_all Rops G' n g' J3 Hd J2) as (s0' & D' & _).
    exists s0, s0'. split; [exact E0|]. split; [exact F|]. rewrite D'. unfold design_outcome, rows_outcome. rewrite J4.
    destruct (Z.leb_spec (Z.of_nat (k + n)) (2 ^ 30 - 1)); [|lia]. cbn [bind]. now rewrite M.
  Qed.
  Lemma c46_float_strata RNG (G : rng_ops float RNG) skip s total d n g s' h :
    sobol_history O G skip false s total -> (skip < 2 ^ 30)%Z -> 1 <= d <= 40 -> sobol_design O G s d n g = (s', Ok h) ->
    forall k start j c, j < d -> start + 2 ^ k <= n -> (2 ^ Z.of_nat k | skip + Z.of_nat start)%Z -> (0 <= c < 2 ^ Z.of_nat k)%Z ->
      one_in_stretch h start (2 ^ k) (fun row => exists v, nth_error row j = Some v /\ is_finite v = true /\ in_part (2 ^ Z.of_nat k) c (B2R v)).
  Proof.
    intros H Hs Hd E k start j c Hj Hn Hdiv Hc.
    destruct (@c46_float RNG G unit no_rng skip s total d n g tt s' h H Hs Hd E) as (s0 & s0' & E0 & F & D).
    destruct (@c46_strata unit no_rng skip s0 0%Z d n tt s0' _ (history_new Rops no_rng E0) Hs Hd D k start j c Hj Hn Hdiv Hc) as (i & (Hi & x & Ex & v & Ev & Pv) & U).
    destruct (map_nth_some _ _ _ Ex) as (row & Er & ->). destruct (map_nth_some _ _ _ Ev) as (w & Ew & ->). exists i. split.
    - split; [exact Hi|]. exists row. split; [exact Er|]. exists w. split; [exact Ew|]. split; [|exact Pv].
      rewrite Forall_forall in F. pose proof (F row (nth_error_In _ _ Er)) as F1. rewrite Forall_forall in F1. exact (F1 w (nth_error_In _ _ Ew)).
    - intros i' (Hi' & x' & Ex' & v' & Ev' & _ & Pv'). apply U. split; [exact Hi'|]. exists (map (@B2R 53 1024) x'). split; [exact (map_nth_error _ _ _ Ex')|].
      exists (B2R v'). split; [exact (map_nth_error _ _ _ Ev')|exact Pv'].
  Qed.
End Exact.
