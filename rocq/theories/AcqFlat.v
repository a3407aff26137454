(** Gradients of acquisition values where the predicted deviation is not positive. *)
From Coq Require Import String List ZArith Bool Reals Lra Lia.
From Coquelicot Require Import Coquelicot.
From Verif Require Import Base BaseLemmas Num NumLaws Acquisition AcqSpec GaussLemmas AcqLemmas AcqProps.
Import ListNotations.
Open Scope R_scope.
Open Scope list_scope.

(** The deviation is not positive at [x] and, along each coordinate, near [x]. *)
Definition flat (s : list R -> R) (x : list R) : Prop :=
  s x <= 0 /\ forall i a, nth_error x i = Some a -> locally a (fun t => s (put x i t) <= 0).
Section Flat.
  Context (cdf pdf : R -> R) (m s : list R -> R) (gm gs : list R -> list R) (x : list R).
  Lemma imp_zero one gr y xi : s x <= 0 -> gaussian_imp Rops one gr (Single (regressor m s gm gs)) [x] (Some y) xi true =
    Ok ([one y xi (m x) (s x)], Some (map (fun _ => 0) (gs x))).
  Proof.
    intro P. unfold gaussian_imp, predict, regressor. cbn [bind p_1d p_mu p_std p_mu_grad p_std_grad negb].
    assert (E : nltb Rops (nofZ Rops 0) (s x) = false).
    { destruct (nltb Rops (nofZ Rops 0) (s x)) eqn:E; [|easy]. apply Rltb_spec in E. cbn in E. lra. }
    rewrite E. reflexivity.
  Qed.
  Lemma flat_gradient f : length (gs x) = length x -> flat s x -> (forall x', s x' <= 0 -> f x' = 0) ->
    gradient f x (map (neg Rops) (map (fun _ => 0) (gs x))).
  Proof.
    intros L [F0 F] H. split; [now rewrite !map_length|]. intros i a d Ha Hd. rewrite map_map, nth_error_map in Hd.
    destruct (nth_error (gs x) i); [|easy]. cbn [option_map] in Hd. assert (D0 : d = 0) by (assert (E : d = neg Rops 0) by congruence; rewrite E, neg_R; ring). rewrite D0.
    apply (is_derive_ext_loc (fun _ => 0)); [|apply (is_derive_const (V := R_NormedModule) 0)].
    eapply filter_imp; [|exact (F i a Ha)]. intros t Ht. cbn beta in Ht. symmetry. now apply H.
  Qed.
  Lemma c51_flat f y xi k : f = "EI"%string \/ f = "PI"%string -> length (gs x) = length x -> flat s x ->
    exists g, gaussian_acquisition_1D Rops cdf pdf x (Single (regressor m s gm gs)) (Some y) f xi k true = Ok ([0], Some g) /\ List.Forall (fun d => d = 0) g /\
      gradient (fun x => value_of (gaussian_acquisition_1D Rops cdf pdf x (Single (regressor m s gm gs)) (Some y) f xi k false)) x g.
  Proof.
    intros Hf L Hx. assert (Z : List.Forall (fun d => d = 0) (map (neg Rops) (map (fun _ => 0) (gs x)))).
    { apply Forall_forall. intros d Hd. rewrite map_map in Hd. apply in_map_iff in Hd. destruct Hd as (u & <- & _). rewrite neg_R. ring. }
    exists (map (neg Rops) (map (fun _ => 0) (gs x))).
    assert (V : forall x', s x' <= 0 -> value_of (gaussian_acquisition_1D Rops cdf pdf x' (Single (regressor m s gm gs)) (Some y) f xi k false) = 0).
    { intros x' Hx'. destruct (one_0 cdf pdf y (match xi with Some x => x | None => default_xi Rops end) (m x') (s x') Hx') as [Q1 Q2].
      destruct Hf as [-> | ->]; cbn -[pi_one ei_one neg default_xi]; [rewrite Q2|rewrite Q1]; rewrite neg_R; ring. }
    split; [|split; [exact Z|now apply flat_gradient]].
    destruct (one_0 cdf pdf y (match xi with Some x => x | None => default_xi Rops end) (m x) (s x) (proj1 Hx)) as [Q1 Q2].
    unfold gaussian_acquisition_1D, gaussian_acquisition.
    destruct Hf as [-> | ->]; [change (ends_with_ps "EI") with false|change (ends_with_ps "PI") with false]; cbn [bind];
      cbn [String.eqb Ascii.eqb Bool.eqb]; unfold gaussian_ei, gaussian_pi; rewrite imp_zero by apply Hx; cbn [bind fst snd map];
      [rewrite Q2|rewrite Q1]; repeat f_equal; rewrite neg_R; ring.
  Qed.
End Flat.

(** Mean 0 and a deviation that is zero at a single point. *)
Definition touch (x : list R) : R := match x with [a] => a * a | _ => 0 end.
Definition flat0 (x : list R) : R := 0.
Definition zeros_like (x : list R) : list R := map (fun _ => 0) x.
Definition touch_grad (x : list R) : list R := match x with [a] => [2 * a] | _ => [] end.
Lemma c51_isolated cdf pdf : std_normal cdf pdf -> exists m s gm gs x y xi k v g, gradient m x (gm x) /\ gradient s x (gs x) /\ s x = 0 /\
  gaussian_acquisition_1D Rops cdf pdf x (Single (regressor m s gm gs)) (Some y) "EI" (Some xi) k true = Ok ([v], Some g) /\
  ~ gradient (fun x => value_of (gaussian_acquisition_1D Rops cdf pdf x (Single (regressor m s gm gs)) (Some y) "EI" (Some xi) k false)) x g.
Proof.
  intro HN. exists flat0, touch, zeros_like, touch_grad, [0], 1, 0, None. eexists. eexists.
  split; [|split; [|split; [|split; [unfold gaussian_acquisition_1D, gaussian_acquisition; change (ends_with_ps "EI") with false; cbn [bind];
    cbn [String.eqb Ascii.eqb Bool.eqb]; unfold gaussian_ei; rewrite imp_zero by (cbn; lra); cbn [bind fst snd map]; reflexivity|]]]].
  - split; [reflexivity|]. intros [|[|i]] a d Ha Hd; try discriminate. cbn in Hd. injection Hd as <-.
    apply (is_derive_const (V := R_NormedModule) 0).
  - split; [reflexivity|]. intros [|[|i]] a d Ha Hd; try discriminate. cbn in Ha, Hd. injection Ha as <-. injection Hd as <-.
    cbn. auto_derive; [exact I|ring].
  - cbn. ring.
  - intros [L G]. specialize (G 0%nat 0 _ eq_refl eq_refl).
    assert (C : continuous (fun t => value_of (gaussian_acquisition_1D Rops cdf pdf (put [0] 0 t) (Single (regressor flat0 touch zeros_like touch_grad)) (Some 1) "EI" (Some 0) None false)) 0).
    { apply (@ex_derive_continuous R_AbsRing R_NormedModule). eexists. exact G. }
    assert (V0 : value_of (gaussian_acquisition_1D Rops cdf pdf (put [0] 0 0) (Single (regressor flat0 touch zeros_like touch_grad)) (Some 1) "EI" (Some 0) None false) = 0).
    { destruct (one_0 cdf pdf 1 0 0 (touch [0])) as [_ Q]; [cbn; lra|]. cbn -[ei_one neg touch]. unfold flat0. rewrite Q, neg_R. ring. }
    assert (V1 : forall t, t <> 0 -> value_of (gaussian_acquisition_1D Rops cdf pdf (put [0] 0 t) (Single (regressor flat0 touch zeros_like touch_grad)) (Some 1) "EI" (Some 0) None false) < -1).
    { intros t Ht. assert (P : 0 < touch [t]) by (cbn; nra). cbn -[ei_one neg touch]. rewrite (@ei_one_R cdf pdf HN 1 0 (flat0 [t]) (touch [t]) P), neg_R.
      pose proof (EI_above (1 - 0) (flat0 [t]) _ P) as A. unfold flat0 in *. lra. }
    destruct (C _ (locally_ball _ (mkposreal 1 Rlt_0_1))) as [e He].
    specialize (He (e / 2)). assert (B : ball 0 e (e / 2)).
    { change (Rabs (e / 2 - 0) < e). pose proof (cond_pos e). rewrite Rabs_right; lra. }
    specialize (He B). specialize (V1 (e / 2)). pose proof (cond_pos e). assert (NZ : e / 2 <> 0) by lra. specialize (V1 NZ).
    rewrite V0 in He. revert He V1. generalize (value_of (gaussian_acquisition_1D Rops cdf pdf (put [0] 0 (e / 2)) (Single (regressor flat0 touch zeros_like touch_grad)) (Some 1) "EI" (Some 0) None false)).
    intros w Hw V1. change (Rabs (w - 0) < 1) in Hw. apply Rabs_def2 in Hw. lra.
Qed.
(** A regressor that is certain of the value 0 is flat everywhere. *)
Lemma flat_case x : flat flat0 x.
Proof. split; [apply Rle_refl|]. intros i a Ha. apply filter_forall. intro t. apply Rle_refl. Qed.
