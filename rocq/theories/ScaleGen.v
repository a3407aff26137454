(** The generators of initial points do not depend on the units of the parameters. *)
From Coq Require Import String List ZArith Bool Reals Lra Lia.
From Verif Require Import Base BaseLemmas Num NumLaws Values Transformers Dimension Space SpaceSpec Optimizer OptSpec OptLemmas MetricLemmas Sampler Sobol Generators ScaleSpec ScaleDim ScaleSpace ScaleSim ScaleOpt.
Import ListNotations.
Open Scope R_scope.
Open Scope list_scope.
Set Implicit Arguments.

Definition fin {A} (r : res A) : res unit := rmap (fun _ => tt) r.
Lemma kind_alike d d' f k : rescaled d d' f -> fin (set_kind k d') = fin (set_kind k d).
Proof. destruct 1; [reflexivity| |]; cbn [moved set_kind]; destruct k; reflexivity. Qed.
Lemma kinds_alike ds ds' fs : spaces ds ds' fs -> forall ks, fin (set_kinds ks ds') = fin (set_kinds ks ds).
Proof.
  induction 1 as [|d d' f l l' m Hd _ IH]; [reflexivity|]. intros [|k ks]; [reflexivity|]. cbn [set_kinds]. pose proof (kind_alike k Hd) as H. specialize (IH ks).
  destruct (set_kind k d), (set_kind k d'); cbn in H; try discriminate; [|exact H]. cbn [bind]. destruct (set_kinds ks l), (set_kinds ks l'); cbn in IH |- *; try discriminate; exact IH.
Qed.
Lemma kinds_same ds ds' fs : spaces ds ds' fs -> get_kinds ds' = get_kinds ds.
Proof. unfold get_kinds. induction 1 as [|d d' f l l' m Hd _ IH]; [reflexivity|]. cbn [map]. rewrite IH. f_equal. destruct Hd; reflexivity. Qed.
Lemma warp_alike ds ds' fs h : spaces ds ds' fs ->
  snd (warp_design Rops ds' h) = rmap (map (conv fs)) (snd (warp_design Rops ds h)) /\ forall l, snd (warp_design Rops ds h) = Ok l -> Forall (keptp ds ds' fs) l.
Proof.
  intro Sp. unfold warp_design. pose proof (scale_kinds Sp) as H. destruct (set_kinds_all KNormalize ds) as [es|] eqn:E, (set_kinds_all KNormalize ds') as [es'|] eqn:E'; try contradiction. destruct H as [S1 N1].
  destruct h as [m|e]; cbn [bind]; [|split; [reflexivity|discriminate]]. destruct (scale_inverse (as_values m) S1 N1) as [-> K]. destruct (space_inverse Rops es (as_values m)) as [P|e]; cbn [rmap]; [|split; [reflexivity|discriminate]].
  rewrite (kinds_same Sp). pose proof (kinds_alike S1 (get_kinds ds)) as F. destruct (set_kinds (get_kinds ds) es), (set_kinds (get_kinds ds) es'); cbn in F; try discriminate.
  - split; [reflexivity|]. cbn [snd]. intros l0 [= <-]. eapply Forall_impl; [|exact (K P eq_refl)]. intros p. exact (@kept_back _ _ _ Sp _ _ E E' p).
  - split; [cbn; congruence|discriminate].
Qed.
Lemma generate_alike {RNG M} (G : rng_ops R RNG) S k fs (W : world R M) :
  (forall ds n seed, w_generate W ds n seed = generate Rops G S k ds n seed) -> gen_alike fs W (generate Rops G S k).
Proof.
  intros E ds ds' n seed Sp. rewrite E. destruct (spaces_length Sp) as [L _]. unfold generate. destruct k.
  - unfold halton_generate. rewrite L. now apply warp_alike.
  - unfold hammersly_generate. rewrite L. now apply warp_alike.
  - unfold lhs_generate. rewrite L. now apply warp_alike.
  - unfold grid_generate. rewrite L. now apply warp_alike.
  - unfold sobol_generate. rewrite L. destruct (_ && _)%bool; [split; [reflexivity|discriminate]|]. destruct (sobol_design _ _ _ _ _ _) as [s1 h].
    pose proof (@warp_alike ds ds' fs h Sp) as H. destruct (warp_design Rops ds h), (warp_design Rops ds' h). exact H.
Qed.
