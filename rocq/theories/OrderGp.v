(** Gaussian processes do not care about the order of the observations. *)
From Coq Require Import String List ZArith Bool Reals Lra Lia Permutation.
From Verif Require Import Base BaseLemmas Num NumLaws Values Dimension Space Optimizer SpaceSpec OptSpec Acquisition Kernels KernelPsdSpec Gpr GprSpec GprAcq Cholesky GprOrder GpWorld
  CampaignSpec GpDependable Campaign OrderSpec OrderSim.
Import ListNotations.
Open Scope R_scope.
Open Scope list_scope.
Set Implicit Arguments.

Section OrderGp.
  Context (tune : kernel -> mat -> vec -> kernel) (cdf pdf : R -> R).
  Context (e0 : gpr) (xi : option R) (kappa : option (@kappa_arg R)).
  Context (argsort : list R -> list nat)
          (lbfgs : acq1 -> surrogate -> R -> list (R * R) -> list (pyval R) -> res (list (pyval R) * R))
          (generate : list (dim R) -> Z -> Z -> res (list (point R))) (logmax : R).
  Notation W := (gp_world tune cho_inv cho_weights cdf pdf e0 xi kappa argsort lbfgs generate logmax).
  Context (dims : list (dim R)).
  Notation d := (t_n_dims dims).
  Context (Ht : forall k X y, valid k d -> valid (tune k X y) d).
  Context (Hp : forall k X y X' y', length X = length y -> length X' = length y' -> Permutation (combine X y) (combine X' y') -> tune k X y = tune k X' y').
  Context (Vk : valid (user_kernel e0) d) (Vn : match e_noise e0 with NoiseLevel v => 0 <= v | _ => True end) (Pa : 0 <= e_alpha e0).
  Context (Hl : forall a m m' y b r, same_surrogate m m' -> lbfgs a m y b r = lbfgs a m' y b r).

  Lemma fit_same X y X' y' e e' : Forall (fun x => length x = d) X -> length X = length y -> length X' = length y' -> Permutation (combine X y) (combine X' y') ->
    Gpr.fit tune cho_inv cho_weights e0 X y = Ok e -> Gpr.fit tune cho_inv cho_weights e0 X' y' = Ok e' -> same_gp e e'.
  Proof.
    intros F L L' P E E'. destruct (@c94_order tune d Ht Hp e0 X y X' y' e Vk Vn Pa F L L' P E) as (e2 & E2 & Q & _). rewrite E' in E2. injection E2 as <-.
    intros Xs rs rc mg sg ans. apply Q.
  Qed.
  Lemma plain_map : forall y v, plain_col y = Some v -> y = map (@YS R) v.
  Proof. induction y as [|[u|u t] y IH]; intros v H; cbn in H; [now injection H as <-| |discriminate]. destruct (plain_col y) as [w|]; [|discriminate]. injection H as <-. cbn. now rewrite (IH w eq_refl). Qed.
  Lemma timed_map : forall y v t, timed_cols y = Some (v, t) -> v = map y_obj y /\ t = map (fun q => match q with YP _ s => s | YS u => u end) y /\ Forall (proper_obs true) y.
  Proof.
    induction y as [|[u|u s] y IH]; intros v t H; cbn in H; [injection H as <- <-; repeat split; constructor|discriminate|]. destruct (timed_cols y) as [[w r]|]; [|discriminate].
    injection H as <- <-. destruct (IH w r eq_refl) as (-> & -> & F). repeat split. now constructor.
  Qed.
  Lemma rows_width X X' : Forall (within (O := Rops) (space_tbounds Rops dims)) X -> mapM num_row X = Ok X' -> Forall (fun x => length x = d) X'.
  Proof.
    intros F. revert X'. induction F as [|r X Hr _ IH]; intros X' E; cbn [mapM] in E; [injection E as <-; constructor|].
    destruct (num_within Hr) as (x & Ex & Lx). rewrite Ex in E. cbn [bind] in E. destruct (mapM num_row X) as [Z|]; [|discriminate]. cbn [bind] in E. injection E as <-.
    constructor; [now rewrite Lx, tbounds_count|now apply IH].
  Qed.
  Lemma gp_fit_same X y X' y' m m' : Forall (within (O := Rops) (space_tbounds Rops dims)) X -> length X = length y -> length X' = length y' ->
    Permutation (combine X y) (combine X' y') -> gp_fit tune cho_inv cho_weights e0 X y = Ok m -> gp_fit tune cho_inv cho_weights e0 X' y' = Ok m' -> same_surrogate m m'.
  Proof.
    intros F L L' P E E'. unfold gp_fit in *. apply bind_ok in E. destruct E as (Z & EZ & E). apply bind_ok in E'. destruct E' as (Z' & EZ' & E').
    pose proof (rows_width F EZ) as FZ. pose proof (mapM_length _ _ EZ) as LZ. pose proof (mapM_length _ _ EZ') as LZ'.
    apply (mapM_map _ []) in EZ. apply (mapM_map _ []) in EZ'. set (h := fun x => match num_row x with Ok v => v | Raise _ => [] end) in *.
    assert (Py : Permutation y y') by (apply (Permutation_map snd) in P; now rewrite !OrderSim.snd_combine in P).
    assert (Col : forall q : yval R -> R, Permutation (combine Z (map q y)) (combine Z' (map q y'))).
    { intro q. rewrite EZ, EZ', !combine_map_both. now apply Permutation_map. }
    destruct (plain_col y) as [v|] eqn:Ev.
    - apply plain_map in Ev. assert (Ey' : exists v', plain_col y' = Some v').
      { apply plain_proper. eapply Permutation_Forall; [exact Py|]. rewrite Ev. apply Forall_forall. intros u Hu. apply in_map_iff in Hu. destruct Hu as (w & <- & _). reflexivity. }
      destruct Ey' as (v' & Ev'). rewrite Ev' in E'. apply plain_map in Ev'. apply bind_ok in E. destruct E as (e & Ef & E). injection E as <-.
      apply bind_ok in E'. destruct E' as (e' & Ef' & E'). injection E' as <-. cbn.
      assert (V : map y_obj y = v) by (rewrite Ev, map_map; apply map_id). assert (V' : map y_obj y' = v') by (rewrite Ev', map_map; apply map_id).
      refine (@fit_same _ _ _ _ _ _ FZ _ _ _ Ef Ef'); [rewrite <- V, map_length; congruence|rewrite <- V', map_length; congruence|]. rewrite <- V, <- V'. apply Col.
    - destruct (timed_cols y) as [[v t]|] eqn:Et; [|discriminate]. apply timed_map in Et. destruct Et as (V & T & Fy).
      assert (N : plain_col y' = None).
      { destruct (plain_col y') as [v'|] eqn:Ev'; [|reflexivity]. exfalso. apply plain_map in Ev'. destruct y as [|u y]; [discriminate|].
        pose proof (Permutation_in u Py (or_introl eq_refl)) as I. rewrite Ev' in I. apply in_map_iff in I. destruct I as (w & <- & _). inversion Fy as [|? ? Q _]. discriminate. }
      rewrite N in E'. destruct (timed_cols y') as [[v' t']|] eqn:Et'; [|discriminate]. apply timed_map in Et'. destruct Et' as (V' & T' & _).
      apply bind_ok in E. destruct E as (e & Ef & E). apply bind_ok in E. destruct E as (e2 & Eg & E). injection E as <-.
      apply bind_ok in E'. destruct E' as (e' & Ef' & E'). apply bind_ok in E'. destruct E' as (e2' & Eg' & E'). injection E' as <-. cbn. subst v v' t t'.
      split; [refine (@fit_same _ _ _ _ _ _ FZ _ _ _ Ef Ef')|refine (@fit_same _ _ _ _ _ _ FZ _ _ _ Eg Eg')]; rewrite ?map_length; try congruence; apply Col.
  Qed.
  Lemma predictor_same e e' X r : same_gp e e' -> gp_predictor e false X = Ok r -> gp_predictor e' false X = Ok r.
  Proof. intros H. unfold gp_predictor. destruct (Gpr.predict e X true false false false) as [ans|] eqn:E; [|discriminate]. apply H in E. now rewrite E. Qed.
  Lemma acquisition_same m m' X y s out : match m, m' with
      | Single p, Single p' => forall r, p X = Ok r -> p' X = Ok r
      | Multi p t, Multi p' t' => (forall r, p X = Ok r -> p' X = Ok r) /\ (forall r, t X = Ok r -> t' X = Ok r)
      | _, _ => False end ->
    gaussian_acquisition Rops cdf pdf X m y s xi kappa false = Ok out -> gaussian_acquisition Rops cdf pdf X m' y s xi kappa false = Ok out.
  Proof.
    intros H. unfold gaussian_acquisition.
    assert (K : forall n n', (forall r, Acquisition.predict n X = Ok r -> Acquisition.predict n' X = Ok r) ->
      (forall k o, gaussian_lcb Rops n X k false = Ok o -> gaussian_lcb Rops n' X k false = Ok o) /\
      (forall x o, gaussian_ei Rops cdf pdf n X y x false = Ok o -> gaussian_ei Rops cdf pdf n' X y x false = Ok o) /\
      (forall x o, gaussian_pi Rops cdf pdf n X y x false = Ok o -> gaussian_pi Rops cdf pdf n' X y x false = Ok o) /\
      (forall u o, per_second Rops n X false u = Ok o -> per_second Rops n' X false u = Ok o)).
    { intros n n' Hn. unfold gaussian_lcb, gaussian_ei, gaussian_pi, gaussian_imp, per_second.
      destruct (Acquisition.predict n X) as [r|]; [rewrite (Hn r eq_refl); auto|repeat split; discriminate]. }
    assert (Q : exists n n' t t', (if ends_with_ps s then match m with Multi p t => Ok (Single p, Single t) | Single _ => Raise AttributeError end else Ok (m, m)) = Ok (n, t) /\
        (if ends_with_ps s then match m' with Multi p t => Ok (Single p, Single t) | Single _ => Raise AttributeError end else Ok (m', m')) = Ok (n', t') /\
        (forall r, Acquisition.predict n X = Ok r -> Acquisition.predict n' X = Ok r) /\ (forall r, Acquisition.predict t X = Ok r -> Acquisition.predict t' X = Ok r)
      \/ (ends_with_ps s = true /\ exists p, m = Single p)).
    { destruct m as [p|p t], m' as [p'|p' t']; try easy; destruct (ends_with_ps s) eqn:Es.
      - exists (Single p), (Single p), (Single p), (Single p). right. eauto.
      - exists (Single p), (Single p'), (Single p), (Single p'). left. auto.
      - destruct H as (H1 & H2). exists (Single p), (Single p'), (Single t), (Single t'). left. auto.
      - exists (Multi p t), (Multi p' t'), (Multi p t), (Multi p' t'). left. repeat split; discriminate. }
    destruct Q as (n & n' & t & t' & [(-> & -> & Hn & Htt)|(-> & p & ->)]); [|discriminate]. cbn [bind].
    destruct (K n n' Hn) as (K1 & K2 & K3 & _). destruct (K t t' Htt) as (_ & _ & _ & K4).
    destruct (s =? "LCB")%string; [apply K1|].
    destruct (s =? "EI")%string; [intro E; apply bind_ok in E; destruct E as (o & Eo & E); rewrite (K2 _ _ Eo); exact E|].
    destruct (s =? "PI")%string; [intro E; apply bind_ok in E; destruct E as (o & Eo & E); rewrite (K3 _ _ Eo); exact E|].
    destruct (s =? "EIps")%string; [intro E; apply bind_ok in E; destruct E as (o & Eo & E); apply bind_ok in Eo; destruct Eo as (o2 & Eo2 & Eo); rewrite (K2 _ _ Eo2); cbn [bind] in *; injection Eo as <-; exact (K4 _ _ E)|].
    destruct (s =? "PIps")%string; [|discriminate].
    intro E; apply bind_ok in E; destruct E as (o & Eo & E); apply bind_ok in Eo; destruct Eo as (o2 & Eo2 & Eo); rewrite (K3 _ _ Eo2); cbn [bind] in *; injection Eo as <-; exact (K4 _ _ E).
  Qed.

  Lemma gp_order_free : order_free W dims same_surrogate.
  Proof.
    constructor.
    - intros X y X' y' m m' F L L' P E E'. refine (@gp_fit_same X y X' y' m m' F L L' P E E').
    - intros m m' X v v' H. cbn [w_predict gp_world]. destruct m as [e|], m' as [e'|]; cbn [gp_predict]; try discriminate. intros E E'.
      apply bind_ok in E. destruct E as (Z & EZ & E). rewrite EZ in E'. cbn [bind] in E'. apply bind_ok in E. destruct E as (ans & Ea & E). apply H in Ea. rewrite Ea in E'. cbn in E'. congruence.
    - intros a m m' y X v v' H. cbn [w_acq gp_world]. unfold gp_acq. intros E E'. apply bind_ok in E. destruct E as (Z & EZ & E). rewrite EZ in E'. cbn [bind] in E'.
      apply bind_ok in E. destruct E as (out & Eo & E). injection E as <-. apply bind_ok in E'. destruct E' as (out' & Eo' & E'). injection E' as <-.
      assert (Q : out = out'); [|now rewrite Q].
      destruct m as [e|e t], m' as [e'|e' t']; try easy.
      + apply (@acquisition_same _ (Single (gp_predictor e' false))) in Eo; [congruence|]. intros r. now apply predictor_same.
      + destruct H as (H1 & H2). apply (@acquisition_same _ (Multi (gp_predictor e' false) (gp_predictor t' false))) in Eo; [congruence|]. split; intros r; now apply predictor_same.
    - intros a m m' y b r v v' H. cbn [w_lbfgs gp_world]. intros E E'. rewrite (Hl a m m' y b r H) in E. congruence.
  Qed.
End OrderGp.
