(** A Gaussian process regressor makes a dependable surrogate (C83). *)
From Coq Require Import String List ZArith Bool Reals Lra Lia.
From Verif Require Import Base BaseLemmas Num NumLaws Values Dimension Space Optimizer Acquisition OptSpec SpaceSpec Kernels KernelPsdSpec Gpr GprSpec GprAcq Cholesky CholTotal
  GpWorld GpWorldProps CampaignSpec RealSpace.
Import ListNotations.
Open Scope R_scope.
Open Scope list_scope.
Set Implicit Arguments.

Section GpDependable.
  Context (tune : kernel -> mat -> vec -> kernel) (cdf pdf : R -> R).
  Context (e0 : gpr) (xi : option R) (kappa : option (@kappa_arg R)).
  Context (argsort : list R -> list nat)
          (lbfgs : acq1 -> surrogate -> R -> list (R * R) -> list (pyval R) -> res (list (pyval R) * R))
          (generate : list (dim R) -> Z -> Z -> res (list (point R))) (logmax : R).
  Notation W := (gp_world tune cho_inv cho_weights cdf pdf e0 xi kappa argsort lbfgs generate logmax).
  Context (dims : list (dim R)) (acq : acqf) (lb : bool).
  Notation d := (t_n_dims dims).

  Lemma tbounds_count l : length (space_tbounds Rops l) = t_n_dims l.
  Proof. induction l as [|a l IH]; [reflexivity|]. unfold space_tbounds in *. cbn [flat_map t_n_dims fold_right]. rewrite app_length, IH. now rewrite tbounds_size. Qed.
  Lemma num_within bs r : within (O := Rops) bs r -> exists x, num_row r = Ok x /\ length x = length bs.
  Proof.
    unfold num_row. induction 1 as [|b v bs r (x & E & _) F (l & El & Ll)]; [exists []; easy|]. exists (x :: l). cbn [mapM]. rewrite E. cbn [bind]. rewrite El. cbn. split; [reflexivity|]. now rewrite Ll.
  Qed.
  Lemma rows_num X : proper_rows dims X -> exists X', mapM num_row X = Ok X' /\ X' <> [] /\ length X' = length X /\ List.Forall (fun x => length x = d) X'.
  Proof.
    intros (Hn & F). assert (Q : exists X', mapM num_row X = Ok X' /\ List.Forall (fun x => length x = d) X').
    { induction F as [|r X Hr F IH]; [now elim Hn|]. destruct (num_within Hr) as (x & E & L). rewrite tbounds_count in L. destruct X as [|r' X].
      - exists [x]. cbn [mapM]. rewrite E. cbn. split; [reflexivity|]. constructor; [exact L|constructor].
      - destruct IH as (X' & E' & F'); [discriminate|]. exists (x :: X'). remember (r' :: X) as Z. cbn [mapM]. rewrite E. cbn [bind]. rewrite E'. cbn. split; [reflexivity|]. now constructor. }
    destruct Q as (X' & E & F'). exists X'. split; [exact E|]. pose proof (@mapM_length _ _ _ _ _ E) as L. split; [|split; [exact L|exact F']].
    intros ->. destruct X; [now elim Hn|discriminate].
  Qed.

  Definition usable (e : gpr) : Prop := forall X', List.Forall (fun x => length x = d) X' -> X' <> [] ->
    exists m s, Gpr.predict e X' true false false false = Ok (mkAnswer m (Some s) None None) /\ length m = length X' /\ length s = length X'.
  Definition sound_surrogate (m : surrogate) : Prop :=
    match m with One e => is_ps acq = false /\ usable e | Two e t => is_ps acq = true /\ usable e /\ usable t end.

  Lemma mean_only e X m s : Gpr.predict e X true false false false = Ok (mkAnswer m (Some s) None None) ->
    exists a, Gpr.predict e X false false false false = Ok a /\ a_mean a = m.
  Proof.
    unfold Gpr.predict. cbn [andb negb orb]. destruct X as [|x X]; [discriminate|]. rewrite Bool.andb_false_r. destruct (e_fitted e) as [g|].
    - destruct (mapM (post_mean g) (x :: X)) as [m'|]; [|discriminate]. destruct (mapM (post_std g) (x :: X)) as [s'|]; [|discriminate]. cbn [bind].
      intro H. injection H as <- _. eexists. split; reflexivity.
    - destruct (e_kernel e) as [k|]; [|discriminate]. destruct (mapM (kdiag k) (x :: X)) as [s'|]; [|discriminate]. cbn [bind].
      intro H. injection H as <- _. eexists. split; reflexivity.
  Qed.
  Lemma map2_len (f : R -> R -> R) : forall a b, length (map2 f a b) = Nat.min (length a) (length b).
  Proof. intros. unfold map2. now rewrite map_length, combine_length. Qed.

  Lemma usable_pred e X : usable e -> List.Forall (fun x => length x = d) X -> X <> [] ->
    exists m s, gp_predictor e false X = Ok (mkPred true m s [] []) /\ length m = length X /\ length s = length X.
  Proof. intros U F Hn. destruct (U X F Hn) as (m & s & E & Lm & Ls). exists m, s. unfold gp_predictor. rewrite E. auto. Qed.

  Lemma acq_total a m yopt X : sound_surrogate m -> proper_rows dims X -> In a (cand_acqs acq) ->
    exists v, gp_acq cdf pdf xi kappa a m yopt X = Ok v /\ length v = length X.
  Proof.
    intros Hm HX Ia. destruct (rows_num HX) as (X' & E & Hn & L & F). unfold gp_acq. rewrite E. cbn [bind].
    destruct m as [e|e t]; cbn in Hm.
    - destruct Hm as (Hp & U). destruct (@usable_pred e X' U F Hn) as (mu & s & P & Lm & Ls).
      assert (Sa : is_ps (AOne a) = false) by (destruct acq as [|a']; cbn in Ia; [destruct Ia as [<-|[<-|[<-|[]]]]; reflexivity|destruct Ia as [<-|[]]; exact Hp]).
      destruct a; try discriminate; unfold gaussian_acquisition; cbn -[gp_predictor]; unfold gaussian_ei, gaussian_pi, gaussian_lcb, gaussian_imp, Acquisition.predict; rewrite P;
        cbn -[map2]; eexists; (split; [reflexivity|]); rewrite ?map_length, map2_len, Lm, Ls, L; apply Nat.min_id.
    - destruct Hm as (Hp & U & V). destruct (@usable_pred e X' U F Hn) as (mu & s & P & Lm & Ls). destruct (@usable_pred t X' V F Hn) as (mt & st & Q & Lmt & Lst).
      assert (Sa : is_ps (AOne a) = true) by (destruct acq as [|a']; cbn in Ia; [discriminate|destruct Ia as [<-|[]]; exact Hp]).
      destruct a; try discriminate; unfold gaussian_acquisition; cbn -[gp_predictor]; unfold gaussian_ei, gaussian_pi, gaussian_imp, Acquisition.predict; rewrite P;
        cbn -[map2 gp_predictor]; unfold per_second, Acquisition.predict; rewrite Q; cbn -[map2]; eexists; (split; [reflexivity|]);
        rewrite !map2_len, ?map_length, map2_len, Lm, Ls, Lmt, Lst, L, !Nat.min_id; reflexivity.
  Qed.

  Lemma timed_proper ys : List.Forall (proper_obs true) ys -> exists v t, timed_cols ys = Some (v, t) /\ length v = length ys /\ length t = length ys.
  Proof.
    induction 1 as [|y ys Hy F (v & t & E & Lv & Lt)]; [exists [], []; easy|]. destruct y as [y|y s]; [discriminate|]. cbn. rewrite E. cbn. do 2 eexists. split; [reflexivity|]. cbn. now rewrite Lv, Lt.
  Qed.
  Lemma plain_proper ys : List.Forall (proper_obs false) ys -> exists v, plain_col ys = Some v.
  Proof. induction 1 as [|y ys Hy F (v & E)]; [eexists; reflexivity|]. destruct y as [y|y s]; [|discriminate]. cbn. rewrite E. eexists. reflexivity. Qed.

  Lemma timed_in : forall ys v t, timed_cols ys = Some (v, t) -> (forall a, In a ys -> In (y_obj a) v) /\ (forall x s, In (YP x s) ys -> In s t).
  Proof.
    induction ys as [|y ys IH]; intros v t; [intros [= <- <-]; easy|]. destruct y as [y|y s]; [discriminate|]. cbn. destruct (timed_cols ys) as [[v' t']|]; [|discriminate].
    intros [= <- <-]. destruct (IH v' t' eq_refl) as (A & B). split; [intros a [<-|Ia]; cbn; auto|intros x r [[= -> ->]|Ia]; cbn; eauto].
  Qed.
  Lemma plain_in : forall ys v, plain_col ys = Some v -> forall a, In a ys -> In (y_obj a) v.
  Proof.
    induction ys as [|y ys IH]; intros v; [intros [= <-]; easy|]. destruct y as [y|y s]; [|discriminate]. cbn. destruct (plain_col ys) as [v'|]; [|discriminate].
    intros [= <-] a [<-|Ia]; cbn; auto.
  Qed.

  (** Without normalisation nothing is needed of the observations; with it they must not all be the same. *)
  Theorem gp_dependable_for (need : list (yval R) -> Prop) : (e_normalize e0 = true -> forall ys, need ys -> varied (is_ps acq) ys) ->
    (forall k X y, valid k d -> valid (tune k X y) d) -> valid (user_kernel e0) d -> noise_fits (e_noise e0) -> 0 < e_alpha e0 ->
    (lb = true -> forall m a yopt r, In a (cand_acqs acq) -> within (O := Rops) (space_tbounds Rops dims) r ->
       exists r' v, lbfgs a m yopt (space_tbounds Rops dims) r = Ok (r', v) /\ within (O := Rops) (space_tbounds Rops dims) r') ->
    argsort_ok Rops W ->
    (forall n seed, (0 <= n)%Z -> exists l, generate dims n seed = Ok l /\ length l = Z.to_nat n /\ List.Forall (in_space Rops dims) l) ->
    dependable W need dims acq lb.
  Proof.
    intros Nn Ht Vk Vn Pa Hl Hs Hg. split; [|split; [exact Hs|exact Hg]]. exists sound_surrogate.
    assert (Fit : forall X' y, List.Forall (fun x => length x = d) X' -> match Gpr.fit tune cho_inv cho_weights e0 X' y with
      | Ok e => usable e | Raise _ => e_normalize e0 = true /\ ~ exists a b, In a y /\ In b y /\ a <> b end).
    { intros X' y F. destruct (Gpr.fit tune cho_inv cho_weights e0 X' y) as [e|x] eqn:E.
      - intros Z FZ NZ. destruct (@c81_use tune d Ht e0 X' y e E Vk Vn Pa F Z FZ NZ) as (m & s & C & P & _ & Lm & Ls & _). exists m, s. split; [exact P|]. split; [exact Lm|exact Ls].
      - destruct (e_normalize e0) eqn:En.
        + split; [reflexivity|]. intros V. destruct (@c81_fit tune d Ht e0 X' y Vk Vn Pa F) as (e & E'); [auto|]. rewrite E in E'. discriminate.
        + destruct (@c81_fit tune d Ht e0 X' y Vk Vn Pa F) as (e & E'); [congruence|]. rewrite E in E'. discriminate. }
    split; [|split; [|split]].
    - intros X ys HX L Hy. destruct (rows_num HX) as (X' & E & Hn & L' & F). cbn [w_fit gp_world]. unfold gp_fit. rewrite E. cbn [bind].
      destruct (is_ps acq) eqn:Ps.
      + destruct (timed_proper Hy) as (v & t & Et & _ & _). destruct ys as [|y ys]; [destruct HX as (HX & _); destruct X; [now elim HX|discriminate]|].
        inversion Hy as [|? ? Hy1 _]; subst. destruct y as [y|y s]; [discriminate|]. rewrite Et. cbn [plain_col]. destruct (timed_in _ Et) as (Iv & It).
        pose proof (Fit X' v F) as Fv. destruct (Gpr.fit tune cho_inv cho_weights e0 X' v) as [e|x]; cbn [bind].
        * pose proof (Fit X' t F) as Ft. destruct (Gpr.fit tune cho_inv cho_weights e0 X' t) as [e'|x]; cbn [bind]; [cbn; auto|].
          destruct Ft as (En & Nt). intros N. destruct (Nn En _ N) as (_ & V). destruct (V eq_refl) as (x1 & t1 & x2 & t2 & I1 & I2 & Ne). apply Nt. exists t1, t2. eauto.
        * destruct Fv as (En & Nv). intros N. destruct (Nn En _ N) as ((a & b & Ia & Ib & Ne) & _). apply Nv. exists (y_obj a), (y_obj b). auto.
      + destruct (plain_proper Hy) as (v & Ev). rewrite Ev. pose proof (plain_in _ Ev) as Iv. pose proof (Fit X' v F) as Fv.
        destruct (Gpr.fit tune cho_inv cho_weights e0 X' v) as [e|x]; cbn [bind]; [cbn; auto|].
        destruct Fv as (En & Nv). intros N. destruct (Nn En _ N) as ((a & b & Ia & Ib & Ne) & _). apply Nv. exists (y_obj a), (y_obj b). auto.
    - intros m X Hm HX Ha. destruct (rows_num HX) as (X' & E & Hn & L & F). destruct m as [e|e t]; [|destruct Hm as (Hm & _); rewrite Ha in Hm; discriminate].
      destruct Hm as (_ & U). destruct (U X' F Hn) as (mu & s & P & Lm & _). destruct (mean_only _ _ P) as (a & Pa' & Ea). cbn [w_predict gp_world gp_predict]. rewrite E. cbn [bind]. rewrite Pa'. cbn [bind].
      eexists. split; [reflexivity|]. rewrite Ea. now rewrite Lm.
    - intros m X a yopt Hm HX Ia. cbn [w_acq gp_world]. now apply acq_total.
    - intros El m a yopt r _ Ia Wr. cbn [w_lbfgs gp_world]. now apply Hl.
  Qed.

  Theorem gp_dependable : (forall k X y, valid k d -> valid (tune k X y) d) -> valid (user_kernel e0) d -> noise_fits (e_noise e0) -> 0 < e_alpha e0 ->
    e_normalize e0 = false ->
    (lb = true -> forall m a yopt r, In a (cand_acqs acq) -> within (O := Rops) (space_tbounds Rops dims) r ->
       exists r' v, lbfgs a m yopt (space_tbounds Rops dims) r = Ok (r', v) /\ within (O := Rops) (space_tbounds Rops dims) r') ->
    argsort_ok Rops W ->
    (forall n seed, (0 <= n)%Z -> exists l, generate dims n seed = Ok l /\ length l = Z.to_nat n /\ List.Forall (in_space Rops dims) l) ->
    dependable W anything dims acq lb.
  Proof. intros. apply gp_dependable_for; try assumption. congruence. Qed.
  Theorem gp_dependable_varied : (forall k X y, valid k d -> valid (tune k X y) d) -> valid (user_kernel e0) d -> noise_fits (e_noise e0) -> 0 < e_alpha e0 ->
    (lb = true -> forall m a yopt r, In a (cand_acqs acq) -> within (O := Rops) (space_tbounds Rops dims) r ->
       exists r' v, lbfgs a m yopt (space_tbounds Rops dims) r = Ok (r', v) /\ within (O := Rops) (space_tbounds Rops dims) r') ->
    argsort_ok Rops W ->
    (forall n seed, (0 <= n)%Z -> exists l, generate dims n seed = Ok l /\ length l = Z.to_nat n /\ List.Forall (in_space Rops dims) l) ->
    dependable W (varied (is_ps acq)) dims acq lb.
  Proof. intros. apply gp_dependable_for; try assumption. auto. Qed.
End GpDependable.
Lemma varied_mono ps l l' : varied ps l -> varied ps (l ++ l').
Proof.
  intros ((a & b & Ia & Ib & N) & V). split; [exists a, b; rewrite !in_app_iff; auto|]. intros E. destruct (V E) as (v & t & v' & t' & A & B & C).
  exists v, t, v', t'. rewrite !in_app_iff. auto.
Qed.
