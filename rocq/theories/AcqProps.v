(** Acquisition functions: what the returned values and gradients are. *)
From Coq Require Import String List ZArith Bool Reals Lra Lia.
From Coquelicot Require Import Coquelicot.
From Verif Require Import Base BaseLemmas Num NumLaws Acquisition AcqSpec GaussLemmas AcqLemmas.
Import ListNotations.
Open Scope R_scope.
Open Scope list_scope.

Lemma neg_R x : neg Rops x = - x. Proof. unfold neg. cbn. ring. Qed.
Lemma map2_len {N} (f : N -> N -> N) l l' : length l = length l' -> length (map2 f l l') = length l.
Proof. intro H. unfold map2. rewrite map_length, combine_length. lia. Qed.
Lemma map2_nth {N} (f : N -> N -> N) : forall l l' i a b, nth_error l i = Some a -> nth_error l' i = Some b ->
  nth_error (map2 f l l') i = Some (f a b).
Proof.
  unfold map2. induction l as [|x l IH]; intros [|y l'] [|i] a b Ha Hb; try discriminate; cbn in *.
  - now injection Ha as <-; injection Hb as <-.
  - now apply IH.
Qed.
Lemma map2_nth_inv {N} (f : N -> N -> N) : forall l l' i v, nth_error (map2 f l l') i = Some v ->
  exists a b, nth_error l i = Some a /\ nth_error l' i = Some b /\ v = f a b.
Proof.
  unfold map2. induction l as [|x l IH]; intros [|y l'] [|i] v H; try discriminate; cbn in *.
  - injection H as <-. eauto.
  - now apply IH.
Qed.

Section Values.
  Context (cdf pdf : R -> R) (HN : std_normal cdf pdf).
  Lemma pi_one_R y xi mu s : 0 < s -> pi_one Rops cdf y xi mu s = Phi ((y - xi - mu) / s).
  Proof.
    intro Hs. unfold pi_one, improve. cbn -[IZR]. assert (E : Rltb 0 s = true) by now apply Rltb_spec. rewrite E.
    now rewrite (proj1 (std_normal_unique _ _ HN)).
  Qed.
  Lemma ei_one_R y xi mu s : 0 < s -> ei_one Rops cdf pdf y xi mu s = EI (y - xi) mu s.
  Proof.
    intro Hs. unfold ei_one, improve. cbn -[IZR]. assert (E : Rltb 0 s = true) by now apply Rltb_spec. rewrite E.
    destruct (std_normal_unique _ _ HN) as [-> ->]. reflexivity.
  Qed.
  Lemma one_0 y xi mu s : s <= 0 -> pi_one Rops cdf y xi mu s = 0 /\ ei_one Rops cdf pdf y xi mu s = 0.
  Proof.
    intro Hs. unfold pi_one, ei_one. cbn -[IZR]. assert (E : Rltb 0 s = false) by (apply Rltb_false; lra). rewrite E. auto.
  Qed.

  Lemma imp_values one gr m X mus stds y xi : predicts m X mus stds ->
    gaussian_imp Rops one gr m X (Some y) xi false = Ok (map2 (one y xi) mus stds, None).
  Proof. intros (r & E & D & <- & <-). unfold gaussian_imp. rewrite E. cbn [bind]. now rewrite D. Qed.

  Lemma c49_pi m X mus stds y xi : predicts m X mus stds -> length mus = length stds ->
    exists vs, gaussian_pi Rops cdf pdf m X (Some y) xi false = Ok (vs, None) /\ length vs = length mus /\
      forall i mu s v, nth_error mus i = Some mu -> nth_error stds i = Some s -> nth_error vs i = Some v ->
        (0 <= v <= 1) /\ (s <= 0 -> v = 0) /\ (0 < s -> 0 < v < 1 /\ probability_below mu s (y - xi) v).
  Proof.
    intros H L. eexists. split; [apply imp_values; exact H|]. split; [now apply map2_len|].
    intros i mu s v Hm Hs Hv. rewrite (map2_nth _ _ _ _ _ _ Hm Hs) in Hv. injection Hv as <-.
    destruct (Rlt_le_dec 0 s) as [P|P].
    - rewrite pi_one_R by exact P. pose proof (Phi_range ((y - xi - mu) / s)). split; [lra|]. split; [lra|]. intros _.
      split; [lra|]. now apply PI_probability.
    - rewrite (proj1 (one_0 y xi mu s P)). split; [lra|]. split; [reflexivity|lra].
  Qed.
  Lemma c49_ei m X mus stds y xi : predicts m X mus stds -> length mus = length stds ->
    exists vs, gaussian_ei Rops cdf pdf m X (Some y) xi false = Ok (vs, None) /\ length vs = length mus /\
      forall i mu s v, nth_error mus i = Some mu -> nth_error stds i = Some s -> nth_error vs i = Some v ->
        0 <= v /\ (s <= 0 -> v = 0) /\
        (0 < s -> 0 < v /\ y - xi - mu < v /\ expectation mu s (fun t => Rmax (y - xi - t) 0) v).
  Proof.
    intros H L. eexists. split; [apply imp_values; exact H|]. split; [now apply map2_len|].
    intros i mu s v Hm Hs Hv. rewrite (map2_nth _ _ _ _ _ _ Hm Hs) in Hv. injection Hv as <-.
    destruct (Rlt_le_dec 0 s) as [P|P].
    - rewrite ei_one_R by exact P. pose proof (EI_pos (y - xi) mu s P). split; [lra|]. split; [lra|]. intros _.
      split; [lra|]. split; [now apply EI_above|]. now apply EI_expectation.
    - rewrite (proj2 (one_0 y xi mu s P)). split; [lra|]. split; [reflexivity|lra].
  Qed.
  Lemma c49_lcb m X mus stds y xi k : predicts m X mus stds -> length mus = length stds ->
    exists vs, gaussian_acquisition Rops cdf pdf X m y "LCB" xi k false = Ok (vs, None) /\ length vs = length mus /\
      forall i mu s v, nth_error mus i = Some mu -> nth_error stds i = Some s -> nth_error vs i = Some v ->
        v = match k with None => mu - 196 / 100 * s | Some (Kappa k) => mu - k * s | Some KappaInf => - s end.
  Proof.
    intros (r & E & D & <- & <-) L. unfold gaussian_acquisition. cbn [bind ends_with_ps]. change (ends_with_ps "LCB") with false.
    cbn [bind]. change (("LCB" =? "LCB")%string) with true. cbv iota. unfold gaussian_lcb. rewrite E. cbn [bind].
    eexists. split; [reflexivity|]. split; [now apply map2_len|].
    intros i mu s v Hm Hs Hv. rewrite (map2_nth _ _ _ _ _ _ Hm Hs) in Hv. injection Hv as <-.
    destruct k as [[k|]|]; unfold lcb_one; [reflexivity|now rewrite neg_R|reflexivity].
  Qed.
  (** The negated values are what is minimised. *)
  Lemma c49_negated m X mus stds y xi : predicts m X mus stds -> length mus = length stds ->
    let x := match xi with Some x => x | None => / 100 end in
    (exists vs, gaussian_pi Rops cdf pdf m X (Some y) x false = Ok (vs, None) /\
       forall k, gaussian_acquisition Rops cdf pdf X m (Some y) "PI" xi k false = Ok (map Ropp vs, None)) /\
    (exists vs, gaussian_ei Rops cdf pdf m X (Some y) x false = Ok (vs, None) /\
       forall k, gaussian_acquisition Rops cdf pdf X m (Some y) "EI" xi k false = Ok (map Ropp vs, None)).
  Proof.
    intros H L x. assert (X0 : match xi with Some x => x | None => default_xi Rops end = x).
    { destruct xi; [reflexivity|]. unfold default_xi, x. cbn -[IZR]. unfold Rdiv. ring. }
    split; (eexists; split; [apply imp_values; exact H|]); intro k; unfold gaussian_acquisition;
      rewrite X0; unfold gaussian_pi, gaussian_ei; cbn [bind]; [change (ends_with_ps "PI") with false|change (ends_with_ps "EI") with false];
      cbn [bind]; cbn [String.eqb Ascii.eqb Bool.eqb]; rewrite (imp_values _ _ _ _ _ _ y x H); cbn [bind fst snd];
      do 2 f_equal; apply map_ext; intro; apply neg_R.
  Qed.

  Definition ei_at (m : acq_model) (X : list (list R)) (y xi v : R) : Prop := gaussian_ei Rops cdf pdf m X (Some y) xi false = Ok ([v], None).
  Lemma ei_single m X mu s y xi v : predicts m X [mu] [s] -> ei_at m X y xi v -> v = ei_one Rops cdf pdf y xi mu s.
  Proof. intros H E. unfold ei_at, gaussian_ei in E. rewrite (imp_values _ _ _ _ _ _ y xi H) in E. cbn in E. congruence. Qed.
  Lemma c50_mean m1 m2 X1 X2 mu1 mu2 s y xi v1 v2 : 0 < s -> mu1 < mu2 ->
    predicts m1 X1 [mu1] [s] -> predicts m2 X2 [mu2] [s] -> ei_at m1 X1 y xi v1 -> ei_at m2 X2 y xi v2 -> v2 < v1.
  Proof.
    intros Hs Hm P1 P2 E1 E2. rewrite (ei_single _ _ _ _ _ _ _ P1 E1), (ei_single _ _ _ _ _ _ _ P2 E2), !ei_one_R by exact Hs.
    now apply EI_mean.
  Qed.
  Lemma c50_std m1 m2 X1 X2 mu s1 s2 y xi v1 v2 : 0 <= s1 -> s1 < s2 ->
    predicts m1 X1 [mu] [s1] -> predicts m2 X2 [mu] [s2] -> ei_at m1 X1 y xi v1 -> ei_at m2 X2 y xi v2 -> v1 < v2.
  Proof.
    intros Hs Hm P1 P2 E1 E2. rewrite (ei_single _ _ _ _ _ _ _ P1 E1), (ei_single _ _ _ _ _ _ _ P2 E2).
    rewrite (ei_one_R y xi mu s2) by lra. destruct (Rle_lt_or_eq_dec 0 s1 Hs) as [P|<-].
    - rewrite ei_one_R by exact P. now apply EI_std.
    - rewrite (proj2 (one_0 y xi mu 0 ltac:(lra))). apply EI_pos. lra.
  Qed.
  Lemma c50_zero_std m X mu y xi v : predicts m X [mu] [0] -> ei_at m X y xi v -> v = 0.
  Proof. intros P E. rewrite (ei_single _ _ _ _ _ _ _ P E). apply one_0. lra. Qed.
End Values.

(** Per second: the values times the mean of 1 / time, the logarithm of the time being normal. *)
Lemma inv_time_R mu sd : inv_time Rops mu sd = exp (- mu + / 2 * (sd * sd)).
Proof. unfold inv_time. rewrite neg_R. cbn. reflexivity. Qed.
Lemma c50_ps cdf pdf p t X mus stds mts sts y xi k :
  predicts (Single p) X mus stds -> predicts (Single t) X mts sts ->
  length mus = length stds -> length mts = length sts -> length mus = length mts ->
  (forall f, In f ["EI"; "PI"]%string -> exists vs ws,
     gaussian_acquisition Rops cdf pdf X (Single p) (Some y) f xi k false = Ok (vs, None) /\
     gaussian_acquisition Rops cdf pdf X (Multi p t) (Some y) (f ++ "ps") xi k false = Ok (ws, None) /\
     length ws = length mus /\
     forall i mt st v w, nth_error mts i = Some mt -> nth_error sts i = Some st -> nth_error vs i = Some v ->
       nth_error ws i = Some w -> 0 < st -> exists e, expectation mt st (fun t => exp (- t)) e /\ w = v * e).
Proof.
  intros P1 P2 L1 L2 L3. destruct P2 as (r & E & D & <- & <-).
  assert (G : forall one gr, exists vs ws,
     (o <- gaussian_imp Rops one gr (Single p) X (Some y) match xi with Some x => x | None => default_xi Rops end false ;;
      Ok (map (neg Rops) (fst o), match snd o with Some g => Some (map (neg Rops) g) | None => None end)) = Ok (vs, None) /\
     (o <- (o <- gaussian_imp Rops one gr (Single p) X (Some y) match xi with Some x => x | None => default_xi Rops end false ;;
      Ok (map (neg Rops) (fst o), match snd o with Some g => Some (map (neg Rops) g) | None => None end)) ;;
      per_second Rops (Single t) X false o) = Ok (ws, None) /\ length ws = length mus /\
     forall i mt st v w, nth_error (p_mu r) i = Some mt -> nth_error (p_std r) i = Some st -> nth_error vs i = Some v ->
       nth_error ws i = Some w -> 0 < st -> exists e, expectation mt st (fun t => exp (- t)) e /\ w = v * e).
  { intros one gr. rewrite (imp_values _ _ _ _ _ _ y _ P1). cbn [bind fst snd]. unfold per_second. rewrite E. cbn [bind fst snd].
    do 2 eexists. split; [reflexivity|]. split; [reflexivity|].
    set (vs := map2 _ mus stds). assert (Lv : length vs = length mus) by (now apply map2_len).
    split.
    { rewrite map2_len; rewrite map_length; [exact Lv|]. rewrite map2_len; congruence. }
    intros i mt st v w Hm Hs Hv Hw P. exists (exp (- mt + / 2 * (st * st))). split; [now apply exp_expectation|].
    rewrite (map2_nth _ _ _ _ _ _ Hv (map2_nth _ _ _ _ _ _ Hm Hs)) in Hw.
    assert (Q : w = nmul Rops v (inv_time Rops mt st)) by congruence. now rewrite Q, inv_time_R. }
  intros f [<-|[<-|[]]]; unfold gaussian_acquisition; cbn [append]; unfold gaussian_ei, gaussian_pi.
  - change (ends_with_ps "EIps") with true. change (ends_with_ps "EI") with false. cbn [bind String.eqb Ascii.eqb Bool.eqb]. apply G.
  - change (ends_with_ps "PIps") with true. change (ends_with_ps "PI") with false. cbn [bind String.eqb Ascii.eqb Bool.eqb]. apply G.
Qed.

(** ** Gradients *)
Lemma put_same : forall x i a, nth_error x i = Some a -> put x i a = x.
Proof. induction x as [|b x IH]; intros [|i] a H; try discriminate; cbn in *; [now injection H as ->|now rewrite IH]. Qed.
Definition value_of (r : res (@acq_out R)) : R := match r with Ok ([v], _) => v | _ => 0 end.

Section Gradients.
  Context (cdf pdf : R -> R) (HN : std_normal cdf pdf).
  Context (m s : list R -> R) (gm gs : list R -> list R) (x : list R).
  Context (Hm : gradient m x (gm x)) (Hs : gradient s x (gs x)).

  (** The gradient of a function of mean and deviation. *)
  Lemma grad_of f df : (forall i a dm ds, nth_error x i = Some a ->
       is_derive (fun t => m (put x i t)) a dm -> is_derive (fun t => s (put x i t)) a ds ->
       is_derive (fun t => f (put x i t)) a (df dm ds)) ->
    gradient f x (map2 df (gm x) (gs x)).
  Proof.
    intro H. destruct Hm as [Lm Dm], Hs as [Ls Ds]. split; [rewrite map2_len; congruence|].
    intros i a d Ha Hd. apply map2_nth_inv in Hd. destruct Hd as (dm & ds & E1 & E2 & ->). apply H; auto.
  Qed.
  Lemma locally_pos i a ds : nth_error x i = Some a -> 0 < s x -> is_derive (fun t => s (put x i t)) a ds ->
    locally a (fun t => 0 < s (put x i t)).
  Proof.
    intros Ha P D. assert (C : continuous (fun t => s (put x i t)) a) by (apply ed_cont; now exists ds).
    apply (C (fun v => 0 < v)). rewrite (put_same _ _ _ Ha). exact (open_gt 0 (s x) P).
  Qed.
  Lemma d_loc (f g : R -> R) (a d : R) : locally a (fun t => g t = f t) -> is_derive g a d -> is_derive f a d.
  Proof. intros H D. now apply (is_derive_ext_loc g f). Qed.

  Lemma lcb_gradient k : gradient (fun x => lcb_one Rops k (m x) (s x)) x (map2 (lcb_one Rops k) (gm x) (gs x)).
  Proof.
    apply grad_of. intros i a dm ds Ha Dm Ds. destruct k as [k|]; unfold lcb_one.
    - cbn. apply d_minus; [exact Dm|now apply d_scal].
    - eapply d_ext; [intro t; symmetry; apply neg_R|]. rewrite neg_R.
      exact (is_derive_opp _ _ _ Ds).
  Qed.

  Context (P : 0 < s x) (y xi : R).
  Lemma pi_gradient : gradient (fun x => pi_one Rops cdf y xi (m x) (s x)) x
    (map2 (pi_grad Rops pdf y xi (m x) (s x)) (gm x) (gs x)).
  Proof.
    apply grad_of. intros i a dm ds Ha Dm Ds.
    apply d_loc with (fun t => Phi ((y - xi - m (put x i t)) / s (put x i t))).
    { apply (filter_imp (fun t => 0 < s (put x i t))); [|now apply (locally_pos i a ds)].
      intros t Ht. symmetry. now apply (pi_one_R cdf pdf HN). }
    pose proof (put_same _ _ _ Ha) as E.
    assert (D1 : is_derive (fun t => y - xi - m (put x i t)) a (- dm)) by (eapply d_eq; [apply d_minus; [apply d_const|exact Dm]|ring]).
    eapply d_eq; [apply Phi_comp, d_div; [exact D1|exact Ds|cbn beta; rewrite E; lra]|]. cbn beta. rewrite E.
    unfold pi_grad, improve_grad, improve. rewrite neg_R. cbn. destruct (std_normal_unique _ _ HN) as [_ ->]. reflexivity.
  Qed.
  Lemma ei_gradient : gradient (fun x => ei_one Rops cdf pdf y xi (m x) (s x)) x
    (map2 (ei_grad Rops cdf pdf y xi (m x) (s x)) (gm x) (gs x)).
  Proof.
    apply grad_of. intros i a dm ds Ha Dm Ds.
    apply d_loc with (fun t => EI (y - xi) (m (put x i t)) (s (put x i t))).
    { apply (filter_imp (fun t => 0 < s (put x i t))); [|now apply (locally_pos i a ds)].
      intros t Ht. symmetry. now apply (ei_one_R cdf pdf HN). }
    pose proof (put_same _ _ _ Ha) as E.
    eapply d_eq; [apply EI_curve; [exact Dm|exact Ds|cbn beta; rewrite E; exact P]|]. cbn beta. rewrite E.
    unfold ei_grad, improve_grad, improve. rewrite !neg_R. cbn. destruct (std_normal_unique _ _ HN) as [-> ->].
    field. lra.
  Qed.
End Gradients.

Lemma gradient_ext f g x d : (forall x', f x' = g x') -> gradient f x d -> gradient g x d.
Proof. intros E [L H]. split; [exact L|]. intros i a v Ha Hv. eapply d_ext; [intro t; apply E|now apply H]. Qed.
Lemma gradient_neg f x d : gradient f x d -> gradient (fun x => neg Rops (f x)) x (map (neg Rops) d).
Proof.
  intros [L H]. split; [now rewrite map_length|]. intros i a v Ha Hv. rewrite nth_error_map in Hv.
  destruct (nth_error d i) as [w|] eqn:E; [|discriminate]. assert (Q : v = neg Rops w) by (cbn [option_map] in Hv; congruence). rewrite Q, neg_R.
  eapply d_ext; [intro t; symmetry; apply neg_R|]. exact (is_derive_opp _ _ _ (H i a w Ha E)).
Qed.

Section C51.
  Context (cdf pdf : R -> R) (HN : std_normal cdf pdf).
  Context (m s : list R -> R) (gm gs : list R -> list R) (x : list R).
  Context (Hm : gradient m x (gm x)) (Hs : gradient s x (gs x)).
  Let acq (f : string) (mo : acq_model) y xi k x grad := gaussian_acquisition_1D Rops cdf pdf x mo y f xi k grad.

  Lemma c51_lcb y xi k : exists v g, acq "LCB" (Single (regressor m s gm gs)) y xi k x true = Ok ([v], Some g) /\
    gradient (fun x => value_of (acq "LCB" (Single (regressor m s gm gs)) y xi k x false)) x g.
  Proof.
    unfold acq, gaussian_acquisition_1D, gaussian_acquisition. change (ends_with_ps "LCB") with false. cbn [bind].
    change (("LCB" =? "LCB")%string) with true. cbv iota. unfold gaussian_lcb, predict, regressor. cbn [bind p_mu p_std p_mu_grad p_std_grad map2 combine map fst snd].
    do 2 eexists. split; [reflexivity|].
    eapply gradient_ext; [|apply (lcb_gradient m s gm gs x Hm Hs)]. intro x'. reflexivity.
  Qed.
  Lemma imp_grad one gr y xi : 0 < s x ->
    gaussian_imp Rops one gr (Single (regressor m s gm gs)) [x] (Some y) xi true =
    Ok ([one y xi (m x) (s x)], Some (map2 (gr y xi (m x) (s x)) (gm x) (gs x))).
  Proof.
    intro P. unfold gaussian_imp, predict, regressor. cbn [bind p_1d p_mu p_std p_mu_grad p_std_grad negb].
    assert (E : nltb Rops (nofZ Rops 0) (s x) = true) by now apply Rltb_spec. rewrite E. reflexivity.
  Qed.
  Lemma imp_value one gr y xi x' : gaussian_imp Rops one gr (Single (regressor m s gm gs)) [x'] (Some y) xi false =
    Ok ([one y xi (m x') (s x')], None).
  Proof. reflexivity. Qed.
  Lemma c51_ei y xi k : 0 < s x -> exists v g, acq "EI" (Single (regressor m s gm gs)) (Some y) xi k x true = Ok ([v], Some g) /\
    gradient (fun x => value_of (acq "EI" (Single (regressor m s gm gs)) (Some y) xi k x false)) x g.
  Proof.
    intro P. unfold acq, gaussian_acquisition_1D, gaussian_acquisition. change (ends_with_ps "EI") with false. cbn [bind].
    cbn [String.eqb Ascii.eqb Bool.eqb]. unfold gaussian_ei. rewrite imp_grad by exact P. cbn [bind fst snd].
    do 2 eexists. split; [reflexivity|].
    eapply gradient_ext; [|apply gradient_neg, (ei_gradient cdf pdf HN m s gm gs x Hm Hs P)]. intro x'.
    rewrite imp_value. reflexivity.
  Qed.
  Lemma c51_pi y xi k : 0 < s x -> exists v g, acq "PI" (Single (regressor m s gm gs)) (Some y) xi k x true = Ok ([v], Some g) /\
    gradient (fun x => value_of (acq "PI" (Single (regressor m s gm gs)) (Some y) xi k x false)) x g.
  Proof.
    intro P. unfold acq, gaussian_acquisition_1D, gaussian_acquisition. change (ends_with_ps "PI") with false. cbn [bind].
    cbn [String.eqb Ascii.eqb Bool.eqb]. unfold gaussian_pi. rewrite imp_grad by exact P. cbn [bind fst snd].
    do 2 eexists. split; [reflexivity|].
    eapply gradient_ext; [|apply gradient_neg, (pi_gradient cdf pdf HN m s gm gs x Hm Hs P)]. intro x'.
    rewrite imp_value. reflexivity.
  Qed.

  Context (mt st : list R -> R) (gmt gst : list R -> list R).
  Context (Hmt : gradient mt x (gmt x)) (Hst : gradient st x (gst x)).
  Lemma per_second_gradient f g : gradient f x g ->
    gradient (fun x => f x * inv_time Rops (mt x) (st x)) x
      (map2 (fun g d => nadd Rops (nmul Rops g (inv_time Rops (mt x) (st x))) (nmul Rops (nmul Rops (f x) (inv_time Rops (mt x) (st x))) d)) g
         (map2 (fun mg sg => nadd Rops (neg Rops mg) (nmul Rops (st x) sg)) (gmt x) (gst x))).
  Proof.
    intros [Lf Df]. destruct Hmt as [Lm Dm], Hst as [Ls Ds]. split; [rewrite map2_len; [exact Lf|rewrite map2_len; congruence]|].
    intros i a d Ha Hd. apply map2_nth_inv in Hd. destruct Hd as (g1 & d1 & E1 & E2 & ->).
    apply map2_nth_inv in E2. destruct E2 as (dm & ds & E2 & E3 & ->).
    specialize (Df i a g1 Ha E1). specialize (Dm i a dm Ha E2). specialize (Ds i a ds Ha E3).
    pose proof (put_same _ _ _ Ha) as E.
    assert (De : is_derive (fun t => exp (- mt (put x i t) + / 2 * (st (put x i t) * st (put x i t)))) a
      ((- dm + st x * ds) * exp (- mt x + / 2 * (st x * st x)))).
    { assert (D1 : is_derive (fun t => - mt (put x i t) + / 2 * (st (put x i t) * st (put x i t))) a (- dm + st x * ds)).
      { eapply d_eq; [apply d_plus; [exact (is_derive_opp _ _ _ Dm)|apply d_scal, d_mult; exact Ds]|]. cbn beta. rewrite E. unfold opp. cbn. field. }
      eapply d_eq; [exact (is_derive_comp exp _ a _ _ (is_derive_exp _) D1)|]. cbn beta. rewrite E. reflexivity. }
    apply d_ext with (fun t => f (put x i t) * exp (- mt (put x i t) + / 2 * (st (put x i t) * st (put x i t)))).
    { intro t. now rewrite inv_time_R. }
    eapply d_eq; [apply d_mult; [exact Df|exact De]|].
    cbn beta. rewrite E, !inv_time_R, neg_R. cbn. ring.
  Qed.
  Lemma c51_eips y xi k : 0 < s x ->
    exists v g, acq "EIps" (Multi (regressor m s gm gs) (regressor mt st gmt gst)) (Some y) xi k x true = Ok ([v], Some g) /\
    gradient (fun x => value_of (acq "EIps" (Multi (regressor m s gm gs) (regressor mt st gmt gst)) (Some y) xi k x false)) x g.
  Proof.
    intro P. unfold acq, gaussian_acquisition_1D, gaussian_acquisition. change (ends_with_ps "EIps") with true. cbn [bind].
    cbn [String.eqb Ascii.eqb Bool.eqb]. unfold gaussian_ei. rewrite imp_grad by exact P. cbn [bind fst snd].
    unfold per_second at 1. unfold predict at 1. unfold regressor at 1. cbn [bind fst snd p_mu p_std p_mu_grad p_std_grad map2 combine map].
    do 2 eexists. split; [reflexivity|].
    eapply gradient_ext; [|exact (per_second_gradient _ _ (gradient_neg _ _ _ (ei_gradient cdf pdf HN m s gm gs x Hm Hs P y _)))]. intro x'.
    rewrite imp_value. reflexivity.
  Qed.
  Lemma c51_pips y xi k : 0 < s x ->
    exists v g, acq "PIps" (Multi (regressor m s gm gs) (regressor mt st gmt gst)) (Some y) xi k x true = Ok ([v], Some g) /\
    gradient (fun x => value_of (acq "PIps" (Multi (regressor m s gm gs) (regressor mt st gmt gst)) (Some y) xi k x false)) x g.
  Proof.
    intro P. unfold acq, gaussian_acquisition_1D, gaussian_acquisition. change (ends_with_ps "PIps") with true. cbn [bind].
    cbn [String.eqb Ascii.eqb Bool.eqb]. unfold gaussian_pi. rewrite imp_grad by exact P. cbn [bind fst snd].
    unfold per_second at 1. unfold predict at 1. unfold regressor at 1. cbn [bind fst snd p_mu p_std p_mu_grad p_std_grad map2 combine map].
    do 2 eexists. split; [reflexivity|].
    eapply gradient_ext; [|exact (per_second_gradient _ _ (gradient_neg _ _ _ (pi_gradient cdf pdf HN m s gm gs x Hm Hs P y _)))]. intro x'.
    rewrite imp_value. reflexivity.
  Qed.
End C51.
