(** C103: when ask warns. *)
From Coq Require Import String List ZArith Bool Reals Lra Lia.
From Flocq Require Import Core IEEE754.BinarySingleNaN.
From Verif Require Import Base BaseLemmas Num NumLaws Values Dimension Space Optimizer SpaceSpec MetricLemmas RealSpace OptSpec OptLemmas CampaignSpec Campaign MetricSpec FloatMetric Warn WarnSpec.
Import ListNotations.
Open Scope R_scope.
Open Scope list_scope.
Set Implicit Arguments.

Section Min.
  Context {N : Type} (O : numops N) (OL : order_laws O).
  Lemma min_fold l : forall a, nleb O a a = true -> Forall (fun x => nleb O x x = true) l ->
    let m := fold_left (fun m x => if nltb O x m then x else m) l a in In m (a :: l) /\ Forall (fun x => nleb O m x = true) (a :: l).
  Proof.
    induction l as [|x l IH]; intros a Ha F; cbn [fold_left]; [split; [now left|now constructor]|]. inversion F as [|? ? Hx F']; subst.
    destruct (nltb O x a) eqn:E.
    - destruct (IH x Hx F') as (I & L). split; [now right|]. constructor; [|exact L]. inversion L; subst. apply (ol_lt OL) in E. destruct E as (_ & _ & E).
      eapply (ol_trans OL); [eassumption|]. destruct (ol_total OL _ _ Hx Ha) as [|Q]; [assumption|congruence].
    - destruct (IH a Ha F') as (I & L). split; [destruct I as [I|I]; [now left|right; now right]|]. inversion L as [|? ? La Ll]; subst. constructor; [exact La|]. constructor; [|exact Ll].
      eapply (ol_trans OL); [exact La|]. destruct (ol_total OL _ _ Ha Hx) as [|Q]; [assumption|]. destruct (nleb O a x) eqn:E'; [reflexivity|].
      assert (nltb O x a = true) by now apply (ol_lt OL). congruence.
  Qed.
  (** Where the absolute value of each distance is the distance, the warning is about the existence of a close one *)
  Lemma min_close l m : (forall x, In x l -> nleb O x x = true /\ forall e, nleb O (nabs O x) e = nleb O x e) -> py_min O l = Some m ->
    (nleb O (nabs O m) (neps O) = true <-> exists x, In x l /\ nleb O x (neps O) = true).
  Proof.
    destruct l as [|a l]; [discriminate|]. intros H E. injection E as <-. destruct (@min_fold l a) as (I & L); [apply H; now left|apply Forall_forall; intros x Hx; apply H; now right|].
    set (m := fold_left _ l a) in *. destruct (H m I) as (Hm & Ha). rewrite Ha. split; [intro Q; eauto|]. intros (x & Ix & Hx). rewrite Forall_forall in L. exact (ol_trans OL _ _ _ (L x Ix) Hx).
  Qed.
End Min.
Section Asked.
  Context {N RNG M : Type} (O : numops N) (OL : order_laws O) (G : rng_ops N RNG).
  Lemma warns_iff (o o' : opt N RNG M) p P : ask1 O G o = (o', Ok p) -> (o_left o <= 0)%Z -> c_est (o_cfg o) <> None -> o_Xi o = map (@X1 N) P ->
    (forall q d, In q P -> space_distance O (c_dims (o_cfg o)) p q = Ok d -> nleb O d d = true /\ forall e, nleb O (nabs O d) e = nleb O d e) ->
    o_next o = Some p /\ (ask_warns O o = true <-> exists q d, In q P /\ space_distance O (c_dims (o_cfg o)) p q = Ok d /\ nleb O d (neps O) = true).
  Proof.
    intros E Hl He EP H. unfold ask1, ask_warns, andthen, get, lift, ret in *.
    assert (B : (0 <? o_left o)%Z || negb (has_est o) = false) by (unfold has_est; destruct (c_est (o_cfg o)); [|easy]; rewrite orb_false_r; now apply Z.ltb_ge).
    rewrite B in *. destruct (o_models o) as [|md ms]; [discriminate|]. destruct (o_next o) as [p'|]; [|discriminate].
    destruct (mapM _ (o_Xi o)) as [ds|] eqn:Ed; [|discriminate]. destruct ds as [|d0 ds0]; [discriminate|]. injection E as <- <-. split; [reflexivity|].
    set (ds := d0 :: ds0) in *. assert (Hin : forall d, In d ds <-> exists q, In q P /\ space_distance O (c_dims (o_cfg o)) p' q = Ok d).
    { rewrite EP in Ed. clear - Ed. clearbody ds. revert ds Ed. induction P as [|q P IH]; intros ds Ed; cbn [map mapM plain bind] in Ed; [injection Ed as <-; split; [easy|now intros (q & [] & _)]|].
      destruct (space_distance O (c_dims (o_cfg o)) p' q) as [d1|] eqn:E1; [|discriminate]. cbn [bind] in Ed. destruct (mapM _ (map (@X1 N) P)) as [k|] eqn:Ek; [|discriminate]. cbn [bind] in Ed. injection Ed as <-.
      intro d. specialize (IH k eq_refl d). cbn [In]. rewrite IH. split.
      - intros [<-|(q' & I & E)]; [exists q; auto|exists q'; auto].
      - intros (q' & [<-|I] & E); [left; congruence|right; eauto]. }
    destruct (py_min O ds) as [m|] eqn:Em; [|discriminate]. rewrite (min_close OL ds) with (2 := Em).
    - split; [intros (d & I & L); apply Hin in I; destruct I as (q & I & E); eauto|intros (q & d & I & E & L); exists d; split; [apply Hin; eauto|exact L]].
    - intros x I. apply Hin in I. destruct I as (q & I & E). eauto.
  Qed.
End Asked.

(** ** Over the reals *)
Lemma dim_off d v w : wf_dim Rops d -> in_dim Rops d v -> in_dim Rops d w -> exists g, dim_distance Rops d v w = Ok g /\ off d v w g /\ 0 <= g.
Proof.
  intros Hw Hv Hv'. destruct (gap_ex Hw Hv Hv') as (g & Eg & _ & Pg & Zg). unfold gap in Eg. exists g. split; [exact Eg|]. split; [|exact Pg].
  pose proof (in_contains Hw Hv) as C. pose proof (in_contains Hw Hv') as C'. unfold dim_distance in Eg. rewrite C, C' in Eg. cbn [bind] in Eg.
  inversion Hv; subst; inversion Hv'; subst; cbn [to_num] in Eg; try (injection Eg as <-; constructor).
  destruct (py_eqb Rops v w) eqn:E; injection Eg as <-.
  - assert (v = w) by (apply Zg; reflexivity). subst w. apply off_same.
  - apply off_other. intros Q. apply Zg in Q. cbn in Q. lra.
Qed.
Lemma space_away dims : Forall (wf_dim Rops) dims -> forall p q, in_space Rops dims p -> in_space Rops dims q -> exists D, space_distance Rops dims p q = Ok D /\ away dims p q D /\ 0 <= D.
Proof.
  induction 1 as [|d dims Hd _ IH]; intros p q Hp Hq; inversion Hp as [|? v ? a Hv Ha]; subst; inversion Hq as [|? w ? b Hw Hb]; subst.
  - exists 0. split; [reflexivity|]. split; [constructor|lra].
  - destruct (dim_off Hd Hv Hw) as (g & Eg & Og & Pg). destruct (IH a b Ha Hb) as (D & ED & OD & PD). exists (g + D). rewrite distance_cons, Eg. cbn [bind]. rewrite ED. split; [reflexivity|]. split; [now constructor|lra].
Qed.
Lemma off_fun d v w g g' : off d v w g -> off d v w g' -> g = g'.
Proof. intros H H'. inversion H; subst; inversion H'; subst; congruence. Qed.
Lemma away_fun dims p q D D' : away dims p q D -> away dims p q D' -> D = D'.
Proof. intro H. revert D'. induction H as [|d ds v a w b g t Ho _ IH]; intros D' H'; inversion H'; subst; [reflexivity|]. f_equal; [eapply off_fun; eassumption|now apply IH]. Qed.
Lemma away_discrete dims p q D : Forall discrete dims -> away dims p q D -> D < 1 -> p = q /\ D = 0.
Proof.
  intros F H. revert F. induction H as [|d ds v a w b g t Ho Ha IH]; intros F L; [auto|]. inversion F as [|? ? Fd F']; subst.
  assert (Pt : 0 <= t). { clear - Ha. induction Ha as [|d ds v a w b g t Ho _ IH]; [lra|]. assert (0 <= g); [|lra]. inversion Ho; subst; [apply Rabs_pos|apply IZR_le; apply Z.abs_nonneg|lra|lra]. }
  assert (Q : 0 <= g /\ (g < 1 -> v = w /\ g = 0)).
  { inversion Ho; subst; [now elim Fd| |split; auto; lra|split; [lra|intro; lra]]. split; [apply IZR_le; lia|]. intro L'. apply lt_IZR in L'. assert (z = w0) by lia. subst. now rewrite Z.sub_diag. }
  destruct Q as (Pg & Q). destruct (IH F') as (-> & ->); [lra|]. destruct Q as (-> & ->); [lra|]. split; [reflexivity|lra].
Qed.

Section Reals.
  Context {RNG M : Type} (G : rng_ops R RNG) (W : world R M) (need : list (yval R) -> Prop).
  Context (Gok : rng_ok Rops G) (Nmono : forall l l', need l -> need (l ++ l')).
  Lemma c103_near (o o' : opt R RNG M) p : campaign G W need o -> ask1 Rops G o = (o', Ok p) -> (o_left o <= 0)%Z -> c_est (o_cfg o) <> None ->
    (ask_warns Rops o = true <-> exists q D, In (X1 q) (o_Xi o) /\ away (c_dims (o_cfg o)) p q D /\ D <= / 100000000).
  Proof.
    intros C E Hl He. pose proof (campaign_sound Gok Nmono C) as S. destruct (s_x S) as (P & EP & FP & _). rewrite Forall_forall in FP.
    assert (B : Forall (wf_dim Rops) (c_dims (o_cfg o))) by (destruct (s_cfg S) as (_ & Hw & _); eapply Forall_impl; [|exact (work_bounded Hw)]; exact bounded_wf).
    assert (Ep : o_next o = Some p).
    { unfold ask1, andthen, get, lift, ret in E. assert (B' : (0 <? o_left o)%Z || negb (has_est o) = false) by (unfold has_est; destruct (c_est (o_cfg o)); [|easy]; rewrite orb_false_r; now apply Z.ltb_ge). rewrite B' in E.
      destruct (o_models o); [discriminate|]. destruct (o_next o); [|discriminate]. destruct (mapM _ _) as [[|]|] in E; congruence. }
    destruct (s_next S Ep) as (Ip & _).
    destruct (@warns_iff R RNG M Rops Rops_order G o o' p P E Hl He EP) as (_ & Q).
    { intros q d Iq Ed. destruct (space_away B Ip (FP q Iq)) as (D & ED & _ & PD). rewrite Ed in ED. injection ED as <-. split; [apply Rleb_spec; lra|]. intro e. cbn. now rewrite Rabs_pos_eq. }
    rewrite Q. split.
    - intros (q & d & Iq & Ed & L). destruct (space_away B Ip (FP q Iq)) as (D & ED & AD & PD). rewrite Ed in ED. injection ED as <-. exists q, d. rewrite EP. split; [now apply in_map|]. split; [exact AD|]. now apply Rleb_spec in L.
    - intros (q & D & Iq & AD & L). rewrite EP in Iq. apply in_map_iff in Iq. destruct Iq as (q' & E' & Iq). injection E' as ->. destruct (space_away B Ip (FP q Iq)) as (D' & ED & AD' & _).
      rewrite (away_fun AD' AD) in ED. exists q, D. split; [exact Iq|]. split; [exact ED|]. now apply Rleb_spec.
  Qed.
  Lemma away_refl dims p : in_space Rops dims p -> away dims p p 0.
  Proof.
    induction 1 as [|d v dims p Hd _ IH]; [constructor|]. replace 0 with (0 + 0) by lra. constructor; [|exact IH]. inversion Hd; subst; [|replace 0 with (IZR (Z.abs (z - z))) by now rewrite Z.sub_diag|constructor].
    - replace 0 with (Rabs (x - x)) by (rewrite Rminus_diag_eq by reflexivity; apply Rabs_R0). constructor.
    - constructor.
  Qed.
  Lemma c103_again (o o' : opt R RNG M) p : campaign G W need o -> ask1 Rops G o = (o', Ok p) -> (o_left o <= 0)%Z -> c_est (o_cfg o) <> None -> In (X1 p) (o_Xi o) -> ask_warns Rops o = true.
  Proof.
    intros C E Hl He I. apply (c103_near C E Hl He). exists p, 0. split; [exact I|]. split; [|lra]. apply away_refl.
    destruct (s_x (campaign_sound Gok Nmono C)) as (P & EP & FP & _). rewrite EP in I. apply in_map_iff in I. destruct I as (q & Eq & I). injection Eq as ->. rewrite Forall_forall in FP. auto.
  Qed.
  Lemma c103_discrete (o o' : opt R RNG M) p : campaign G W need o -> ask1 Rops G o = (o', Ok p) -> (o_left o <= 0)%Z -> c_est (o_cfg o) <> None -> Forall discrete (c_dims (o_cfg o)) ->
    (ask_warns Rops o = true <-> In (X1 p) (o_Xi o)).
  Proof.
    intros C E Hl He F. split; [|now apply c103_again with (1 := C) (2 := E)]. intro H. apply (c103_near C E Hl He) in H. destruct H as (q & D & I & A & L).
    destruct (away_discrete F A) as (-> & _); [lra|exact I].
  Qed.
End Reals.

(** ** In float64 *)
Lemma pos_num D : fleb (fofZ 0) D = true -> fleb D D = true /\ forall e, fleb (fabs D) e = fleb D e.
Proof.
  intros H. apply pos_leb in H. destruct H as (Hn & Hp). split; [apply fleb_spec; repeat split; [exact Hn|exact Hn|lra]|]. intro e.
  assert (Na : is_nan (fabs D) = false) by (unfold fabs; destruct D; easy).
  assert (Ea : fE (fabs D) = fE D).
  { unfold fabs. destruct D as [s|s| |s m ex b]; try reflexivity.
    - destruct s; [|reflexivity]. exfalso. unfold fE in Hp. pose proof (bpow_gt_0 radix2 1024). lra.
    - destruct s; [|reflexivity]. exfalso. cbn [fE] in Hp. unfold B2R in Hp. assert (F2R (Float radix2 (cond_Zopp true (Zpos m)) ex) < 0) by now apply F2R_lt_0. lra. }
  destruct (is_nan e) eqn:En; [|rewrite !fleb_E by assumption; now rewrite Ea].
  destruct (fleb (fabs D) e) eqn:Q; [apply fleb_nan in Q; destruct Q; congruence|]. destruct (fleb D e) eqn:Q'; [apply fleb_nan in Q'; destruct Q'; congruence|reflexivity].
Qed.
Lemma feps_range : fE feps < / 2 /\ 0 <= fE feps /\ is_nan feps = false /\ is_finite feps = true.
Proof.
  assert (F : is_finite feps = true) by now vm_compute. assert (N : is_nan feps = false) by now vm_compute. split; [|split; [|split; [exact N|exact F]]].
  - assert (H : fltb feps fhalf = true) by now vm_compute. apply fltb_spec in H. destruct H as (_ & _ & H). assert (E : fE fhalf = / 2) by (change (fE fhalf) with (B2R fhalf); unfold B2R, F2R; cbn; lra). lra.
  - assert (H : fleb (fofZ 0) feps = true) by now vm_compute. apply pos_leb in H. apply H.
Qed.
Lemma bernoulli u n : 0 <= u <= 1 -> 1 - INR n * u <= (1 - u) ^ n.
Proof.
  intros Hu. induction n as [|n IH]; [cbn; lra|]. rewrite S_INR. cbn [pow]. assert (0 <= INR n * u) by (apply Rmult_le_pos; [apply pos_INR|lra]).
  apply Rle_trans with ((1 - u) * (1 - INR n * u)); [|apply Rmult_le_compat_l; lra]. assert (0 <= u * (INR n * u)) by (apply Rmult_le_pos; lra). lra.
Qed.
Section Floats.
  Context (L : libm) {RNG M : Type} (G : rng_ops float RNG).
  Lemma apart_discrete dims p q E : Forall discrete dims -> exactly_apart dims p q E -> E = 0 \/ 1 <= E.
  Proof.
    intros F H. revert F. induction H as [|d ds v a w b g t Ho _ IH]; intros F; [now left|]. inversion F as [|? ? Fd F']; subst. specialize (IH F').
    assert (Q : g = 0 \/ 1 <= g).
    { inversion Ho; subst; [now elim Fd| |now left|right; lra]. destruct (Z.eq_dec z w0) as [->|Q]; [left; now rewrite Z.sub_diag|right; apply IZR_le; lia]. }
    destruct IH, Q; [left; lra|right; lra|right; lra|right; lra].
  Qed.
  Lemma c103_float (o o' : opt float RNG M) p P : ask1 (F64 L) G o = (o', Ok p) -> (o_left o <= 0)%Z -> c_est (o_cfg o) <> None -> o_Xi o = map (@X1 float) P ->
    Forall (wf_dim (F64 L)) (c_dims (o_cfg o)) -> Forall bounded (c_dims (o_cfg o)) -> Forall (in_space (F64 L) (c_dims (o_cfg o))) (p :: P) ->
    (forall q, In q P -> Forall2 same p q -> ask_warns (F64 L) o = true) /\
    (Forall discrete (c_dims (o_cfg o)) -> (Z.of_nat (length (c_dims (o_cfg o))) < 2 ^ 40)%Z -> ask_warns (F64 L) o = true -> exists q, In q P /\ Forall2 same p q).
  Proof.
    intros E Hl He EP Hw Hb F. inversion F as [|? ? Fp FP]; subst. rewrite Forall_forall in FP.
    destruct (@warns_iff float RNG M (F64 L) (F64_order L) G o o' p P E Hl He EP) as (_ & Q).
    { intros q d Iq Ed. destruct (@c08_float L (c_dims (o_cfg o)) p q Hw Hb Fp (FP q Iq)) as (D & X & ED & _ & PD & _). rewrite Ed in ED. injection ED as <-. exact (@pos_num d PD). }
    destruct feps_range as (E1 & E2 & E3 & E4). split.
    - intros q Iq Hs. apply Q. destruct (@c08_float L (c_dims (o_cfg o)) p q Hw Hb Fp (FP q Iq)) as (D & X & ED & _ & PD & ZD & _). exists q, D. split; [exact Iq|]. split; [exact ED|].
      apply ZD in Hs. apply pos_leb in PD. destruct PD as (Nd & _). apply (zero_leb _ Nd) in Hs. cbn [nleb neps F64]. apply fleb_spec. split; [exact Nd|]. split; [exact E3|lra].
    - intros Fd Ln H. apply Q in H. destruct H as (q & D & Iq & ED & LD). exists q. split; [exact Iq|].
      destruct (@c08_float L (c_dims (o_cfg o)) p q Hw Hb Fp (FP q Iq)) as (D' & X & ED' & _ & PD & ZD & AX & BX). rewrite ED in ED'. injection ED' as <-. cbn [nleb neps F64] in LD. apply fleb_spec in LD. destruct LD as (Nd & _ & LD).
      apply pos_leb in PD. destruct PD as (_ & PD).
      assert (FD : is_finite D = true) by (apply fE_IZR_finite; [rewrite Rabs_pos_eq by exact PD; assert (1 <= IZR (2 ^ 53)) by (apply IZR_le; discriminate); lra|exact Nd]).
      specialize (BX FD). rewrite <- (fE_finite _ FD) in BX. apply ZD. apply (zero_leb _ Nd). destruct (apart_discrete Fd AX) as [->|HX]; [lra|]. exfalso.
      assert (U : 0 <= ulp2 <= 1) by (pose proof u_pos; lra). pose proof (@bernoulli ulp2 (S (length (c_dims (o_cfg o)))) U) as Bn.
      assert (K : INR (S (length (c_dims (o_cfg o)))) * ulp2 <= / 2).
      { rewrite INR_IZR_INZ. unfold ulp2. apply Rle_trans with (IZR (2 ^ 40) * / IZR (2 ^ 53)); [apply Rmult_le_compat_r; [left; apply Rinv_0_lt_compat, IZR_lt; reflexivity|apply IZR_le; lia]|].
        change (2 ^ 53)%Z with (2 ^ 40 * 2 ^ 13)%Z. rewrite mult_IZR, Rinv_mult_distr; [|apply IZR_neq; discriminate|apply IZR_neq; discriminate]. rewrite <- Rmult_assoc, Rinv_r, Rmult_1_l; [|apply IZR_neq; discriminate].
        apply Rinv_le_contravar; [lra|apply IZR_le; discriminate]. }
      assert (Pw : / 2 <= (1 - ulp2) ^ S (length (c_dims (o_cfg o)))) by lra.
      assert (/ 2 * 1 <= (1 - ulp2) ^ S (length (c_dims (o_cfg o))) * X) by (apply Rmult_le_compat; lra). lra.
  Qed.
End Floats.
