(** A campaign conducted as documented never raises (C83). *)
From Coq Require Import String List ZArith Bool Lia Reals Lra Permutation.
From Verif Require Import Base BaseLemmas Num Values Transformers Dimension Space Optimizer NumLaws NormLaws SpaceSpec
  DimLemmas CatLemmas RoundTrip SpaceLemmas RealLemmas MetricLemmas BoundLemmas OptSpec OptLemmas OptLemmas2 OptLemmas3 OptLemmas4 CampaignSpec RealSpace WarpLemmas.
Import ListNotations.
Open Scope list_scope.
Set Implicit Arguments.

Section Campaign.
  Context {RNG M : Type} (G : rng_ops R RNG) (W : world R M) (need : list (yval R) -> Prop).
  Notation state := (opt R RNG M).
  Notation dims o := (c_dims (o_cfg o)).
  Context (Gok : rng_ok Rops G) (Nmono : forall l l', need l -> need (l ++ l')).

  (** *** Running to an end *)
  Definition grown (o o' : state) : Prop := exists l, o_yi o' = o_yi o ++ l.
  Lemma grown_same (o o' : state) : o_yi o' = o_yi o -> grown o o'.
  Proof. intros E. exists []. now rewrite app_nil_r. Qed.
  Lemma grown_trans (o1 o2 o3 : state) : grown o1 o2 -> grown o2 o3 -> grown o1 o3.
  Proof. intros (l & E) (l' & E'). exists (l ++ l'). now rewrite E', E, app_assoc. Qed.
  Lemma grown_need (o o' : state) : grown o o' -> ~ need (o_yi o') -> ~ need (o_yi o).
  Proof. intros (l & E) N H. apply N. rewrite E. now apply Nmono. Qed.
  Definition runs {A} (m : state -> state * res A) (o : state) (Q : A -> state -> Prop) : Prop :=
    exists o' r, m o = (o', r) /\ grown o o' /\ match r with Ok a => Q a o' | Raise _ => ~ need (o_yi o') end.
  Lemma runs_ok {A} (m : state -> state * res A) (o o' : state) a (Q : A -> state -> Prop) : m o = (o', Ok a) -> o_yi o' = o_yi o -> Q a o' -> runs m o Q.
  Proof. intros E Y H. exists o', (Ok a). split; [exact E|]. split; [now apply grown_same|exact H]. Qed.
  Lemma runs_bind {A B} (m : op A) (k : A -> op B) (o : state) (Q1 : A -> state -> Prop) (Q : B -> state -> Prop) :
    runs m o Q1 -> (forall a o', Q1 a o' -> runs (k a) o' Q) -> runs (andthen m k) o Q.
  Proof.
    intros (o1 & [a|e] & E & L & H) K.
    - destruct (K _ _ H) as (o2 & b & E2 & L2 & H2). exists o2, b. split; [|split; [exact (grown_trans L L2)|exact H2]]. unfold andthen. now rewrite E.
    - exists o1, (Raise e). split; [|split; [exact L|exact H]]. unfold andthen. now rewrite E.
  Qed.
  Lemma runs_get {B} (k : state -> op B) (o : state) Q : runs (k o) o Q -> runs (andthen (@get _ _ _) k) o Q.
  Proof. intros H. exact H. Qed.
  Lemma runs_upd {B} f (k : unit -> op B) (o : state) Q : o_yi (f o) = o_yi o -> runs (k tt) (f o) Q -> runs (andthen (upd f) k) o Q.
  Proof. intros Y (o' & r & E & (l & L) & H). exists o', r. split; [exact E|]. split; [exists l; congruence|exact H]. Qed.
  Lemma runs_lift {A B} r (a : A) (k : A -> op B) (o : state) Q : r = Ok a -> runs (k a) o Q -> runs (andthen (lift r) k) o Q.
  Proof. intros -> H. exact H. Qed.
  Lemma runs_lift_or {A B} r (k : A -> op B) (o : state) Q : match r with Ok a => runs (k a) o Q | Raise _ => ~ need (o_yi o) end -> runs (andthen (lift r) k) o Q.
  Proof. destruct r as [a|e]; intros H; [exact H|]. exists o, (Raise e). split; [reflexivity|]. split; [now apply grown_same|exact H]. Qed.
  Lemma runs_impl {A} (m : op A) (o : state) (Q Q' : A -> state -> Prop) : runs m o Q -> (forall a o', Q a o' -> Q' a o') -> runs m o Q'.
  Proof. intros (o' & r & E & L & H) K. exists o', r. split; [exact E|]. split; [exact L|]. destruct r; auto. Qed.

  (** *** Numbers *)
  Lemma argmin_some (l : list R) : l <> [] -> exists i, np_argmin Rops l = Some i /\ i < length l.
  Proof.
    destruct l as [|x l]; [easy|]. intros _. eexists. split; [reflexivity|].
    assert (H : forall l b bi i, bi < i -> argmin_aux Rops b bi i l < i + length l).
    { clear. induction l as [|x l IH]; intros b bi i H; cbn [argmin_aux length]; [lia|]. destruct (nisnan Rops b); [lia|].
      destruct (nisnan Rops x || nltb Rops x b); (eapply Nat.lt_le_trans; [apply IH; lia|lia]). }
    specialize (H l x 0 1). cbn [length]. lia.
  Qed.
  Lemma argmax_some (l : list R) : l <> [] -> exists i, np_argmax Rops l = Some i /\ i < length l.
  Proof.
    destruct l as [|x l]; [easy|]. intros _. eexists. split; [reflexivity|].
    assert (H : forall l b bi i, bi < i -> argmax_aux Rops b bi i l < i + length l).
    { clear. induction l as [|x l IH]; intros b bi i H; cbn [argmax_aux length]; [lia|]. destruct (nisnan Rops b); [lia|].
      destruct (nisnan Rops x || nltb Rops b x); (eapply Nat.lt_le_trans; [apply IH; lia|lia]). }
    specialize (H l x 0 1). cbn [length]. lia.
  Qed.
  Lemma nth_of_some {A} (l : list A) i : i < length l -> exists x, nth_of l (Some i) = Ok x /\ In x l.
  Proof. intros H. cbn. destruct (nth_error l i) eqn:E; [|apply nth_error_None in E; lia]. eexists. split; [reflexivity|]. now apply nth_error_In in E. Qed.
  Lemma min_total l : l <> [] -> exists m, np_min Rops l = Ok m.
  Proof. intros H. destruct (argmin_some H) as (i & E & L). unfold np_min. rewrite E. destruct (nth_of_some l L) as (x & Ex & _). eauto. Qed.
  Lemma max_total l : l <> [] -> exists m, np_max Rops l = Ok m.
  Proof. intros H. destruct (argmax_some H) as (i & E & L). unfold np_max. rewrite E. destruct (nth_of_some l L) as (x & Ex & _). eauto. Qed.
  Lemma flat_some (l : list (yval R)) : l <> [] -> y_flat l <> [].
  Proof. destruct l as [|[] l]; easy. Qed.

  (** *** The invariant *)
  Record sound (o : state) : Prop := {
    s_cfg : sensible W need (o_cfg o);
    s_good : good Rops G W o;
    s_x : exists P, o_Xi o = map (@X1 R) P /\ Forall (in_space Rops (dims o)) P /\ length P = length (o_yi o);
    s_y : Forall (proper_obs (ps_of o)) (o_yi o);
    s_next : forall p, o_next o = Some p -> in_space Rops (dims o) p /\ model_phase o /\ o_yi o <> [];
    s_models : o_models o <> [] -> o_next o <> None /\ o_yi o <> [];
    s_gains : c_acq (o_cfg o) = AHedge -> length (o_gains o) = 3;
    s_xs : c_acq (o_cfg o) = AHedge -> forall xs, o_next_xs o = Some xs ->
           length xs = 3 /\ Forall (within (O := Rops) (space_tbounds Rops (dims o))) xs;
    s_init : forall l, o_init o = Some l -> length l = Z.to_nat (c_n0 (o_cfg o)) /\ Forall (in_space Rops (dims o)) l;
    s_cache : forall k X, In (k, X) (o_cache o) -> length X = Z.to_nat (fst k) /\ Forall (in_space Rops (dims o)) X }.

  Lemma work_bounded dims : Forall workable dims -> Forall boundedR dims.
  Proof. apply Forall_impl. now intros d []. Qed.

  Lemma plain_points P : mapM (@plain R) (map (@X1 R) P) = Ok P.
  Proof. induction P as [|p P IH]; [reflexivity|]. cbn [map mapM plain bind]. rewrite IH. reflexivity. Qed.

  Lemma pick_total c a est yopt X : sensible W need c -> proper_rows (c_dims c) X -> In a (cand_acqs (c_acq c)) ->
    forall fitted : M -> Prop, fitted est ->
      (forall X a yopt, proper_rows (c_dims c) X -> In a (cand_acqs (c_acq c)) -> exists v, w_acq W a est yopt X = Ok v /\ length v = length X) ->
      (c_lbfgs c = true -> forall a yopt r, In a (cand_acqs (c_acq c)) -> within (O := Rops) (space_tbounds Rops (c_dims c)) r ->
         exists r' v, w_lbfgs W a est yopt (space_tbounds Rops (c_dims c)) r = Ok (r', v) /\ within (O := Rops) (space_tbounds Rops (c_dims c)) r') ->
    exists r, pick Rops W c a est yopt X = Ok r /\ within (O := Rops) (space_tbounds Rops (c_dims c)) r.
  Proof.
    intros (Hd & Hw & Hn & Hr & Hq & _ & (_ & Hs & _)) HX Ha fitted _ Hacq Hlb. unfold pick.
    destruct (Hacq X a yopt HX Ha) as (v & Ev & Lv). rewrite Ev. cbn [bind]. pose proof HX as (HX0 & HXw). rewrite Forall_forall in HXw.
    assert (Hv : v <> []) by (intros ->; destruct X; easy).
    destruct (c_lbfgs c).
    - specialize (Hlb eq_refl). assert (Hk : no_nan Rops v) by (apply Forall_forall; intros x _; apply num_R).
      destruct (Hs v Hk) as (Pm & _).
      assert (A : exists x0, mapM (nth_row X) (firstn (c_restarts c) (w_argsort W v)) = Ok x0 /\ x0 <> [] /\ incl x0 X).
      { assert (Hi : forall i, In i (firstn (c_restarts c) (w_argsort W v)) -> i < length X).
        { intros i Hi. assert (Hi' : In i (w_argsort W v)) by (rewrite <- (firstn_skipn (c_restarts c) (w_argsort W v)); apply in_or_app; now left). clear Hi. rename Hi' into Hi. apply (Permutation_in _ Pm) in Hi. apply in_seq in Hi. lia. }
        assert (Hne : firstn (c_restarts c) (w_argsort W v) <> []).
        { apply Permutation_length in Pm. rewrite seq_length in Pm. destruct (w_argsort W v); [destruct v; easy|]. destruct (c_restarts c); easy. }
        destruct (firstn (c_restarts c) (w_argsort W v)) as [|i l]; [easy|]. clear Hne.
        assert (B : forall l, (forall i, In i l -> i < length X) -> exists x0, mapM (nth_row X) l = Ok x0 /\ length x0 = length l /\ incl x0 X).
        { clear. induction l as [|i l IH]; intros H; [exists []; repeat split; easy|]. destruct IH as (x0 & E & L & I); [intros; apply H; now right|].
          cbn [mapM]. unfold nth_row at 1. destruct (nth_error X i) as [r|] eqn:Er; [|apply nth_error_None in Er; specialize (H i (or_introl eq_refl)); lia].
          cbn [bind]. rewrite E. cbn [bind]. exists (r :: x0). split; [reflexivity|]. split; [cbn; lia|]. intros y [<-|Hy]; [now apply nth_error_In in Er|auto]. }
        destruct (B _ Hi) as (x0 & E & L & I). exists x0. split; [exact E|]. split; [|exact I]. intros ->. discriminate. }
      destruct A as (x0 & E0 & N0 & I0). rewrite E0. cbn [bind].
      assert (B : forall l, incl l X -> exists rs, mapM (w_lbfgs W a est yopt (space_tbounds Rops (c_dims c))) l = Ok rs /\ length rs = length l /\
                   Forall (fun r => within (O := Rops) (space_tbounds Rops (c_dims c)) (fst r)) rs).
      { induction l as [|x l IH]; intros Hi; [exists []; repeat split; constructor|]. destruct IH as (rs & E & L & F); [intros y Hy; apply Hi; now right|].
        destruct (Hlb a yopt x Ha) as (r' & w & Er & Wr); [apply HXw, Hi; now left|]. cbn [mapM]. rewrite Er. cbn [bind]. rewrite E. cbn [bind].
        exists ((r', w) :: rs). split; [reflexivity|]. split; [cbn; lia|]. constructor; [exact Wr|exact F]. }
      destruct (B x0 I0) as (rs & E & L & F). rewrite E. cbn [bind].
      destruct (@argmin_some (map snd rs)) as (i & Ei & Li); [destruct rs; [destruct x0; easy|easy]|]. rewrite Ei. rewrite map_length in Li.
      destruct (@nth_of_some _ (map fst rs) i) as (r & Er & Hin); [now rewrite map_length|]. exists r. split; [exact Er|].
      apply in_map_iff in Hin. destruct Hin as (rw & <- & Hin). rewrite Forall_forall in F. auto.
    - destruct (argmin_some Hv) as (i & Ei & Li). rewrite Ei. destruct (@nth_of_some _ X i) as (r & Er & Hin); [lia|]. exists r. split; [exact Er|]. auto.
  Qed.

  (** Clipping keeps a row within the bounds. *)
  Lemma clip_total bs r : within (O := Rops) bs r -> exists r', clip_row Rops bs r = Ok r' /\ within (O := Rops) bs r'.
  Proof.
    intros H. unfold clip_row. rewrite (Forall2_len H), Nat.eqb_refl.
    induction H as [|b v bs r (x & E & A & B) F (r' & Er & Wr)]; [exists []; split; [reflexivity|constructor]|].
    cbn [combine mapM fst snd]. unfold clip_val at 1. rewrite E. cbn [bind]. rewrite Er. cbn [bind]. eexists. split; [reflexivity|].
    constructor; [|exact Wr]. exists x. cbn [to_num]. apply le_R in A. apply le_R in B. rewrite ReachLemmas.clip_R by (split; assumption).
    split; [reflexivity|]. split; now apply le_R.
  Qed.

  (** *** Refitting *)
  Record ready (o : state) : Prop := {
    rd_cfg : sensible W need (o_cfg o);
    rd_x : exists P, o_Xi o = map (@X1 R) P /\ Forall (in_space Rops (dims o)) P /\ length P = length (o_yi o);
    rd_y : Forall (proper_obs (ps_of o)) (o_yi o);
    rd_some : o_yi o <> [];
    rd_gains : c_acq (o_cfg o) = AHedge -> length (o_gains o) = 3;
    rd_xs : c_acq (o_cfg o) = AHedge -> forall xs, o_next_xs o = Some xs ->
           length xs = 3 /\ Forall (within (O := Rops) (space_tbounds Rops (dims o))) xs }.

  Lemma fill_total est X (fitted : M -> Prop) : forall l (o : state) xs, sensible W need (o_cfg o) -> o_yi o <> [] -> proper_rows (dims o) X ->
      (forall a, In a l -> In a (cand_acqs (c_acq (o_cfg o)))) -> o_next_xs o = Some xs -> fitted est ->
      (forall X a yopt, proper_rows (dims o) X -> In a (cand_acqs (c_acq (o_cfg o))) -> exists v, w_acq W a est yopt X = Ok v /\ length v = length X) ->
      (c_lbfgs (o_cfg o) = true -> forall a yopt r, In a (cand_acqs (c_acq (o_cfg o))) -> within (O := Rops) (space_tbounds Rops (dims o)) r ->
         exists r' v, w_lbfgs W a est yopt (space_tbounds Rops (dims o)) r = Ok (r', v) /\ within (O := Rops) (space_tbounds Rops (dims o)) r') ->
    runs (fill_next_xs Rops W l est X) o (fun _ o' => exists ys, o' = set_next_xs (Some (xs ++ ys)) o /\ length ys = length l /\
        Forall (within (O := Rops) (space_tbounds Rops (dims o))) ys).
  Proof.
    induction l as [|a l IH]; intros o xs Hc Hy HX Hl Hxs Hf H1 H2; cbn [fill_next_xs].
    - eapply runs_ok; [reflexivity|reflexivity|]. exists []. rewrite app_nil_r, <- Hxs. split; [now destruct o|]. split; [reflexivity|constructor].
    - apply runs_get. destruct (min_total (flat_some Hy)) as (yopt & Ey). apply runs_lift with yopt; [exact Ey|].
      destruct (@pick_total (o_cfg o) a est yopt X Hc HX (Hl a (or_introl eq_refl)) fitted Hf H1 H2) as (r & Er & Wr). apply runs_lift with r; [exact Er|].
      assert (Q : exists r', (if is_categorical (dims o) then Ok r else clip_row Rops (space_tbounds Rops (dims o)) r) = Ok r' /\ within (O := Rops) (space_tbounds Rops (dims o)) r').
      { destruct (is_categorical (dims o)); [eauto|]. now apply clip_total. }
      destruct Q as (r' & Er' & Wr'). apply runs_lift with r'; [exact Er'|]. apply runs_upd; [reflexivity|]. rewrite Hxs.
      specialize (IH (set_next_xs (Some (xs ++ [r'])) o) (xs ++ [r'])).
      eapply runs_impl; [apply IH; try assumption; try reflexivity; intros b Hb; apply Hl; now right|].
      cbn. intros _ o' (ys & -> & L & F). exists (r' :: ys). split; [rewrite <- app_assoc; reflexivity|]. split; [cbn; lia|]. constructor; assumption.
  Qed.

  Lemma hedge_total eta gains : gains <> [] -> exists ps, hedge_weights Rops eta gains = Ok ps /\ length ps = length gains.
  Proof. intros H. unfold hedge_weights. destruct (max_total H) as (m & ->). cbn [bind]. eexists. split; [reflexivity|]. now rewrite !map_length. Qed.
  Lemma choose_total (o : state) xs : o_next_xs o = Some xs -> length xs = length (cand_acqs (c_acq (o_cfg o))) ->
    (c_acq (o_cfg o) = AHedge -> length (o_gains o) = 3) ->
    runs (choose_next Rops G) o (fun r o' => In r xs /\ exists g, o' = set_rng g o).
  Proof.
    intros Hxs Hl Hg. unfold choose_next. apply runs_get. rewrite Hxs. destruct (c_acq (o_cfg o)) as [|a].
    - specialize (Hg eq_refl). assert (Hne : o_gains o <> []) by (destruct (o_gains o); easy).
      destruct (hedge_total (c_eta (o_cfg o)) Hne) as (ps & Ep & Lp). apply runs_lift with ps; [exact Ep|].
      destruct Gok as (_ & _ & _ & _ & GM). assert (Hp : ps <> []) by (destruct ps; [destruct (o_gains o); easy|easy]).
      specialize (GM (o_rng o) ps Hp). destruct (rg_multinomial G (o_rng o) ps) as [i g]. cbn [fst] in GM. apply runs_upd; [reflexivity|]. unfold lift.
      unfold nth_row. destruct (nth_error xs i) as [r|] eqn:E; [|apply nth_error_None in E; cbn in Hl; lia].
      eapply runs_ok; [reflexivity|reflexivity|]. split; [now apply nth_error_In in E|now exists g].
    - cbn in Hl. destruct xs as [|r [|]]; try discriminate. eapply runs_ok; [reflexivity|reflexivity|]. split; [now left|]. exists (o_rng o). now destruct o.
  Qed.

  Lemma candidates_total (o : state) : sensible W need (o_cfg o) ->
    runs (candidates Rops G) o (fun X o' => proper_rows (dims o) X /\ exists g, o' = set_rng g o).
  Proof.
    intros (Hd & Hw & Hn & _). unfold candidates. apply runs_get.
    destruct (@space_drawn _ G Gok (dims o) (c_npoints (o_cfg o)) (o_rng o) Hd Hw) as (P & g & E & LP & FP). rewrite E. apply runs_upd; [reflexivity|].
    apply runs_lift with P; [reflexivity|].
    assert (HP : P <> []) by (intros ->; cbn in LP; congruence).
    destruct (space_withinR Hd (work_bounded Hw) HP FP) as (Xt & Et & LX & FX). apply runs_ok with (set_rng g o) Xt; [unfold lift; now rewrite Et|reflexivity|].
    split; [|now exists g]. split; [|exact FX]. intros ->. destruct P; easy.
  Qed.

  Lemma sub_total : forall a b : list R, length a = length b -> exists c, sub_list Rops a b = Ok c /\ length c = length a.
  Proof.
    induction a as [|x a IH]; intros [|y b] H; try discriminate; [exists []; easy|]. destruct (IH b) as (c & E & L); [now injection H|].
    cbn [sub_list]. rewrite E. cbn [bind]. eexists. split; [reflexivity|]. cbn. lia.
  Qed.

  Lemma refit_total (o : state) : ready o ->
    runs (refit Rops G W) o (fun _ o' => same_obs o o' /\ o_models o' <> [] /\ (exists p, o_next o' = Some p /\ in_space Rops (dims o) p) /\
       (c_acq (o_cfg o) = AHedge -> length (o_gains o') = 3) /\
       (c_acq (o_cfg o) = AHedge -> forall xs, o_next_xs o' = Some xs ->
           length xs = 3 /\ Forall (within (O := Rops) (space_tbounds Rops (dims o))) xs)).
  Proof.
    intros [Hc (P & EP & FP & LP) Hy Hs Hg Hx]. pose proof Hc as (Hd & Hw & Hn & Hr & Hq & _ & ((fitted & D1 & D2 & D3 & D4) & Da & _)).
    unfold refit. apply runs_get. apply runs_lift with P; [rewrite EP; apply plain_points|].
    assert (HP : P <> []) by (intros ->; destruct (o_yi o); easy).
    destruct (space_withinR Hd (work_bounded Hw) HP FP) as (Xt & Et & LX & FX). apply runs_lift with Xt; [exact Et|].
    specialize (D1 Xt (o_yi o)). apply runs_lift_or. destruct (w_fit W Xt (o_yi o)) as [est|x] eqn:Ee.
    2:{ apply D1; [split; [intros ->; destruct P; easy|exact FX]|rewrite LX; exact LP|exact Hy]. }
    assert (Fe : fitted est) by (apply D1; [split; [intros ->; destruct P; easy|exact FX]|rewrite LX; exact LP|exact Hy]).
    (* gains *)
    apply runs_bind with (Q1 := fun _ o1 => exists g, o1 = set_gains g o /\ (c_acq (o_cfg o) = AHedge -> length g = 3)).
    { unfold update_gains. apply runs_get. destruct (o_next_xs o) as [xs|] eqn:Exs.
      2:{ eapply runs_ok; [reflexivity|reflexivity|]. exists (o_gains o). split; [now destruct o|exact Hg]. }
      destruct (c_acq (o_cfg o)) as [|a] eqn:Ea.
      2:{ eapply runs_ok; [reflexivity|reflexivity|]. exists (o_gains o). split; [now destruct o|discriminate]. }
      destruct (Hx eq_refl xs eq_refl) as (Lx & Wx). destruct xs as [|x0 xs]; [discriminate|].
      destruct (D2 est (x0 :: xs) Fe) as (v & Ev & Lv); [split; [discriminate|exact Wx]|reflexivity|]. apply runs_lift with v; [exact Ev|].
      destruct (@sub_total (o_gains o) v) as (g & Eg & Lg); [rewrite Hg by reflexivity; congruence|]. apply runs_lift with g; [exact Eg|].
      eapply runs_ok; [reflexivity|reflexivity|]. exists g. split; [reflexivity|]. intros _. rewrite Lg. now apply Hg. }
    intros _ o1 (gains & -> & Lgains).
    (* models *)
    apply runs_bind with (Q1 := fun _ o2 => exists ms, o2 = set_models ms (set_gains gains o) /\ ms <> []).
    { unfold push_model. apply runs_get. cbn [o_cfg set_gains o_models]. destruct (c_queue (o_cfg o)) as [q|].
      - destruct (_ <? _)%Z eqn:El.
        + eapply runs_ok; [reflexivity|reflexivity|]. eexists. split; [reflexivity|]. destruct (o_models o); easy.
        + apply Z.ltb_ge in El. destruct (o_models o) as [|m ms]; [cbn in El; lia|]. eapply runs_ok; [reflexivity|reflexivity|]. eexists. split; [reflexivity|]. destruct ms; easy.
      - eapply runs_ok; [reflexivity|reflexivity|]. eexists. split; [reflexivity|]. destruct (o_models o); easy. }
    intros _ o2 (ms & -> & Hms).
    eapply runs_bind; [apply candidates_total; exact Hc|]. cbn beta. intros X o3 (HX & g3 & ->). cbn [set_gains set_models o_cfg] in HX.
    apply runs_upd; [reflexivity|].
    eapply runs_bind; [apply (@fill_total est X fitted) with (xs := []); try assumption; try reflexivity; cbn; auto|]. cbn beta. intros _ o4 (ys & -> & Ly & Fy).
    eapply runs_bind; [apply choose_total with (xs := ys); [reflexivity|exact Ly|exact Lgains]|]. cbn beta. intros r o5 (Hin & g5 & ->).
    cbn [set_rng set_next_xs set_models set_gains o_cfg] in *. rewrite Forall_forall in Fy.
    destruct (space_back Hd (work_bounded Hw) (Fy r Hin)) as (p & Ep & Ip). apply runs_lift with [p]; [exact Ep|]. apply runs_lift with p; [reflexivity|].
    eapply runs_ok; [reflexivity|reflexivity|]. split; [repeat split|]. split; [exact Hms|]. split; [exists p; split; [reflexivity|exact Ip]|]. split; [exact Lgains|].
    intros Ha xs Exs. cbn in Exs. injection Exs as <-. split; [rewrite Ly, Ha; reflexivity|]. now apply Forall_forall.
  Qed.

  (** *** Telling *)
  Lemma result_total (o : state) : length (o_Xi o) = length (o_yi o) -> o_yi o <> [] -> exists r, get_result Rops o = (o, Ok r).
  Proof.
    intros L H. unfold get_result, create_result.
    destruct (@argmin_some (map y_obj (o_yi o))) as (i & E & Li); [destruct (o_yi o); easy|]. rewrite E. rewrite map_length in Li.
    destruct (nth_error (o_Xi o) i) as [x|] eqn:Ex; [|apply nth_error_None in Ex; lia].
    destruct (nth_error (map y_obj (o_yi o)) i) as [y|] eqn:Ey; [|apply nth_error_None in Ey; rewrite map_length in Ey; lia]. eauto.
  Qed.

  Lemma valid_points (d : list (dim R)) P : Forall boundedR d -> Forall (in_space Rops d) P -> Forall (valid_x Rops d) (map (@X1 R) P).
  Proof. intros Hd H. apply Forall_map. eapply Forall_impl; [|exact H]. intros p Hp. now apply in_member. Qed.

  Lemma tell_total x y P ys fit (o : state) : sound o -> recorded x y (map (@X1 R) P) ys -> length P = length ys ->
    Forall (in_space Rops (dims o)) P -> Forall (proper_obs (ps_of o)) ys -> o_yi o ++ ys <> [] ->
    exists o' r, tell_ Rops G W x y fit o = (o', r) /\ (exists l, o_yi o' = o_yi o ++ ys ++ l) /\ match r with
      | Ok _ => sound o' /\ o_cfg o' = o_cfg o /\ o_yi o' = o_yi o ++ ys /\ (fit = true -> open o') /\ (open o -> o_models o <> [] -> open o')
      | Raise _ => ~ need (o_yi o')
      end.
  Proof.
    intros Hs Hr HL HP Hy Hne. pose proof Hs as [Hc Hg (P0 & E0 & F0 & L0) Hy0 Hn Hm Hga Hxs Hi Hca].
    pose proof Hc as (_ & Hw & _). pose proof (work_bounded Hw) as Hb.
    pose proof (good_tell fit Hg Hr (valid_points Hb HP)) as Hgood.
    destruct (tell_grows Rops G W fit o Hr) as [(G1 & G2 & G3 & G4 & G5) _].
    assert (HX : exists P1, o_Xi o ++ map (@X1 R) P = map (@X1 R) P1 /\ Forall (in_space Rops (dims o)) P1 /\ length P1 = length (o_yi o ++ ys)).
    { exists (P0 ++ P). rewrite E0, map_app. split; [reflexivity|]. split; [now apply Forall_app|]. rewrite !app_length. lia. }
    rewrite (tell_eq Rops G W fit o Hr) in *.
    set (o1 := after (map (@X1 R) P) ys o) in *. destruct (fits_now fit o1) eqn:Ef.
    - assert (R1 : ready o1).
      { constructor; auto. - exact (proj2 (Forall_app _ _ _) (conj Hy0 Hy)). }
      destruct (refit_total R1) as (o2 & [u|z] & E & Lg & K).
      2:{ rewrite E. exists o2, (Raise z). split; [reflexivity|]. split; [|exact K]. destruct Lg as (l & El). exists l. rewrite El. unfold o1. cbn. now rewrite app_assoc. }
      destruct K as ((S1 & S2 & S3 & S4 & S5 & S6) & Hm2 & (p & Ep & Ip) & Hg2 & Hx2). rewrite E in *.
      destruct (@result_total o2) as (r & Er).
      { rewrite S4, S5. destruct HX as (P1 & EX & _ & LX). unfold o1. cbn [o_Xi o_yi after]. rewrite EX, map_length. exact LX. }
      { rewrite S5. exact Hne. }
      rewrite Er in *. cbn [fst] in *. exists o2, (Ok r). split; [reflexivity|]. split; [exists []; rewrite app_nil_r; exact S5|].
      assert (Mp : model_phase o2).
      { unfold fits_now in Ef. apply andb_true_iff in Ef. destruct Ef as [Ef H2]. apply andb_true_iff in Ef. destruct Ef as [_ H1].
        split; [rewrite S2; now apply Z.leb_le|]. unfold has_est in *. rewrite S1. exact H2. }
      split; [|split; [exact S1|split; [exact S5|]]].
      + constructor; rewrite ?S1, ?S3, ?S4, ?S5, ?S6; auto.
        * unfold ps_of. rewrite S1. exact (proj2 (Forall_app _ _ _) (conj Hy0 Hy)).
        * intros q Eq. assert (q = p) by congruence. subst q. auto.
        * intros _. split; [congruence|exact Hne].
        * intros k X [].
      + split; intros _; [|intros _]; right; right; exact Hm2.
    - destruct (@result_total o1) as (r & Er); [|exact Hne|].
      { destruct HX as (P1 & EX & _ & LX). unfold o1. cbn [o_Xi o_yi after]. rewrite EX, map_length. exact LX. }
      rewrite Er in *. cbn [fst] in *. exists o1, (Ok r). split; [reflexivity|]. split; [exists []; rewrite app_nil_r; reflexivity|]. split; [|split; [reflexivity|split; [reflexivity|]]].
      + constructor; auto.
        * exact (proj2 (Forall_app _ _ _) (conj Hy0 Hy)).
        * intros q Eq. destruct (Hn q Eq) as (A & (B1 & B2) & C). split; [exact A|]. split; [|exact Hne]. split; [|exact B2]. cbn. lia.
        * intros H. destruct (Hm H) as (A & _). split; [exact A|exact Hne].
        * intros k X [].
      + split; [|intros _ H; right; right; exact H]. intros ->. unfold fits_now in Ef. cbn [andb] in Ef. apply andb_false_iff in Ef. destruct Ef as [Ef|Ef].
        * left. apply Z.leb_gt in Ef. exact Ef.
        * right. left. unfold has_est in Ef. destruct (c_est (o_cfg o1)); [discriminate|reflexivity].
  Qed.

  Lemma tell_runs {A} (m : state -> state * res A) ys (Q : A -> state -> Prop) (o : state) :
    (exists o' r, m o = (o', r) /\ (exists l, o_yi o' = o_yi o ++ ys ++ l) /\ match r with Ok a => Q a o' | Raise _ => ~ need (o_yi o') end) -> runs m o Q.
  Proof. intros (o' & r & E & (l & L) & K). exists o', r. split; [exact E|]. split; [now exists (ys ++ l)|exact K]. Qed.

  Lemma obs_proper ps ys vs : Forall2 (observation Rops ps) ys vs -> Forall (proper_obs ps) vs.
  Proof. induction 1 as [|y v ys vs H F IH]; constructor; [now inversion H|exact IH]. Qed.

  Lemma tell_full x y fit (o : state) : sound o -> fine o (CTell x y fit) ->
    exists o' r, tell Rops G W x y fit o = (o', r) /\
      (exists vs l, o_yi o' = o_yi o ++ vs ++ l /\ forall P l', x = X2 P -> y = YLst l' -> Forall2 (observation Rops (ps_of o)) l' vs) /\
      match r with
      | Ok _ => sound o' /\ o_cfg o' = o_cfg o /\ o_yi o' <> [] /\ (fit = true -> open o') /\ (open o -> o_models o <> [] -> open o')
      | Raise _ => ~ need (o_yi o')
      end.
  Proof.
    intros Hs Hf. pose proof (s_cfg Hs) as (_ & Hw & _). pose proof (work_bounded Hw) as Hb.
    assert (One : forall a, valid_y1 Rops (ps_of o) a -> exists v, (if ps_of o then log_pair Rops a else scalar a) = Ok v /\ proper_obs (ps_of o) v).
    { intros a. unfold valid_y1. destruct (ps_of o).
      - intros (v & t & -> & Ht). cbn [log_pair]. unfold math_log. rewrite Ht. cbn [bind]. eexists. split; reflexivity.
      - intros (v & ->). exists (YS v). split; reflexivity. }
    assert (All : forall l, Forall (valid_y1 Rops (ps_of o)) l -> exists vs, mapM (if ps_of o then log_pair Rops else @scalar R) l = Ok vs /\ length vs = length l /\ Forall (proper_obs (ps_of o)) vs).
    { induction 1 as [|a l Ha F (vs & E & L & Q)]; [exists []; repeat split; constructor|]. destruct (One a Ha) as (v & Ev & Pv).
      exists (v :: vs). cbn [mapM]. rewrite E. destruct (ps_of o); rewrite Ev; cbn [bind]; (split; [reflexivity|]); (split; [cbn; lia|]); constructor; auto. }
    assert (V : exists y' P ys, recorded (targ_of x) y' (map (@X1 R) P) ys /\ length P = length ys /\ Forall (in_space Rops (dims o)) P /\
      Forall (proper_obs (ps_of o)) ys /\ ys <> [] /\ (forall P l', x = X2 P -> y = YLst l' -> Forall2 (observation Rops (ps_of o)) l' ys) /\
      tell Rops G W x y fit o = tell_ Rops G W (targ_of x) y' fit o).
    { assert (Step : forall x' y1 y', check_x_in_space Rops x' (dims o) = Ok tt -> check_y (ps_of o) x' y1 = Ok tt -> convert_y Rops (ps_of o) x' y1 = Ok y' ->
         tell Rops G W x' y1 fit o = tell_ Rops G W (targ_of x') y' fit o).
      { intros x' y1 y' A B C. unfold tell, andthen, get, lift. rewrite A. unfold ps_of in B, C. rewrite B, C. reflexivity. }
      inversion Hf as [| |p y0 fit0 Hp Hy|ps ys fit0 Hne HL HP Hy| | |]; subst.
      - destruct (One _ Hy) as (v & Ev & Pv). exists (Y1 v), [p], [v]. split; [constructor|]. split; [reflexivity|]. split; [constructor; [exact Hp|constructor]|].
        split; [constructor; [exact Pv|constructor]|]. split; [discriminate|]. split; [discriminate|]. apply Step.
        + apply check_point_ok. now apply in_member.
        + unfold valid_y1 in Hy. destruct (ps_of o).
          * destruct Hy as (w & t & -> & _). reflexivity.
          * destruct Hy as (w & ->). reflexivity.
        + cbn [convert_y]. rewrite Ev. reflexivity.
      - destruct (All _ Hy) as (vs & Ev & Lv & Pv). exists (Yn vs), ps, vs. split; [constructor|]. split; [rewrite Lv; exact HL|]. split; [exact HP|]. split; [exact Pv|].
        assert (Hvs : vs <> []) by (intros ->; destruct ps, ys; easy). split; [exact Hvs|]. split.
        { intros P l' _ [= <-]. destruct (ps_of o); [now apply mapM_log_pair|now apply mapM_scalar]. }
        apply Step.
        + apply check_batch_ok. eapply Forall_impl; [|exact HP]. intros q Hq. now apply in_member.
        + assert (Ny : ys <> []) by (intros ->; destruct ps; easy). unfold valid_y1 in Hy. unfold check_y. destruct (ps_of o).
          * replace (forallb (@is_pair R) ys) with true; [destruct ys; easy|]. symmetry. apply forallb_forall. rewrite Forall_forall in Hy.
            intros a Ha. destruct (Hy a Ha) as (w & t & -> & _). reflexivity.
          * replace (forallb (@is_num R) ys) with true; [reflexivity|]. symmetry. apply forallb_forall. rewrite Forall_forall in Hy.
            intros a Ha. destruct (Hy a Ha) as (w & ->). reflexivity.
        + cbn [convert_y]. rewrite Ev. reflexivity. }
    destruct V as (y' & P & ys & Hr & HL & HP & Hy & Hne & Ho & Et).
    destruct (@tell_total _ _ P ys fit o Hs Hr HL HP Hy) as (o' & r & E & (l & Lg) & K); [destruct (o_yi o); [exact Hne|discriminate]|].
    exists o', r. rewrite Et. split; [exact E|]. split; [exists ys, l; auto|]. destruct r as [r|z]; [|exact K]. destruct K as (H1 & H2 & H3 & H4). split; [exact H1|]. split; [exact H2|]. split; [rewrite H3; destruct (o_yi o); [exact Hne|discriminate]|exact H4].
  Qed.

  Lemma tell_user_total x y fit (o : state) : sound o -> fine o (CTell x y fit) ->
    runs (tell Rops G W x y fit) o (fun _ o' => sound o' /\ o_cfg o' = o_cfg o /\ o_yi o' <> [] /\ (fit = true -> open o') /\ (open o -> o_models o <> [] -> open o')).
  Proof. intros Hs Hf. destruct (tell_full Hs Hf) as (o' & r & E & (vs & l & L & _) & K). exists o', r. split; [exact E|]. split; [now exists (vs ++ l)|exact K]. Qed.

  (** *** Asking *)
  Lemma index_total {A} (l : list A) i : (0 <= i < Z.of_nat (length l))%Z -> exists x, py_index l i = Some x /\ In x l.
  Proof.
    intros H. unfold py_index. replace (0 <=? i)%Z with true by (symmetry; apply Z.leb_le; lia).
    destruct (nth_error l (Z.to_nat i)) as [x|] eqn:E; [|apply nth_error_None in E; lia]. exists x. split; [reflexivity|]. now apply nth_error_In in E.
  Qed.
  Lemma measured (d : list (dim R)) p P : Forall boundedR d -> in_space Rops d p -> Forall (in_space Rops d) P ->
    exists ds, mapM (fun xi => q <- plain xi ;; space_distance Rops d p q) (map (@X1 R) P) = Ok ds /\ length ds = length P.
  Proof.
    intros Hd Hp. induction 1 as [|q P Hq F (ds & E & L)]; [exists []; easy|]. destruct (distance_total (nofZ Rops 0) Hd Hp Hq) as (z & Ez).
    cbn [map mapM plain bind]. unfold space_distance at 1. rewrite Ez. cbn [bind]. rewrite E. cbn [bind]. exists (z :: ds). split; [reflexivity|cbn; lia].
  Qed.

  Lemma sound_rng g (o : state) : sound o -> sound (set_rng g o).
  Proof. intros [A B C D E F H I J K]. constructor; auto. now apply good_rng. Qed.
  Lemma sound_cache c (o : state) : sound o -> good Rops G W (set_cache c o) ->
    (forall k X, In (k, X) c -> length X = Z.to_nat (fst k) /\ Forall (in_space Rops (dims o)) X) -> sound (set_cache c o).
  Proof. intros [A B C D E F H I J K] Hg Hc. constructor; auto. Qed.

  Lemma ask1_total (o : state) : sound o -> open o ->
    runs (ask1 Rops G) o (fun p o' => in_space Rops (dims o) p /\ exists g, o' = set_rng g o).
  Proof.
    intros Hs Ho. destruct Hs as [(Hd & Hw & _ & _ & _ & Hdm & _) Hg (P0 & E0 & F0 & L0) Hy0 Hn Hm Hga Hxs Hi Hca]. unfold ask1. apply runs_get.
    destruct ((0 <? o_left o)%Z || negb (has_est o)) eqn:Ec.
    - destruct (o_init o) as [l|] eqn:Ei.
      + destruct (Hi l eq_refl) as (Ll & Fl). pose proof (g_left Hg) as El. pose proof (g_n0 Hg) as E00.
        pose proof (g_gen Hg) as Eg. rewrite Ei in Eg.
        assert (Hl : (0 < o_left o)%Z).
        { apply orb_true_iff in Ec. destruct Ec as [Ec|Ec]; [now apply Z.ltb_lt|]. unfold has_est in Ec.
          destruct (c_est (o_cfg o)); [discriminate|]. rewrite Hdm in Eg by reflexivity. discriminate. }
        destruct (@index_total _ l (Z.of_nat (length l) - o_left o)) as (p & Ep & Ip); [rewrite Ll; lia|]. rewrite Ep.
        eapply runs_ok; [reflexivity|reflexivity|]. split; [rewrite Forall_forall in Fl; auto|]. exists (o_rng o). now destruct o.
      + destruct (@space_drawn _ G Gok (dims o) 1 (o_rng o) Hd Hw) as (P & g & E & LP & FP). rewrite E. apply runs_upd; [reflexivity|]. apply runs_lift with P; [reflexivity|].
        destruct P as [|p P]; [discriminate|]. eapply runs_ok; [reflexivity|reflexivity|]. split; [now inversion FP|now exists g].
    - apply orb_false_iff in Ec. destruct Ec as (Ec1 & Ec2). apply Z.ltb_ge in Ec1. apply negb_false_iff in Ec2.
      assert (Hmm : o_models o <> []).
      { destruct Ho as [Ho|[Ho|Ho]]; [lia| |exact Ho]. unfold has_est in Ec2. rewrite Ho in Ec2. discriminate. }
      destruct (Hm Hmm) as (Hnn & Hyy). destruct (o_models o) as [|m ms]; [easy|]. destruct (o_next o) as [p|] eqn:En; [|easy].
      destruct (Hn p eq_refl) as (Ip & _ & _). destruct (measured (work_bounded Hw) Ip F0) as (ds & Eds & Lds). rewrite E0.
      apply runs_lift with ds; [exact Eds|]. destruct ds as [|z ds].
      { exfalso. destruct P0; [|discriminate]. destruct (o_yi o); easy. }
      eapply runs_ok; [reflexivity|reflexivity|]. split; [exact Ip|]. exists (o_rng o). now destruct o.
  Qed.

  (** *** Copying *)
  Lemma copy_made (o : state) g : good Rops G W o ->
    (forall n seed, (0 <= n)%Z -> exists l, w_generate W (dims o) n seed = Ok l) ->
    exists g' o1, make_optimizer Rops G W (copy_args o) g = (g', Ok o1).
  Proof.
    intros Hg Hgen. unfold make_optimizer, copy_args. cbn [a_acq a_n0 a_est_str a_est a_acqopt]. rewrite acq_of_name.
    pose proof (g_n0 Hg) as Hn0. replace (c_n0 (o_cfg o) <? 0)%Z with false by (symmetry; apply Z.ltb_ge; lia).
    assert (Main : forall lb norm, (norm = true -> set_kinds_all KNormalize (dims o) = Ok (dims o)) ->
      exists g' o1, finish Rops G W (copy_args o) (c_acq (o_cfg o)) (c_est (o_cfg o)) lb norm g = (g', Ok o1)).
    { intros lb norm Hn. unfold finish. cbn [a_dims copy_args a_gen a_n0].
      replace (if norm then set_kinds_all KNormalize (dims o) else Ok (dims o)) with (@Ok (list (dim R)) (dims o)) by (destruct norm; [now rewrite Hn|reflexivity]).
      destruct (c_gen (o_cfg o)); [|eauto]. destruct (rg_randint G g 0 int_max) as [seed g']. destruct (Hgen (c_n0 (o_cfg o)) seed Hn0) as (l & ->). eauto. }
    destruct (c_est (o_cfg o)) as [e|] eqn:Ee.
    - destruct (g_norm Hg Ee) as (H1 & H2 & H3 & H4). rewrite H1. cbn [negb].
      assert (Em : (if is_ps (c_acq (o_cfg o)) && negb (ed_multi e) then wrap_multi e else e) = e).
      { destruct (is_ps (c_acq (o_cfg o))) eqn:Ep; [|easy]. unfold ps_of in H3. now rewrite (H3 Ep). }
      rewrite Em. destruct (c_lbfgs (o_cfg o)) eqn:El.
      + cbn. rewrite (H4 eq_refl). cbn. unfold copy_args in Main. rewrite El in Main. apply Main. rewrite orb_false_r. exact H2.
      + cbn. rewrite andb_false_r. unfold copy_args in Main. rewrite El in Main. apply Main. rewrite orb_false_r. exact H2.
    - destruct (g_none Hg Ee) as [H1 H2]. unfold ps_of in H1. rewrite H1. rewrite H2. cbn -[finish]. unfold copy_args in Main. rewrite H2, Ee in Main. apply Main. discriminate.
  Qed.

  Lemma sensible_unqueued c : sensible W need c -> sensible W need (unqueued c).
  Proof. intros (A & B & C & D & _ & E & F). exact (conj A (conj B (conj C (conj D (conj I (conj E F)))))). Qed.

  Lemma copy_total (o : state) g : sound o -> exists g' r, copy Rops G W o g = (g', r) /\ match r with
    | Ok o' => sound o' /\ o_cfg o' = unqueued (o_cfg o) /\ o_yi o' = o_yi o /\ (open o -> open o') /\ (o_next o <> None -> o_next o' <> None)
    | Raise _ => ~ need (o_yi o)
    end.
  Proof.
    intros Hs. pose proof Hs as [Hc Hg (P0 & E0 & F0 & L0) Hy0 Hn Hm Hga Hxs Hi Hca].
    destruct (@copy_made o g Hg) as (g1 & o1 & E1).
    { intros n seed H. destruct Hc as (_ & _ & _ & _ & _ & _ & _ & _ & Hgen). destruct (Hgen n seed H) as (l & El & _). eauto. }
    destruct (copy_start _ Hg E1) as (init & ->). unfold copy. rewrite E1.
    match goal with |- context [set_gains ?a ?b] => set (o2 := set_gains a b) end.
    assert (S2 : sound o2).
    { constructor.
      - now apply sensible_unqueued.
      - destruct Hg. constructor; cbn; auto; try easy; try lia.
      - exists []. split; [reflexivity|]. split; [constructor|reflexivity].
      - constructor.
      - intros p H. discriminate H.
      - intros H. now elim H.
      - exact Hga.
      - intros _ xs H. discriminate H.
      - exact Hi.
      - intros k X []. }
    destruct (o_Xi o) as [|x Xi] eqn:Ex.
    - assert (Ey : o_yi o = []) by (destruct P0; [destruct (o_yi o); easy|discriminate]).
      exists g1, (Ok o2). split; [reflexivity|]. split; [exact S2|]. split; [reflexivity|]. split; [now rewrite Ey|]. split.
      + intros [Ho|[Ho|Ho]]; [left|right; left; exact Ho|destruct (Hm Ho); easy]. cbn. rewrite (g_left Hg), Ey in Ho. cbn in Ho. lia.
      + intros H. destruct (o_next o) as [p|]; [|easy]. destruct (Hn p eq_refl) as (_ & _ & H1). easy.
    - rewrite E0 in *.
      destruct (@tell_total (PH (map (@X1 R) P0)) (Yn (o_yi o)) P0 (o_yi o) true o2 S2) as (o3 & r & E3 & (l & Lg) & K); auto.
      { constructor. }
      { cbn. intros Ey. rewrite Ey in L0. destruct P0; [discriminate|discriminate]. }
      rewrite E3. destruct r as [r|z].
      2:{ eexists _, (Raise z). split; [reflexivity|]. intros N. apply K. rewrite Lg. exact (@Nmono (o_yi o) l N). }
      destruct K as (S3 & C3 & Y3 & O3 & _).
      exists (o_rng o3), (Ok o3). split; [reflexivity|]. split; [exact S3|]. split; [rewrite C3; reflexivity|]. split; [exact Y3|]. specialize (O3 eq_refl).
      split; [intros _; exact O3|]. intros H. destruct (o_next o) as [p|]; [|easy]. destruct (Hn p eq_refl) as (_ & (M1 & M2) & _).
      destruct O3 as [O3|[O3|O3]].
      + rewrite (g_left (s_good S3)), C3, Y3 in O3. cbn in O3. rewrite (g_left Hg) in M1. lia.
      + unfold has_est in M2. rewrite C3 in O3. cbn in O3. rewrite O3 in M2. discriminate.
      + apply (s_models S3 O3).
  Qed.

  (** *** Lying *)
  Lemma stat_total s l : l <> [] -> exists m, lie_stat Rops s l = Ok m.
  Proof. intros H. destruct s; cbn [lie_stat]; [now apply min_total| |now apply max_total]. unfold np_mean. destruct l; [easy|eauto]. Qed.
  Lemma lie_total s ps yi : exists v, the_lie Rops W s ps yi = Ok v /\ proper_obs ps v.
  Proof.
    unfold the_lie.
    assert (A : exists y, match yi with [] => Ok (nofZ Rops 0) | _ => lie_stat Rops s (y_flat yi) end = Ok y).
    { destruct yi as [|v yi]; [eauto|]. apply stat_total. now apply flat_some. }
    destruct A as (y & ->). cbn [bind]. destruct ps; [|eexists; split; reflexivity].
    assert (B : exists t, match yi with [] => Ok (w_logmax W) | _ => lie_stat Rops s (map (fun v => match v with YP _ t => t | YS y => y end) yi) end = Ok t).
    { destruct yi as [|v yi]; [eauto|]. apply stat_total. discriminate. }
    destruct B as (t & ->). cbn [bind]. eexists. split; reflexivity.
  Qed.
  Lemma open_rng g (o : state) : open o -> open (set_rng g o).
  Proof. intros H. exact H. Qed.
  Lemma lies_total s n : forall o : state, sound o -> open o ->
    runs (lie_loop Rops G W s (ps_of o) n) o (fun X _ => length X = n /\ Forall (in_space Rops (dims o)) X).
  Proof.
    induction n as [|n IH]; intros o Hs Ho; cbn [lie_loop].
    - eapply runs_ok; [reflexivity|reflexivity|]. repeat split. constructor.
    - apply runs_bind with (Q1 := fun x o1 => in_space Rops (dims o) x /\ sound o1 /\ open o1 /\ o_cfg o1 = o_cfg o).
      { unfold lie_once. eapply runs_bind; [exact (ask1_total Hs Ho)|]. cbn beta. intros x o1 (Ix & g & ->). apply runs_get.
        destruct (lie_total s (ps_of o) (o_yi (set_rng g o))) as (v & Ev & Pv). apply runs_lift with v; [exact Ev|].
        eapply runs_bind; [eapply tell_runs; eapply (@tell_total (P1 x) (Y1 v) [x] [v] true (set_rng g o)); auto using sound_rng|].
        - constructor.
        - destruct (o_yi _); discriminate.
        - cbn beta. intros _ o2 (S2 & C2 & _ & O2 & _). eapply runs_ok; [reflexivity|reflexivity|]. auto. }
      intros x o1 (Ix & S1 & O1 & C1). assert (Ep : ps_of o = ps_of o1) by (unfold ps_of; now rewrite C1). rewrite Ep.
      eapply runs_bind; [exact (IH o1 S1 O1)|]. cbn beta. intros xs o2 (Lx & Fx). eapply runs_ok; [reflexivity|reflexivity|]. split; [cbn; lia|].
      rewrite C1 in Fx. constructor; assumption.
  Qed.

  Lemma liar_total s : In s ["cl_min"; "cl_mean"; "cl_max"]%string -> exists l, liar_of s = Some l.
  Proof. intros [<-|[<-|[<-|[]]]]; eexists; reflexivity. Qed.
  Lemma ask_n_total n s (o : state) : sound o -> open o -> (0 < n)%Z -> In s ["cl_min"; "cl_mean"; "cl_max"]%string ->
    runs (ask_n Rops G W n s) o (fun X o' => length X = Z.to_nat n /\ Forall (in_space Rops (dims o)) X /\ sound o' /\ exists g c, o' = set_cache c (set_rng g o)).
  Proof.
    intros Hs Ho Hn Hl.
    assert (R1 : runs (ask_n Rops G W n s) o (fun X o' => length X = Z.to_nat n /\ Forall (in_space Rops (dims o)) X /\
       (o' = o \/ exists g, o' = set_cache [((n, s), X)] (set_rng g o)))).
    { unfold ask_n. replace (n <=? 0)%Z with false by (symmetry; apply Z.leb_gt; lia). destruct (liar_total Hl) as (l & ->). apply runs_get.
      destruct (dict_get key_eqb (o_cache o) (n, s)) as [X|] eqn:Ed.
      - eapply runs_ok; [reflexivity|reflexivity|]. apply dict_get_in in Ed. destruct Ed as (k & Hk & Ek). apply key_eqb_eq in Ek. subst k.
        destruct (s_cache Hs _ _ Hk) as (A & B). auto.
      - destruct (rg_randint G (o_rng o) 0 int_max) as [seed g]. apply runs_upd; [reflexivity|].
        destruct (copy_total (rg_seed G seed) Hs) as (g' & [cp|x] & Ec & K); apply runs_lift_or; rewrite Ec; cbn [snd]; [|exact K]. destruct K as (Sc & Cc & Yc & Oc & _).
        destruct (lies_total l (Z.to_nat n) Sc (Oc Ho)) as (cp' & [X|x] & Ex & Lg & K); unfold ps_of in Ex; rewrite Cc in Ex; cbn [unqueued c_acq c_dims] in Ex; apply runs_lift_or; rewrite Ex; cbn [snd].
        2:{ apply (grown_need Lg) in K. rewrite Yc in K. exact K. }
        destruct K as (Lx & Fx). rewrite Cc in Fx. cbn [unqueued c_acq c_dims] in Fx. apply runs_upd; [reflexivity|]. eapply runs_ok; [reflexivity|reflexivity|]. split; [exact Lx|]. split; [exact Fx|]. right. eexists. reflexivity. }
    destruct R1 as (o' & [X|x] & E & Lg & K); [destruct K as (Lx & Fx & C)|exists o', (Raise x); auto]. exists o', (Ok X). split; [exact E|]. split; [exact Lg|]. split; [exact Lx|]. split; [exact Fx|].
    destruct C as [->|(g & ->)]; [split; [exact Hs|exists (o_rng o), (o_cache o); now destruct o]|]. split; [|eauto].
    apply sound_cache; [now apply sound_rng| |].
    - pose proof (good_ask_n n s (s_good Hs)) as Hg. rewrite E in Hg. exact Hg.
    - intros k Y [H|[]]. injection H as <- <-. auto.
  Qed.

  Lemma run_total f n : forall k (o : state), sound o -> open o ->
    (forall k p, in_space Rops (dims o) p -> exists y, f k p = Ok y /\ valid_y1 Rops (ps_of o) y) ->
    runs (run_loop Rops G W f k n) o (fun _ o' => sound o' /\ open o' /\ o_cfg o' = o_cfg o /\ (n <> 0 -> o_yi o' <> [])).
  Proof.
    induction n as [|n IH]; intros k o Hs Ho Hf; cbn [run_loop].
    - eapply runs_ok; [reflexivity|reflexivity|]. split; [exact Hs|]. split; [exact Ho|]. split; [reflexivity|easy].
    - eapply runs_bind; [exact (ask1_total Hs Ho)|]. cbn beta. intros p o1 (Ip & g & ->). destruct (Hf k p Ip) as (y & Ey & Vy). apply runs_lift with y; [exact Ey|].
      eapply runs_bind; [apply (@tell_user_total (X1 p) y true (set_rng g o) (sound_rng g Hs))|].
      { constructor; assumption. }
      cbn beta. intros _ o2 (S2 & C2 & N2 & O2 & _). cbn [set_rng o_cfg] in C2.
      destruct (IH (S k) o2 S2 (O2 eq_refl)) as (o3 & [u|x] & E3 & Lg & K).
      { unfold ps_of. rewrite C2. exact Hf. }
      2:{ exists o3, (Raise x). auto. }
      destruct K as (S3 & O3 & C3 & N3). exists o3, (Ok u). split; [exact E3|]. split; [exact Lg|]. split; [exact S3|]. split; [exact O3|]. split; [congruence|]. intros _.
      destruct n as [|n]; [|now apply N3]. cbn [run_loop] in E3. injection E3 as <- _. exact N2.
  Qed.

  Lemma update_total (o : state) : sound o -> runs (update_next Rops G W) o (fun _ o' => sound o' /\ o_models o' = o_models o /\ o_left o' = o_left o /\ o_cfg o' = o_cfg o).
  Proof.
    intros Hs. assert (S1 : sound (set_cache [] o)) by (apply sound_cache; [exact Hs|apply good_clear, Hs|intros k X []]).
    unfold update_next. apply runs_upd; [reflexivity|]. apply runs_get. destruct (o_next (set_cache [] o)) as [p|] eqn:En.
    2:{ eapply runs_ok; [reflexivity|reflexivity|]. split; [exact S1|]. repeat split. }
    destruct (copy_total (o_rng (set_cache [] o)) S1) as (g' & [cp|x] & Ec & K); rewrite Ec; (apply runs_upd; [reflexivity|]); apply runs_lift_or; [|exact K]. destruct K as (Sc & Cc & Yc & _ & Nc).
    specialize (Nc ltac:(congruence)). destruct (o_next cp) as [q|] eqn:Eq; [|easy]. eapply runs_ok; [reflexivity|reflexivity|].
    split; [|repeat split]. destruct (s_next Sc Eq) as (Iq & Mq & Yq). rewrite Cc in Iq. cbn [unqueued c_dims] in Iq.
    pose proof (good_update (s_good Hs)) as Hg.
    assert (Eu : fst (update_next Rops G W o) = set_next (Some q) (set_rng g' (set_cache [] o))).
    { unfold update_next, andthen, upd, get, lift. rewrite En, Ec. cbn [fst]. rewrite Eq. reflexivity. }
    rewrite Eu in Hg. destruct S1 as [A B C D E F H I J K]. destruct (E p En) as (_ & Mp & Yp). constructor; auto.
    - intros p' Ep. cbn in Ep. injection Ep as <-. auto.
  Qed.

  (** *** All calls *)
  Lemma call_total c (o : state) : sound o -> fine o c ->
    exists o' r, do_call Rops G W c o = (o', r) /\ grown o o' /\ match r with
      | Ok a => answered o c a /\ sound o' /\ (open o \/ (exists x y, c = CTell x y true) -> (forall x y, c <> CTell x y false) -> open o')
      | Raise _ => ~ need (o_yi o')
      end.
  Proof.
    intros Hs Hf. inversion Hf as [s Ho|n s Ho Hn Hl|p y fit Hp Hy|ps ys fit Hne HL HP Hy|f n Hn Ho Hff|Hy|]; subst.
    - destruct (ask1_total Hs Ho) as (o' & [p|x] & E & Lg & K); (eexists o', _; split; [cbn [do_call ask]; unfold andthen; rewrite E; reflexivity|]); (split; [exact Lg|]); [|exact K].
      destruct K as (Ip & g & ->). split; [exact Ip|]. split; [now apply sound_rng|]. intros _ _. exact Ho.
    - destruct (ask_n_total Hs Ho Hn Hl) as (o' & [X|x] & E & Lg & K); (eexists o', _; split; [cbn [do_call ask]; unfold andthen; rewrite E; reflexivity|]); (split; [exact Lg|]); [|exact K].
      destruct K as (LX & FX & S' & g & c & ->). split; [split; [exact LX|exact FX]|]. split; [exact S'|]. intros _ _. exact Ho.
    - destruct (tell_user_total Hs Hf) as (o' & [r|x] & E & Lg & K); (eexists o', _; split; [cbn [do_call]; rewrite E; reflexivity|]); (split; [exact Lg|]); [|exact K].
      destruct K as (S' & C' & N' & O' & _). split; [exact I|]. split; [exact S'|]. intros _ Hx. destruct fit; [auto|]. now elim (Hx (X1 p) y).
    - destruct (tell_user_total Hs Hf) as (o' & [r|x] & E & Lg & K); (eexists o', _; split; [cbn [do_call]; rewrite E; reflexivity|]); (split; [exact Lg|]); [|exact K].
      destruct K as (S' & C' & N' & O' & _). split; [exact I|]. split; [exact S'|]. intros _ Hx. destruct fit; [auto|]. now elim (Hx (X2 ps) (YLst ys)).
    - destruct (run_total f n 0 Hs Ho Hff) as (o' & [u|x] & E & Lg & K).
      2:{ exists o', (Raise x). split; [cbn [do_call]; unfold run, andthen; rewrite E; reflexivity|]. auto. }
      destruct K as (S' & O' & C' & N').
      destruct (s_x S') as (P & EP & _ & LP). destruct (@result_total o') as (r & Er); [rewrite EP, map_length; exact LP|auto|].
      exists o', (Ok (RResult r)). cbn [do_call]. unfold run, andthen. rewrite E, Er. split; [reflexivity|]. split; [exact Lg|]. split; [exact I|]. split; [exact S'|]. auto.
    - destruct (s_x Hs) as (P & EP & _ & LP). destruct (@result_total o) as (r & Er); [rewrite EP, map_length; exact LP|auto|].
      exists o, (Ok (RResult r)). cbn [do_call]. rewrite Er. split; [reflexivity|]. split; [now apply grown_same|]. split; [exact I|]. split; [exact Hs|]. intros [H|(x & y & H)] _; [exact H|discriminate].
    - destruct (update_total Hs) as (o' & [u|x] & E & Lg & K); (eexists o', _; split; [cbn [do_call]; rewrite E; reflexivity|]); (split; [exact Lg|]); [|exact K].
      destruct K as (S' & M' & L' & C'). split; [exact I|]. split; [exact S'|].
      intros [H|(x & y & H)] _; [|discriminate]. unfold open in *. rewrite M', L', C'. exact H.
  Qed.

  Lemma make_sound a g g' (o : state) : make_optimizer Rops G W a g = (g', Ok o) -> sensible W need (o_cfg o) -> sound o.
  Proof.
    intros E Hc. pose proof (@make_good _ _ _ Rops G W _ _ _ _ E) as Hg. pose proof Hc as (_ & _ & _ & _ & _ & _ & _ & _ & Hgen).
    assert (F : exists e lb norm g1, finish Rops G W a (c_acq (o_cfg o)) e lb norm g1 = (g', Ok o)).
    { revert E. unfold make_optimizer. destruct (acq_of (a_acq a)) as [acq|]; [|discriminate]. destruct (a_n0 a <? 0)%Z; [discriminate|].
      assert (K : forall e lb norm g1, finish Rops G W a acq e lb norm g1 = (g', Ok o) -> exists e lb norm g1, finish Rops G W a (c_acq (o_cfg o)) e lb norm g1 = (g', Ok o)).
      { intros e lb norm g1 H. pose proof H as H'. apply finish_ok in H'. destruct H' as (d & init & _ & Eo & _).
        assert (Ea : c_acq (o_cfg o) = acq) by (rewrite Eo; reflexivity). rewrite Ea. eauto. }
      destruct (a_est a) as [e|].
      - destruct (negb (ed_regressor e)); [discriminate|]. destruct (negb (_ || _)); [discriminate|]. destruct (negb _ && negb _); [discriminate|]. apply K.
      - destruct (is_ps acq); [discriminate|]. destruct (_ || _); [|discriminate]. apply K. }
    destruct F as (e & lb & norm & g1 & F). apply finish_ok in F. destruct F as (d & init & _ & Eo & Hi). rewrite Eo in Hc, Hg, Hgen |- *.
    constructor; cbn; try easy.
    - exists []. repeat split; constructor.
    - intros Ha. destruct (c_acq (o_cfg o)); [reflexivity|discriminate].
    - intros l El. subst init. destruct Hi as (_ & seed & Es). destruct (Hgen (a_n0 a) seed) as (l' & El' & A & B).
      { exact (g_n0 Hg). }
      cbn in El', A, B. rewrite Es in El'. injection El' as <-. auto.
  Qed.

  Lemma campaign_sound o : campaign G W need o -> sound o.
  Proof.
    induction 1 as [a g g' o E Hc|c o o' a _ IH Hf Ec|o g g' o' _ IH E|g o _ IH].
    - eapply make_sound; eauto.
    - destruct (call_total IH Hf) as (o1 & r & E & _ & K). rewrite Ec in E. injection E as <- <-. apply K.
    - destruct (copy_total g IH) as (g1 & r & E1 & K). rewrite E in E1. injection E1 as <- <-. apply K.
    - now apply sound_rng.
  Qed.

  (** What [c83] is when the surrogate may fail to be fitted. *)
  Lemma c92 o c : campaign G W need o -> fine o c -> exists o' r, do_call Rops G W c o = (o', r) /\ (exists l, o_yi o' = o_yi o ++ l) /\
    match r with
    | Ok a => answered o c a /\ (open o \/ (exists x y, c = CTell x y true) -> (forall x y, c <> CTell x y false) -> open o')
    | Raise _ => ~ need (o_yi o')
    end.
  Proof.
    intros H Hf. destruct (call_total (campaign_sound H) Hf) as (o' & r & E & Lg & K). exists o', r. split; [exact E|]. split; [exact Lg|].
    destruct r; [|exact K]. split; apply K.
  Qed.
  Lemma c92_copy o g : campaign G W need o -> exists g' r, copy Rops G W o g = (g', r) /\
    match r with Ok o' => o_yi o' = o_yi o /\ (open o -> open o') | Raise _ => ~ need (o_yi o) end.
  Proof. intros H. destruct (copy_total g (campaign_sound H)) as (g' & r & E & K). exists g', r. split; [exact E|]. destruct r; [|exact K]. split; apply K. Qed.

  Lemma c83_make a acq g : acq_of (a_acq a) = Some acq -> (0 <= a_n0 a)%Z ->
    match a_est a with Some e => ed_regressor e = true | None => is_ps acq = false end ->
    In (a_acqopt a) ["auto"; "sampling"]%string ->
    (forall d n seed, (d = a_dims a \/ scales a /\ set_kinds_all KNormalize (a_dims a) = Ok d) -> (0 <= n)%Z -> exists l, w_generate W d n seed = Ok l) ->
    exists g' o, make_optimizer Rops G W a g = (g', Ok o) /\ c_acq (o_cfg o) = acq /\ o_left o = a_n0 a /\
      (c_dims (o_cfg o) = a_dims a \/ scales a /\ set_kinds_all KNormalize (a_dims a) = Ok (c_dims (o_cfg o))).
  Proof.
    intros Ea Hn He Ho Hg.
    assert (F : forall e lb norm g1, (norm = true -> scales a) -> exists g' o, finish Rops G W a acq e lb norm g1 = (g', Ok o) /\ c_acq (o_cfg o) = acq /\ o_left o = a_n0 a /\
      (c_dims (o_cfg o) = a_dims a \/ scales a /\ set_kinds_all KNormalize (a_dims a) = Ok (c_dims (o_cfg o)))).
    { intros e lb norm g1 Hsc. unfold finish.
      assert (D : exists d, (if norm then set_kinds_all KNormalize (a_dims a) else Ok (a_dims a)) = Ok d /\ (d = a_dims a \/ scales a /\ set_kinds_all KNormalize (a_dims a) = Ok d)).
      { destruct norm; [rewrite WarpLemmas.set_kinds_normalize|]; eexists; (split; [reflexivity|]); auto. }
      destruct D as (d & -> & D). destruct (a_gen a).
      - destruct (rg_randint G g1 0 int_max) as [seed g2]. destruct (Hg d (a_n0 a) seed D Hn) as (l & ->). do 2 eexists. split; [reflexivity|]. auto.
      - do 2 eexists. split; [reflexivity|]. auto. }
    unfold make_optimizer. rewrite Ea. assert (Q : (a_n0 a <? 0)%Z = false) by (apply Z.ltb_ge; exact Hn). rewrite Q.
    destruct (a_est a) as [e|] eqn:Ee.
    - rewrite He. cbn [negb]. set (e' := if is_ps acq && negb (ed_multi e) then wrap_multi e else e).
      assert (Sc : ed_gp e' || a_est_str a && ed_gp e = true -> scales a).
      { unfold e', scales. rewrite Ee. destruct (ed_gp e) eqn:Ep; [easy|]. rewrite Bool.andb_false_r. destruct (is_ps acq && negb (ed_multi e)); [easy|]. rewrite Ep. easy. }
      destruct Ho as [<-|[<-|[]]].
      + cbn [String.eqb Ascii.eqb Bool.eqb]. destruct (ed_grad e') eqn:Eg; cbn -[finish e']; [|]; apply F, Sc.
      + cbn -[finish e']. rewrite Bool.andb_false_r. apply F, Sc.
    - rewrite He. destruct Ho as [<-|[<-|[]]]; cbn -[finish]; apply F; discriminate.
  Qed.
End Campaign.

(** With a surrogate that can always be fitted, no call fails. *)
Section Always.
  Context {RNG M : Type} (G : rng_ops R RNG) (W : world R M) (Gok : rng_ok Rops G).
  Notation state := (opt R RNG M).
  Lemma any_mono (l l' : list (yval R)) : anything l -> anything (l ++ l').
  Proof. easy. Qed.
  Lemma c83 (o : state) c : campaign G W anything o -> fine o c -> exists o' a, do_call Rops G W c o = (o', Ok a) /\ answered o c a.
  Proof.
    intros H Hf. destruct (c92 Gok any_mono H Hf) as (o' & [a|x] & E & _ & K); [|now elim K]. exists o', a. split; [exact E|apply K].
  Qed.
  Lemma c83_open (o : state) c : campaign G W anything o -> fine o c -> open o \/ (exists x y, c = CTell x y true) -> (forall x y, c <> CTell x y false) ->
    open (fst (do_call Rops G W c o)).
  Proof. intros H Hf A B. destruct (c92 Gok any_mono H Hf) as (o' & [a|x] & E & _ & K); [|now elim K]. rewrite E. now apply K. Qed.
  Lemma c83_copy (o : state) g : campaign G W anything o -> exists g' o', copy Rops G W o g = (g', Ok o') /\ (open o -> open o').
  Proof. intros H. destruct (c92_copy Gok any_mono g H) as (g' & [o'|x] & E & K); [|now elim K]. exists g', o'. split; [exact E|apply K]. Qed.
End Always.
