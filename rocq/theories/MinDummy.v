(** dummy_minimize always gets through (C31); converse of C30; all points of a result are in the space. *)
From Coq Require Import String List ZArith Bool Lia.
From Verif Require Import Base Num Values Transformers Dimension Space Optimizer NumLaws BaseLemmas SpaceSpec MetricLemmas
  OptSpec OptLemmas OptLemmas2 OptLemmas3 OptLemmas4 OptLemmas5 OptProps OptBatch Minimize MinSpec MinLemmas MinProps.
Import ListNotations.
Open Scope list_scope.
Set Implicit Arguments.

Section MinDummy.
  Context {N RNG M : Type} (O : numops N) (G : rng_ops N RNG) (W : world N M).
  Notation state := (opt N RNG M).
  Notation result := (result N RNG M).
  Notation event := (event N RNG M).
  Notation callback := (callback N RNG M).
  Notation reachable := (reachable O G W).
  Notation dims o := (c_dims (o_cfg o)).

  Lemma ask_reachable n s o o' r : reachable o -> ask O G W n s o = (o', r) -> reachable o'.
  Proof. intros H E. apply (r_call (CAsk n s)) in H. cbn [do_call] in H. now rewrite E in H. Qed.
  Lemma tell_reachable x y fit o o' r : reachable o -> tell O G W x y fit o = (o', r) -> reachable o'.
  Proof. intros H E. apply (r_call (CTell x y fit)) in H. cbn [do_call] in H. now rewrite E in H. Qed.
  Lemma looped_reachable f cbs k n seen o o' L : looped O G W f cbs k n seen o o' L -> reachable o -> reachable o'.
  Proof. induction 1; intros Hr; eauto using ask_reachable, tell_reachable. Qed.
  Lemma session_reachable f cbs n x0 o0 y0 t o' res : session O G W f cbs n x0 o0 y0 t o' res -> reachable o0 -> reachable o'.
  Proof. destruct 1; intros Hr; eauto using looped_reachable, tell_reachable. Qed.
  Lemma minimize_reachable m f a g t o1 res : minimize O G W m f a g = (t, Some o1, Ok res) -> reachable o1.
  Proof.
    intros H. apply minimize_base in H. destruct H as (a' & g1 & H & _).
    apply base_ok in H. destruct H as (x0 & g' & o0 & o2 & E & _ & H2 & _ & _ & _ & _ & _ & H7). injection E as <-.
    assert (Hs : session O G W f (callbacks_of a') (m_ncalls a') x0 o0 (values_of (m_y0 a')) t o1 res).
    { apply H7. destruct (m_y0 a'); cbn [values_of]; [left; constructor|left; constructor|left; constructor|now right]. }
    eapply session_reachable; eauto. eapply r_make; eauto.
  Qed.

  (** *** Steps without a surrogate *)
  Lemma tell_number o x ys xs vs :
    has_est o = false -> ps_of o = false -> aligned o -> valid_x O (dims o) x ->
    match x with X1 p => exists v, ys = YNum v /\ vs = [YS v] /\ xs = [X1 p]
               | X2 ps => exists l, ys = YLst (map YNum l) /\ vs = map YS l /\ xs = map (@X1 N) ps /\ length l = length ps /\ l <> []
    end ->
    exists r, tell O G W x ys true o = (after xs vs o, Ok r).
  Proof.
    intros He Hps Ha Hx Hy.
    assert (Ec : check_x_in_space O x (dims o) = Ok tt) by (destruct x; [now apply check_point_ok|now apply check_batch_ok]).
    assert (E : exists y', tell O G W x ys true o = tell_ O G W (targ_of x) y' true o /\ recorded (targ_of x) y' xs vs).
    { unfold tell, andthen at 1, get. unfold andthen, lift. rewrite Ec. fold (ps_of o). rewrite Hps.
      destruct x as [p|ps].
      - destruct Hy as (v & -> & -> & ->). exists (Y1 (YS v)). split; [reflexivity|]. constructor.
      - destruct Hy as (l & -> & -> & -> & Hl & _). cbn [check_y convert_y].
        replace (forallb is_num (map YNum l)) with true by (symmetry; clear; induction l; cbn; auto).
        replace (mapM scalar (map YNum l)) with (Ok (map (@YS N) l)) by (clear; induction l as [|a l IH]; [easy|]; cbn; now rewrite <- IH).
        exists (Yn (map (@YS N) l)). split; [reflexivity|]. constructor. }
    destruct E as (y' & -> & Hr). rewrite (tell_eq O G W true o Hr).
    assert (Hf : fits_now true (after xs vs o) = false).
    { unfold fits_now. replace (has_est (after xs vs o)) with (has_est o) by easy. rewrite He. now rewrite !andb_false_r. }
    rewrite Hf. apply result_total.
    - unfold aligned, after in *. cbn. rewrite !app_length. destruct x.
      + destruct Hy as (v & _ & -> & ->). cbn. lia.
      + destruct Hy as (l & _ & -> & -> & Hl & _). rewrite !map_length. lia.
    - unfold after. cbn. destruct x.
      + destruct Hy as (v & _ & -> & _). now destruct (o_yi o).
      + destruct Hy as (l & _ & -> & _ & _ & Hl). destruct l; [easy|]. now destruct (o_yi o).
  Qed.

  Lemma good_tell o x ys xs vs r :
    good O G W o -> has_est o = false -> aligned o -> valid_x O (dims o) x ->
    tell O G W x ys true o = (after xs vs o, Ok r) -> good O G W (after xs vs o).
  Proof. intros Hg _ _ _ H. pose proof (good_tell_user x ys true Hg) as K. now rewrite H in K. Qed.

  (** The next suggestion exists: a random point, or the next point of a design that is long enough. *)
  Definition supply (n : nat) (o : state) : Prop :=
    match o_init o with
    | None => forall g, exists P g', space_rvs O G (dims o) 1 g = (Ok P, g') /\ P <> []
    | Some l => length l = Z.to_nat (c_n0 (o_cfg o)) /\ (Z.of_nat (length (o_yi o) + n) <= c_n0 (o_cfg o))%Z
    end.
  Lemma ask1_total o n : good O G W o -> has_est o = false -> supply (S n) o ->
    exists g p, ask1 O G o = (set_rng g o, Ok p).
  Proof.
    unfold supply. intros Hg He Hs. destruct (o_init o) as [l|] eqn:Ei.
    - destruct Hs as [Hl Hn]. destruct (nth_error l (length (o_yi o))) as [p|] eqn:Ep.
      + exists (o_rng o), p. rewrite (ask1_design Hg Ei Hl Ep). now destruct o.
      + apply nth_error_None in Ep. lia.
    - unfold ask1, andthen at 1, get. rewrite He. cbn [negb]. rewrite orb_true_r, Ei.
      destruct (Hs (o_rng o)) as (P & g' & E & Hne). rewrite E. unfold andthen, upd, lift.
      destruct P as [|p P]; [easy|]. now exists g', p.
  Qed.

  Definition answers (cbs : list callback) : Prop := forall c seen, In c cbs -> exists d, c seen = Ok d.
  Lemma callbacks_total (cbs : list callback) : answers cbs -> forall i seen r stop (o : state) t,
    exists b, eval_callbacks cbs i seen r stop (o, t) = ((o, t ++ map (fun j => ECall j r) (seq i (length cbs))), Ok b).
  Proof.
    induction cbs as [|c cbs IH]; intros Ha i seen r stop o t.
    - exists stop. cbn. now rewrite app_nil_r.
    - cbn [eval_callbacks]. unfold mthen, emit, mlift. cbn [fst snd].
      destruct (Ha c (seen ++ [r]) (or_introl eq_refl)) as [d ->].
      destruct (IH (fun c' s H => Ha c' s (or_intror H)) (S i) seen r (match d with None => stop | Some b => stop || b end) o (t ++ [ECall i r]))
        as [b E].
      exists b. rewrite E. cbn [length seq map]. now rewrite <- app_assoc.
  Qed.

  Definition numeric (f : objective N) (d : list (dim N)) : Prop :=
    forall k p, member O d p -> exists v, f k p = Ok (YNum v).
  Lemma loop_total f cbs n : forall k seen last (o : state) t,
    good O G W o -> has_est o = false -> aligned o -> gen_ok O W (dims o) (c_n0 (o_cfg o)) -> rvs_ok O G (dims o) -> supply n o -> numeric f (dims o) -> answers cbs ->
    exists s' res, min_loop O G W f cbs k n seen last (o, t) = (s', Ok res).
  Proof.
    induction n as [|n IH]; intros k seen last o t Hg He Ha Hgen Hrvs Hs Hf Hc.
    - eexists _, _. reflexivity.
    - destruct (ask1_total n Hg He Hs) as (g & p & Ea).
      pose proof (ask1_member Hg Hgen Hrvs Ea) as Hp. destruct (Hf k p Hp) as [v Hv].
      assert (Hps : ps_of o = false).
      { apply (g_none Hg). unfold has_est in He. now destruct (c_est (o_cfg o)). }
      destruct (@tell_number (set_rng g o) (X1 p) (YNum v) [X1 p] [YS v]) as [r Er]; auto.
      { now exists v. }
      assert (Hg' : good O G W (after [X1 p] [YS v] (set_rng g o))).
      { eapply good_tell; [|exact He|exact Ha| |exact Er]; [now apply good_rng|exact Hp]. }
      cbn [min_loop]. unfold mthen, emit, mlift, onopt. cbn [fst snd]. rewrite Ea. cbn [fst snd]. rewrite Hv, Er. cbn [fst snd].
      destruct (callbacks_total Hc 0 seen r false (after [X1 p] [YS v] (set_rng g o)) (t ++ [EEval p])) as [b Eb].
      rewrite Eb. destruct b; [eexists _, _; reflexivity|]. apply IH; auto.
      + unfold aligned, after in *. cbn. rewrite !app_length. cbn. lia.
      + unfold supply in *. cbn. destruct (o_init o) as [l|]; [|exact Hs]. destruct Hs as [Hl Hn]. split; [exact Hl|].
        rewrite app_length. cbn. lia.
  Qed.
  Lemma points_total f : forall xs k (o : state) t d, Forall (member O d) xs -> numeric f d ->
    exists vs, eval_points f k xs (o, t) = ((o, t ++ map EEval xs), Ok (map YNum vs)) /\ length vs = length xs.
  Proof.
    induction xs as [|x xs IH]; intros k o t d Hx Hf.
    - exists []. cbn. now rewrite app_nil_r.
    - inversion Hx; subst. destruct (Hf k x) as [v Hv]; [easy|].
      cbn [eval_points]. unfold mthen, emit, mlift. cbn [fst snd]. rewrite Hv.
      destruct (IH (S k) o (t ++ [EEval x]) d) as (vs & E & Hl); auto. exists (v :: vs). rewrite E. cbn. rewrite <- app_assoc. cbn. auto.
  Qed.

  (** A list of points (or none), each in the space, and one number for each if values are given. *)
  Inductive good_input (d : list (dim N)) : x0arg N -> y0arg N -> list (point N) -> Prop :=
  | gi_none y0 : good_input d X0None y0 []
  | gi_points ps : ps <> [] -> Forall (member O d) ps -> good_input d (X0Seq true (map IPt ps)) Y0None ps
  | gi_values ps vs : ps <> [] -> Forall (member O d) ps -> length vs = length ps ->
      good_input d (X0Seq true (map IPt ps)) (Y0Seq (map YNum vs)) ps.

  Lemma body_total f cbs n_calls x0 y0 x0a (o : state) :
    good O G W o -> has_est o = false -> o_Xi o = [] -> o_yi o = [] -> gen_ok O W (dims o) (c_n0 (o_cfg o)) -> rvs_ok O G (dims o) ->
    good_input (dims o) x0a y0 x0 -> numeric f (dims o) -> answers cbs ->
    match o_init o with
    | None => forall g, exists P g', space_rvs O G (dims o) 1 g = (Ok P, g') /\ P <> []
    | Some l => length l = Z.to_nat (c_n0 (o_cfg o)) /\
        (n_calls + match y0 with Y0Seq _ => Z.of_nat (length x0) | _ => 0 end <= c_n0 (o_cfg o))%Z /\
        (Z.of_nat (length x0) <= c_n0 (o_cfg o))%Z
    end ->
    exists o' t res, min_body O G W f cbs n_calls x0 (y0_list y0) (o, []) = ((o', t), Ok res).
  Proof.
    intros Hg He EX EY Hgen Hrvs Hi Hf Hc Hs.
    assert (Ha : aligned o) by (unfold aligned; now rewrite EX, EY).
    assert (Hps : ps_of o = false).
    { apply (g_none Hg). unfold has_est in He. now destruct (c_est (o_cfg o)). }
    assert (Main : forall ps vs k t, ps <> [] -> Forall (member O (dims o)) ps -> length vs = length ps ->
              supply (Z.to_nat (n_calls - Z.of_nat k)) (after (map (@X1 N) ps) (map YS vs) o) ->
              exists s' res,
                (if negb (Nat.eqb (length ps) (length (map (@YNum N) vs))) then mlift (Raise ValueError)
                 else mthen (onopt (tell O G W (X2 ps) (YLst (map YNum vs)) true)) (fun r =>
                      mthen (eval_callbacks cbs 0 [] r false) (fun stop =>
                      if stop then mret (Some r)
                      else min_loop O G W f cbs k (Z.to_nat (n_calls - Z.of_nat k)) [r] (Some r)))) (o, t) = (s', Ok res)).
    { intros ps vs k t Hne Hm Hl Hsup. rewrite map_length, Hl, Nat.eqb_refl. cbn [negb].
      destruct (@tell_number o (X2 ps) (YLst (map YNum vs)) (map (@X1 N) ps) (map YS vs)) as [r Er]; auto.
      { exists vs. repeat split; auto. intros ->. now destruct ps. }
      assert (Hg' : good O G W (after (map (@X1 N) ps) (map YS vs) o)).
      { eapply good_tell; [exact Hg|exact He|exact Ha| |exact Er]. exact Hm. }
      unfold mthen, onopt. cbn [fst snd]. rewrite Er.
      destruct (callbacks_total Hc 0 [] r false (after (map (@X1 N) ps) (map YS vs) o) t) as [b Eb].
      rewrite Eb. destruct b; [eexists _, _; reflexivity|].
      apply loop_total; auto. unfold aligned, after in *. cbn. rewrite !app_length, !map_length. lia. }
    destruct Hi as [y0|ps Hne Hm|ps vs Hne Hm Hl].
    - cbn [min_body].
      destruct (@loop_total f cbs (Z.to_nat n_calls) 0 [] None o []) as ([o' t] & res & E); auto.
      { unfold supply. destruct (o_init o); [|exact Hs]. destruct Hs as (H1 & H2 & H3). split; [exact H1|]. rewrite EY. cbn [length plus] in *.
        destruct (Z.le_gt_cases 0 n_calls); [|lia]. destruct y0; lia. }
      eauto.
    - destruct (@points_total f ps 0 o [] (dims o) Hm Hf) as (vs & Ev & Hl).
      destruct ps as [|p ps]; [easy|]. cbn [min_body y0_list]. set (X := p :: ps) in *. clearbody X.
      unfold mthen at 1 2. rewrite Ev. unfold mret at 1. rewrite map_length, Hl.
      destruct (Main X vs (length X) ([] ++ map EEval X)) as ([o' t] & res & E); auto.
      { unfold supply. cbn. destruct (o_init o); [|exact Hs]. destruct Hs as (H1 & H2 & H3). split; [exact H1|].
        rewrite EY. cbn. rewrite map_length. lia. }
      rewrite map_length, Hl in E. eexists _, _, _. exact E.
    - destruct ps as [|p ps]; [easy|]. cbn [min_body y0_list]. set (X := p :: ps) in *. clearbody X.
      unfold mthen at 1, mret at 1.
      destruct (Main X vs 0 []) as ([o' t] & res & E); auto.
      { unfold supply. cbn. destruct (o_init o); [|exact Hs]. destruct Hs as (H1 & H2 & H3). split; [exact H1|].
        rewrite EY. cbn. rewrite map_length. lia. }
      eexists _, _, _. exact E.
  Qed.

  Lemma dummy_total f a g x0 :
    (forall n, (1 <= n <= m_ncalls a + Z.of_nat (length x0))%Z -> gen_ok O W (a_dims (m_opt a)) n) -> rvs_ok O G (a_dims (m_opt a)) ->
    (if a_gen (m_opt a) then forall n seed, (1 <= n <= m_ncalls a + Z.of_nat (length x0))%Z -> is_ok (w_generate W (a_dims (m_opt a)) n seed) = true
     else forall g, exists P g', space_rvs O G (a_dims (m_opt a)) 1 g = (Ok P, g') /\ P <> []) ->
    good_input (a_dims (m_opt a)) (m_x0 a) (m_y0 a) x0 -> (0 <= m_ncalls a)%Z -> (x0 = [] -> (0 < m_ncalls a)%Z) ->
    (m_y0 a = Y0None -> (Z.of_nat (length x0) <= m_ncalls a)%Z) ->
    numeric f (a_dims (m_opt a)) -> answers (callbacks_of a) -> match m_callback a with CBOther => False | _ => True end ->
    exists t o r, dummy_minimize O G W f a g = (t, Some o, Ok (Some r)).
  Proof.
    intros Hgen Hrvs Hsrc Hi Hn Hx Hy Hf Hc Hcb.
    set (n0 := match values_of (m_y0 a) with None => m_ncalls a - Z.of_nat (length x0) | Some _ => m_ncalls a end%Z).
    set (a' := mkMargs (dummy_opt (m_opt a)) (m_ncalls a) n0 None (m_x0 a) (m_y0 a) (m_callback a) (m_verbose a)).
    assert (E : dummy_minimize O G W f a g = base_minimize O G W f a' g).
    { unfold dummy_minimize, a', n0.
      destruct Hi as [y0|ps Hne Hm|ps vs Hne Hm Hl]; cbn [x0_len rmap values_of length]; rewrite ?map_length; try reflexivity.
      destruct y0; cbn [values_of Z.of_nat]; rewrite ?Z.sub_0_r; reflexivity. }
    rewrite E. clear E. unfold base_minimize.
    assert (Ei : x0_items (m_x0 a') = Ok (map IPt x0)).
    { cbn [m_x0 a']. unfold a'. cbn [m_x0]. destruct Hi as [y0|[|p ps] Hne Hm|[|p ps] vs Hne Hm Hl]; try easy. }
    rewrite Ei. cbn [m_random_starts m_n0 a' m_ncalls m_y0 m_opt m_callback m_verbose].
    replace ((n0 <=? 0)%Z && is_nil (map IPt x0)) with false.
    2:{ symmetry. apply andb_false_iff. destruct x0 as [|p x0]; [left|right; reflexivity].
        apply Z.leb_gt. unfold n0. specialize (Hx eq_refl). cbn. destruct (values_of _); lia. }
    rewrite map_length.
    assert (Hreq : (n0 + (if y0_falsy (y0_list (m_y0 a)) then Z.of_nat (length x0) else 0) <= m_ncalls a)%Z).
    { unfold n0. destruct Hi as [y0|ps Hne Hm|ps vs Hne Hm Hl]; cbn [values_of y0_list y0_falsy length].
      - destruct (values_of y0), (y0_falsy (y0_list y0)); cbn; lia.
      - lia.
      - destruct vs as [|v vs]; [destruct ps; [easy|discriminate]|]. cbn. lia. }
    replace (m_ncalls a <? _)%Z with false by (symmetry; apply Z.ltb_ge; exact Hreq).
    assert (Hn0 : (1 <= n0 + Z.of_nat (length x0) <= m_ncalls a + Z.of_nat (length x0))%Z).
    { unfold n0. assert (Hx' : (x0 <> [] -> 1 <= Z.of_nat (length x0))%Z) by (destruct x0; [easy|]; cbn [length]; lia).
      destruct Hi as [y0|ps Hne Hm|ps vs Hne Hm Hl]; [specialize (Hx eq_refl); cbn [length]; destruct (values_of y0); lia|..];
        specialize (Hx' Hne); cbn [values_of]; [specialize (Hy eq_refl)|]; lia. }
    destruct (make_optimizer O G W (set_n0 (n0 + Z.of_nat (length x0)) (dummy_opt (m_opt a))) g) as [g' [o|e]] eqn:Em.
    2:{ exfalso. revert Em. unfold make_optimizer. cbn [acq_of a_acq set_n0 dummy_opt String.eqb Ascii.eqb Bool.eqb a_n0 a_est a_est_str is_ps a_acqopt orb].
        replace (n0 + Z.of_nat (length x0) <? 0)%Z with false by (symmetry; apply Z.ltb_ge; lia).
        unfold finish. cbn [a_gen a_dims set_n0 dummy_opt a_n0]. destruct (a_gen (m_opt a)); [|discriminate].
        destruct (rg_randint _ _ _ _) as [seed g2]. specialize (Hsrc _ seed Hn0). destruct (w_generate _ _ _ _); discriminate. }
    assert (Ho : dims o = a_dims (m_opt a) /\ has_est o = false /\ c_n0 (o_cfg o) = (n0 + Z.of_nat (length x0))%Z /\
                 match o_init o with Some l => a_gen (m_opt a) = true | None => a_gen (m_opt a) = false end).
    { revert Em. unfold make_optimizer. cbn [acq_of a_acq set_n0 dummy_opt String.eqb Ascii.eqb Bool.eqb a_n0 a_est a_est_str is_ps a_acqopt orb].
      destruct (_ <? 0)%Z; [discriminate|].
      unfold finish. cbn [a_gen a_dims set_n0 dummy_opt a_n0]. destruct (a_gen (m_opt a)).
      - destruct (rg_randint _ _ _ _) as [seed g2]. destruct (w_generate _ _ _ _); [|discriminate].
        intros H. injection H as <- <-. now cbn.
      - intros H. injection H as <- <-. now cbn. }
    destruct Ho as (Ho1 & Ho2 & Ho3 & Ho4).
    assert (Hgen' : gen_ok O W (dims o) (c_n0 (o_cfg o))) by (rewrite Ho1, Ho3; now apply Hgen).
    pose proof (make_good O G W _ _ Em) as Hg. destruct (make_empty O G W _ _ Em) as (_ & EX & EY & _).
    assert (Ep : mapM as_point (map IPt x0) = Ok x0) by (clear; induction x0 as [|p l IH]; [easy|]; cbn in *; now rewrite IH).
    rewrite Ep.
    assert (Hmem : Forall (member O (dims o)) x0) by (rewrite Ho1; destruct Hi; auto).
    replace (forallb _ x0) with true.
    2:{ symmetry. apply forallb_forall. intros p Hp. apply Nat.eqb_eq. rewrite Forall_forall in Hmem.
        specialize (Hmem _ Hp). apply Forall2_len in Hmem. now symmetry. }
    cbn [negb].
    assert (Hck : exists cbs, check_callback (m_callback a) = Ok cbs /\
              (if m_verbose a then cbs ++ [verbose_callback] else cbs) = callbacks_of a).
    { unfold callbacks_of, check_callback. destruct (m_callback a); try easy; eexists; (split; [reflexivity|]);
        destruct (m_verbose a); cbn; rewrite ?app_nil_r; auto. }
    destruct Hck as (cbs & Eck & Ecbs). rewrite Eck, Ecbs.
    destruct (@body_total f (callbacks_of a) (m_ncalls a) x0 (m_y0 a) (m_x0 a) o) as (o' & t & res & Eb); auto; try (now rewrite Ho1).
    { destruct (o_init o) as [l|] eqn:El.
      - destruct (g_init Hg Hgen' El) as [Hl _]. split; [exact Hl|]. rewrite Ho3. unfold n0. revert Hy.
        destruct Hi as [y0|ps Hne Hm|ps vs Hne Hm Hl']; cbn [values_of length]; intros Hy; [destruct y0; cbn; lia|specialize (Hy eq_refl); lia|lia].
      - rewrite Ho4 in Hsrc. now rewrite Ho1. }
    rewrite Eb.
    assert (Hres : exists r, res = Some r).
    { assert (Hgv : exists y0', given_y (y0_list (m_y0 a)) y0' \/ x0 = []).
      { destruct Hi as [y0|ps Hne Hm|ps vs Hne Hm Hl']; [exists None; now right|exists None; left; constructor|eexists; left; constructor]. }
      destruct Hgv as (y0' & [Hgv| ->]).
      - assert (Hs : session O G W f (callbacks_of a) (m_ncalls a) x0 o y0' t o' res).
        { eapply body_ok; [exact Hgv|]. replace (y0_list (y0_list (m_y0 a))) with (y0_list (m_y0 a)) by now destruct (m_y0 a). exact Eb. }
        apply session_facts in Hs; [|exact Hx]. destruct Hs as (r & -> & _). eauto.
      - assert (Hs : session O G W f (callbacks_of a) (m_ncalls a) [] o None t o' res).
        { eapply body_ok; [constructor|]. exact Eb. }
        apply session_facts in Hs; [|exact Hx]. destruct Hs as (r & -> & _). eauto. }
    destruct Hres as [r ->]. now exists t, o', r.
  Qed.

  (** *** Where the points come from *)
  Definition drawn (o : state) (i : nat) (p : point N) : Prop :=
    match o_init o with
    | Some l => nth_error l i = Some p
    | None => exists g P g', space_rvs O G (dims o) 1 g = (Ok (p :: P), g')
    end.
  Lemma ask_drawn o o1 p s : good O G W o -> gen_ok O W (dims o) (c_n0 (o_cfg o)) -> has_est o = false ->
    ask O G W NPNone s o = (o1, Ok (A1pt p)) -> drawn o (length (o_yi o)) p.
  Proof.
    intros Hg Hgen He. rewrite ask_none. unfold ask1, andthen at 1, get. rewrite He. cbn [negb]. rewrite orb_true_r. unfold drawn.
    destruct (o_init o) as [l|] eqn:Ei.
    - destruct (g_init Hg Hgen Ei) as [Hl _]. rewrite Hl, (g_left Hg). pose proof (g_n0 Hg).
      replace (_ - _)%Z with (Z.of_nat (length (o_yi o))) by lia. unfold py_index.
      replace (0 <=? _)%Z with true by (symmetry; apply Z.leb_le; lia). rewrite Nat2Z.id.
      destruct (nth_error l (length (o_yi o))); [|discriminate]. unfold ret. intros K. injection K as _ ->. easy.
    - destruct (space_rvs O G (dims o) 1 (o_rng o)) as [[P|e] g] eqn:Er; [|discriminate].
      unfold andthen, upd, lift, ret. destruct P as [|p' P]; [discriminate|]. intros K. injection K as _ ->. eauto.
  Qed.
  Lemma looped_drawn f cbs k n seen o o' L : looped O G W f cbs k n seen o o' L ->
    reachable o -> gen_ok O W (dims o) (c_n0 (o_cfg o)) -> has_est o = false ->
    forall i s, nth_error L i = Some s -> drawn o (length (o_yi o) + i) (pt_of s).
  Proof.
    assert (Step : forall o o1 o2 p y r s, ask O G W NPNone s o = (o1, Ok (A1pt p)) -> tell O G W (X1 p) y true o1 = (o2, Ok r) ->
              length (o_yi o2) = S (length (o_yi o)) /\ o_init o2 = o_init o /\ o_cfg o2 = o_cfg o).
    { intros o0 o1 o2 p y r s Ha Ht. destruct (c18_frame _ _ _ _ _ _ Ha) as (E1 & E2 & _ & _ & E3 & E4 & _).
      destruct (tell_logs O G W (X1 p) y true o1 I) as [[e E]|(L0 & HL & Hg)]; [congruence|].
      rewrite Ht in Hg. destruct Hg as (G1 & _ & G3 & _ & G5). cbn [fst] in *. inversion HL; subst. cbn in G5.
      rewrite G5, app_length, E2, G1, E4. cbn. split; [lia|]. split; [congruence|easy]. }
    induction 1 as [|k n seen o o1 o2 p y r Ha Hf Ht _|k n seen o o1 o2 o3 p y r L Ha Hf Ht _ HL IH]; intros Hr Hgen He i s Hi.
    - destruct i; discriminate.
    - destruct i as [|[|]]; try discriminate. injection Hi as <-. rewrite Nat.add_0_r.
      eapply ask_drawn; eauto. now apply reachable_good.
    - destruct i as [|i].
      + injection Hi as <-. rewrite Nat.add_0_r. eapply ask_drawn; eauto. now apply reachable_good.
      + destruct (Step _ _ _ _ _ _ _ Ha Ht) as (E1 & E2 & E3).
        assert (Hr2 : reachable o2) by eauto using ask_reachable, tell_reachable.
        assert (He2 : has_est o2 = false) by (unfold has_est in *; now rewrite E3).
        assert (Hgen2 : gen_ok O W (dims o2) (c_n0 (o_cfg o2))) by now rewrite E3.
        specialize (IH Hr2 Hgen2 He2 i s Hi). unfold drawn in *. rewrite E1, E2, E3 in IH.
        replace (length (o_yi o) + S i) with (S (length (o_yi o)) + i) by lia. exact IH.
  Qed.
  Lemma c31_unfitted f a g t o r : dummy_minimize O G W f a g = (t, Some o, Ok (Some r)) -> gen_ok O W (dims o) (c_n0 (o_cfg o)) ->
    res_models r = [] /\
    exists x0, given (m_x0 a) x0 /\
      forall i p, nth_error (evals t) i = Some p ->
      match values_of (m_y0 a) with
      | None => length x0 <= i -> drawn o i p
      | Some _ => drawn o (length x0 + i) p
      end.
  Proof.
    intros H Hgen. change (dummy_minimize O G W) with (minimize O G W MDummy) in H.
    pose proof (minimize_reachable _ _ _ _ H) as Hr1.
    apply minimize_base in H. destruct H as (a' & g1 & Hb & F1 & F2 & F3 & F4 & _ & _ & F5). specialize (F5 eq_refl).
    apply base_ok in Hb. destruct Hb as (x0 & g' & o0 & o2 & E & Hgv & Hm & _ & Hpos & Hle & _ & _ & H7). injection E as <-.
    assert (Hs : session O G W f (callbacks_of a') (m_ncalls a') x0 o0 (values_of (m_y0 a')) t o (Some r)).
    { apply H7. destruct (m_y0 a'); cbn [values_of]; [left; constructor|left; constructor|left; constructor|now right]. }
    assert (Hest : c_est (o_cfg o0) = None).
    { eapply make_dummy; [exact Hm|]. rewrite F5. reflexivity. }
    destruct (make_empty O G W _ _ Hm) as (_ & EX & EY & _).
    assert (Hn : x0 = [] -> (0 < m_ncalls a')%Z).
    { intros ->. specialize (Hpos eq_refl). cbn in Hle. destruct (y0_falsy _); lia. }
    destruct (session_facts Hs Hn) as (r' & E & F). injection E as <-.
    destruct (get_result_spec (fc_result F)) as (_ & _ & _ & Em & _).
    assert (He : c_est (o_cfg o) = None) by (rewrite (fc_cfg F); exact Hest).
    assert (Hgen0 : gen_ok O W (dims o0) (c_n0 (o_cfg o0))) by (rewrite <- (fc_cfg F); exact Hgen).
    split; [rewrite Em; exact (proj1 (c17_initial "cl_min" Hr1 (or_intror He)))|].
    exists x0. split; [now rewrite <- F2|]. rewrite <- F3.
    assert (Hr0 : reachable o0) by (eapply r_make; exact Hm).
    assert (Hh : has_est o0 = false) by (unfold has_est; now rewrite Hest).
    assert (Hdr : forall ot i p, o_init ot = o_init o0 -> o_cfg ot = o_cfg o0 -> drawn ot i p -> drawn o0 i p).
    { intros ot i p E1 E2. unfold drawn. now rewrite E1, E2. }
    assert (Hi0 : o_init o = o_init o0).
    { assert (Hlp : forall f cbs k n seen oa ob L, looped O G W f cbs k n seen oa ob L -> o_init ob = o_init oa).
      { assert (Ht : forall oa ob p y r, tell O G W (X1 p) y true oa = (ob, Ok r) -> o_init ob = o_init oa).
        { intros oa ob p y r0 Ht. destruct (tell_logs O G W (X1 p) y true oa I) as [[e E]|(L0 & HL & Hg)]; [congruence|].
          rewrite Ht in Hg. now destruct Hg as (_ & _ & G3 & _). }
        induction 1 as [| |]; [easy| |].
        - rewrite (Ht _ _ _ _ _ H1). now destruct (c18_frame _ _ _ _ _ _ H) as (_ & _ & _ & _ & E & _).
        - rewrite IHlooped, (Ht _ _ _ _ _ H1). now destruct (c18_frame _ _ _ _ _ _ H) as (_ & _ & _ & _ & E & _). }
      destruct Hs as [y0' o1 L Hx HL|y0' ys te k r0 o1 Hx Hl Ht Hw Hy|y0' ys te k r0 o1 o1' L Hx Hl Ht Hw Hy HL].
      - eapply Hlp; exact HL.
      - destruct (tell_logs O G W (X2 x0) (YLst ys) true o0) as [[e E]|(L0 & HL & Hg)]; [exists ys; auto|congruence|].
        rewrite Ht in Hg. now destruct Hg as (_ & _ & G3 & _).
      - rewrite (Hlp _ _ _ _ _ _ _ _ HL).
        destruct (tell_logs O G W (X2 x0) (YLst ys) true o0) as [[e E]|(L0 & HL0 & Hg)]; [exists ys; auto|congruence|].
        rewrite Ht in Hg. now destruct Hg as (_ & _ & G3 & _). }
    assert (Hd : forall i p, drawn o0 i p -> drawn o i p).
    { intros i p. unfold drawn. rewrite Hi0, (fc_cfg F). auto. }
    intros i p Hp. clear F.
    destruct Hs as [y0' o1 L Hx HL|y0' ys te k r0 o1 Hx Hl Ht Hw Hy|y0' ys te k r0 o1 o1' L Hx Hl Ht Hw Hy HL].
    - subst x0. rewrite evals_steps in Hp.
      rewrite nth_error_map in Hp. destruct (nth_error L i) as [s|] eqn:Es; [|discriminate]. injection Hp as <-.
      pose proof (looped_drawn HL Hr0 Hgen0 Hh _ Es) as K. rewrite EY in K. cbn in K. destruct y0'; cbn; auto.
    - rewrite evals_app, evals_points, evals_calls, app_nil_r in Hp. destruct y0' as [l|].
      + destruct Hy as (_ & -> & _). destruct i; discriminate.
      + destruct Hy as (-> & _). intros Hle'. assert (i < length x0) by (apply nth_error_Some; congruence). lia.
    - rewrite !evals_app, evals_points, evals_calls, evals_steps in Hp. cbn [app] in Hp.
      destruct (told_points O G W _ _ _ Hl Ht) as (vs & _ & _ & EY1 & E2 & Hlv & _). rewrite EY in EY1. cbn in EY1.
      assert (Hr2 : reachable o1) by eauto using tell_reachable.
      assert (He2 : has_est o1 = false) by (unfold has_est in *; now rewrite E2).
      assert (Hgen2 : gen_ok O W (dims o1) (c_n0 (o_cfg o1))) by (rewrite E2; exact Hgen0).
      assert (K : forall j q, nth_error (map pt_of L) j = Some q -> drawn o0 (length x0 + j) q).
      { intros j q Hq. rewrite nth_error_map in Hq. destruct (nth_error L j) as [s|] eqn:Es; [|discriminate]. injection Hq as <-.
        pose proof (looped_drawn HL Hr2 Hgen2 He2 _ Es) as K. rewrite EY1, Hlv in K. eapply Hdr; [| |exact K]; [|exact E2].
        destruct (tell_logs O G W (X2 x0) (YLst ys) true o0) as [[e E]|(L0 & HL0 & Hg)]; [exists ys; auto|congruence|].
        rewrite Ht in Hg. now destruct Hg as (_ & _ & G3 & _). }
      destruct y0' as [l|].
      + destruct Hy as (_ & -> & _). apply Hd, K, Hp.
      + destruct Hy as (-> & _). intros Hle'. apply Hd. rewrite nth_error_app2 in Hp by exact Hle'.
        replace i with (length x0 + (i - length x0)) by lia. now apply K.
  Qed.

  (** *** Every point of a result is in the space; the result is the best one. *)
  Lemma c63 m f a g t o r : minimize O G W m f a g = (t, Some o, Ok (Some r)) ->
    Forall (fun x => match x with X1 p => member O (res_space r) p | X2 _ => False end) (res_x_iters r).
  Proof.
    intros H. pose proof (minimize_reachable _ _ _ _ H) as Hr.
    destruct (minimize_facts O G W m f a g H) as (x0 & a0 & g0 & g' & o0 & o1 & r' & E & E' & _ & _ & _ & _ & _ & _ & F).
    injection E as <-. injection E' as <-.
    destruct (get_result_spec (fc_result F)) as (_ & -> & _ & _ & ->).
    pose proof (g_x (reachable_good Hr)) as Hx.
    assert (Hone : Forall (fun x => match x with X1 _ => True | X2 _ => False end) (o_Xi o)).
    { destruct (c28 O G W m f a g H) as (x0' & ps & r' & E & _ & E' & _ & _ & Hh). injection E' as <-.
      destruct (get_result_spec (fc_result F)) as (_ & Exi & _ & _ & _). rewrite <- Exi.
      assert (Hm : forall l, Forall (fun x => match x with X1 _ => True | X2 _ => False end) (map (@X1 N) l)).
      { intros l. apply Forall_forall. intros x Hx'. apply in_map_iff in Hx'. now destruct Hx' as (p & <- & _). }
      destruct (values_of (m_y0 a)), x0'; [destruct Hh as (_ & -> & _)|destruct Hh as (vs & _ & _ & -> & _)|destruct Hh as (_ & -> & _)|destruct Hh as (_ & -> & _)]; apply Hm. }
    rewrite Forall_forall in *. intros x Hin. specialize (Hx _ Hin). specialize (Hone _ Hin). now destruct x.
  Qed.
  Lemma c63_best (L : order_laws O) m f a g t o r : minimize O G W m f a g = (t, Some o, Ok (Some r)) ->
    no_nan O (res_func_vals r) -> best_first O r.
  Proof.
    intros H. destruct (minimize_facts O G W m f a g H) as (x0 & a0 & g0 & g' & o0 & o1 & r' & E & E' & _ & _ & _ & _ & _ & _ & F).
    injection E as <-. injection E' as <-. intros Hn.
    assert (E : do_call O G W CResult o = (o, Ok (RResult r))) by (cbn [do_call]; now rewrite (fc_result F)).
    exact (c14 G W L _ _ E Hn).
  Qed.
End MinDummy.
