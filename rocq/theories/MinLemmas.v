(** Minimisers: what a successful call has done. *)
From Coq Require Import String List ZArith Bool Lia.
From Verif Require Import Base Num Values Transformers Dimension Space Optimizer BaseLemmas OptSpec OptLemmas OptLemmas2
  Minimize MinSpec.
Import ListNotations.
Open Scope list_scope.
Set Implicit Arguments.

Section MinLemmas.
  Context {N RNG M : Type} (O : numops N) (G : rng_ops N RNG) (W : world N M).
  Notation state := (opt N RNG M).
  Notation result := (result N RNG M).
  Notation event := (event N RNG M).
  Notation callback := (callback N RNG M).
  Notation round := (list (point N) * result)%type.

  Lemma mthen_ok {A B} (m : mop A) (k : A -> mop B) (s s' : state * list event) b :
    mthen m k s = (s', Ok b) <-> exists s1 a, m s = (s1, Ok a) /\ k a s1 = (s', Ok b).
  Proof.
    unfold mthen. destruct (m s) as [s1 [a|e]]; split.
    - intros H. now exists s1, a.
    - intros (s2 & a' & H & K). now injection H as <- <-.
    - discriminate.
    - intros (s2 & a' & H & K). discriminate.
  Qed.
  Lemma onopt_ok {A} (m : op A) (o : state) (t : list event) s' a :
    onopt m (o, t) = (s', Ok a) -> exists o', m o = (o', Ok a) /\ s' = (o', t).
  Proof.
    unfold onopt. simpl. destruct (m o) as [o' r]. intros H. injection H as <- ->. now exists o'.
  Qed.

  Lemma callbacks_ok (cbs : list callback) : forall i seen r stop (o : state) t s' b,
    eval_callbacks cbs i seen r stop (o, t) = (s', Ok b) ->
    s' = (o, t ++ map (fun j => ECall j r) (seq i (length cbs))) /\
    (b = true <-> stop = true \/ wants_stop cbs (seen ++ [r])).
  Proof.
    induction cbs as [|c cbs IH]; intros i seen r stop o t s' b.
    - intros H. injection H as <- <-. cbn. rewrite app_nil_r. split; [easy|]. split; [now left|].
      intros [H|(c & [] & _)]; easy.
    - cbn [eval_callbacks]. unfold emit at 1. unfold mthen at 1. cbn [fst snd].
      unfold mthen, mlift. destruct (c (seen ++ [r])) as [d|e] eqn:Ed; [|discriminate].
      intros H. apply IH in H. destruct H as [-> Hb]. cbn [length seq map]. rewrite <- app_assoc. split; [easy|].
      rewrite Hb. unfold wants_stop. split.
      + intros [H|(c' & H1 & H2)]; [|right; exists c'; split; [now right|easy]].
        destruct d as [[]|]; [right; exists c; split; [now left|easy]|left|now left].
        now rewrite orb_false_r in H.
      + intros [->|(c' & [<-|H1] & H2)].
        * left. now destruct d.
        * left. rewrite Ed in H2. injection H2 as ->. apply orb_true_r.
        * right. eauto.
  Qed.

  (** Ways to give values. *)
  Inductive given_y : y0arg N -> option (list (yarg N)) -> Prop :=
  | gy_none : given_y Y0None None
  | gy_one x : given_y (Y0Num x) (Some [YNum x])
  | gy_list l : given_y (Y0Seq l) (Some l).

  Definition calls_of (n : nat) (r : result) : list event := map (fun i => ECall i r) (seq 0 n).

  (** What the loop has done. *)
  Inductive looped (f : objective N) (cbs : list callback) :
    nat -> nat -> list result -> state -> state -> list (point N * yarg N * result) -> Prop :=
  | lp_end k seen o : looped f cbs k 0 seen o o []
  | lp_stop k n seen o o1 o2 p y r :
      ask O G W NPNone "cl_min" o = (o1, Ok (A1pt p)) -> f k p = Ok y ->
      tell O G W (X1 p) y true o1 = (o2, Ok r) -> wants_stop cbs (seen ++ [r]) ->
      looped f cbs k (S n) seen o o2 [(p, y, r)]
  | lp_go k n seen o o1 o2 o3 p y r L :
      ask O G W NPNone "cl_min" o = (o1, Ok (A1pt p)) -> f k p = Ok y ->
      tell O G W (X1 p) y true o1 = (o2, Ok r) -> ~ wants_stop cbs (seen ++ [r]) ->
      looped f cbs (S k) n (seen ++ [r]) o2 o3 L ->
      looped f cbs k (S n) seen o o3 ((p, y, r) :: L).
  Definition step_events (n : nat) (s : point N * yarg N * result) : list event :=
    let '(p, _, r) := s in EEval p :: calls_of n r.
  Definition final (last : option result) (L : list (point N * yarg N * result)) : option result :=
    fold_left (fun _ s => Some (snd s)) L last.

  Lemma loop_ok f cbs n : forall k seen last (o : state) t s' res,
    min_loop O G W f cbs k n seen last (o, t) = (s', Ok res) ->
    exists o' L, looped f cbs k n seen o o' L /\ s' = (o', t ++ flat_map (step_events (length cbs)) L) /\
      res = final last L.
  Proof.
    induction n as [|n IH]; intros k seen last o t s' res.
    - intros H. injection H as <- <-. exists o, []. split; [constructor|]. cbn. now rewrite app_nil_r.
    - cbn [min_loop]. intros H.
      apply mthen_ok in H. destruct H as (s1 & p & H1 & H). apply onopt_ok in H1. destruct H1 as (o1 & H1 & ->).
      apply mthen_ok in H. destruct H as (s2 & [] & H2 & H). injection H2 as <-. cbn [fst snd] in H.
      apply mthen_ok in H. destruct H as (s3 & y & H3 & H). injection H3 as <- H3.
      apply mthen_ok in H. destruct H as (s4 & r & H4 & H). apply onopt_ok in H4. destruct H4 as (o2 & H4 & ->).
      apply mthen_ok in H. destruct H as (s5 & stop & H5 & H). apply callbacks_ok in H5. destruct H5 as [-> Hs].
      assert (Ha : ask O G W NPNone "cl_min" o = (o1, Ok (A1pt p))) by (rewrite ask_none, H1; reflexivity).
      destruct stop.
      + injection H as <- <-. exists o2, [(p, y, r)]. split.
        * eapply lp_stop; eauto. destruct (proj1 Hs eq_refl); [discriminate|easy].
        * cbn. rewrite <- !app_assoc. cbn. now rewrite app_nil_r.
      + apply IH in H. destruct H as (o' & L & HL & -> & ->). exists o', ((p, y, r) :: L). split.
        * eapply lp_go; eauto. intros Hw. pose proof (proj2 Hs (or_intror Hw)). discriminate.
        * cbn. rewrite <- !app_assoc. easy.
  Qed.
  Lemma points_ok f : forall xs k (o : state) t s' ys,
    eval_points f k xs (o, t) = (s', Ok ys) ->
    s' = (o, t ++ map EEval xs) /\ length ys = length xs /\
    forall i x, nth_error xs i = Some x -> exists y, nth_error ys i = Some y /\ f (k + i) x = Ok y.
  Proof.
    induction xs as [|x xs IH]; intros k o t s' ys.
    - intros H. injection H as <- <-. cbn. rewrite app_nil_r. split; [easy|]. split; [easy|]. intros [|i]; discriminate.
    - cbn [eval_points]. intros H.
      apply mthen_ok in H. destruct H as (s1 & [] & H1 & H). injection H1 as <-. cbn [fst snd] in H.
      apply mthen_ok in H. destruct H as (s2 & y & H2 & H). injection H2 as <- H2.
      apply mthen_ok in H. destruct H as (s3 & ys' & H3 & H). injection H as <- <-.
      apply IH in H3. destruct H3 as (-> & Hl & Hv). cbn. rewrite <- app_assoc. split; [easy|]. split; [now rewrite Hl|].
      intros [|i] x'; cbn.
      + intros E. injection E as <-. exists y. now rewrite Nat.add_0_r.
      + intros E. replace (k + S i) with (S k + i) by lia. now apply Hv.
  Qed.

  (** What a whole session has done: the optimizer it made, whether given points were told (and what was
      evaluated for that), and the steps. *)
  Inductive session (f : objective N) (cbs : list callback) (n_calls : Z) (x0 : list (point N)) (o0 : state) :
    option (list (yarg N)) -> list event -> state -> option result -> Prop :=
  | ss_plain y0 o' L : x0 = [] -> looped f cbs 0 (Z.to_nat n_calls) [] o0 o' L ->
      session f cbs n_calls x0 o0 y0 (flat_map (step_events (length cbs)) L) o' (final None L)
  | ss_stop y0 ys te k r o1 :
      x0 <> [] -> length ys = length x0 -> tell O G W (X2 x0) (YLst ys) true o0 = (o1, Ok r) ->
      wants_stop cbs [r] ->
      match y0 with
      | Some l => ys = l /\ te = [] /\ k = 0
      | None => te = x0 /\ k = length x0 /\
          forall i x, nth_error x0 i = Some x -> exists y, nth_error ys i = Some y /\ f i x = Ok y
      end ->
      session f cbs n_calls x0 o0 y0 (map EEval te ++ calls_of (length cbs) r) o1 (Some r)
  | ss_go y0 ys te k r o1 o' L :
      x0 <> [] -> length ys = length x0 -> tell O G W (X2 x0) (YLst ys) true o0 = (o1, Ok r) ->
      ~ wants_stop cbs [r] ->
      match y0 with
      | Some l => ys = l /\ te = [] /\ k = 0
      | None => te = x0 /\ k = length x0 /\
          forall i x, nth_error x0 i = Some x -> exists y, nth_error ys i = Some y /\ f i x = Ok y
      end ->
      looped f cbs k (Z.to_nat (n_calls - Z.of_nat k)) [r] o1 o' L ->
      session f cbs n_calls x0 o0 y0
        (map EEval te ++ calls_of (length cbs) r ++ flat_map (step_events (length cbs)) L) o' (final (Some r) L).

  Lemma body_ok f cbs n_calls x0 y0 y0' (o : state) o' t res :
    given_y y0 y0' ->
    min_body O G W f cbs n_calls x0 (y0_list y0) (o, []) = ((o', t), Ok res) ->
    session f cbs n_calls x0 o y0' t o' res.
  Proof.
    intros Hy. destruct x0 as [|p x0].
    - cbn [min_body]. intros H. apply loop_ok in H. destruct H as (o1 & L & HL & E & ->). injection E as -> ->.
      now constructor.
    - cbn [min_body]. set (X := p :: x0) in *. assert (HX : X <> []) by (subst X; easy). clearbody X.
      intros H. apply mthen_ok in H. destruct H as (s1 & [ys k] & H1 & H).
      assert (C : exists te, s1 = (o, map EEval te) /\
                match y0' with
                | Some l => ys = l /\ te = [] /\ k = 0
                | None => te = X /\ k = length X /\ length ys = length X /\
                    forall i x, nth_error X i = Some x -> exists y, nth_error ys i = Some y /\ f i x = Ok y
                end).
      { destruct Hy as [|x|l]; cbn [y0_list] in H1.
        - apply mthen_ok in H1. destruct H1 as (s2 & ys' & H1 & H2). injection H2 as <- <- <-.
          apply points_ok in H1. destruct H1 as (-> & Hl & Hv). exists X. split; [easy|]. auto.
        - injection H1 as <- <- <-. now exists [].
        - injection H1 as <- <- <-. now exists []. }
      destruct C as (te & -> & C).
      destruct (negb (Nat.eqb (length X) (length ys))) eqn:El; [discriminate|].
      apply negb_false_iff, Nat.eqb_eq in El. symmetry in El.
      apply mthen_ok in H. destruct H as (s2 & r & H2 & H). apply onopt_ok in H2. destruct H2 as (o1 & H2 & ->).
      apply mthen_ok in H. destruct H as (s3 & stop & H3 & H). apply callbacks_ok in H3. destruct H3 as [-> Hs].
      cbn [app] in Hs.
      assert (C' : match y0' with
                   | Some l => ys = l /\ te = [] /\ k = 0
                   | None => te = X /\ k = length X /\
                     forall i x, nth_error X i = Some x -> exists y, nth_error ys i = Some y /\ f i x = Ok y
                   end) by (destruct y0'; tauto).
      destruct stop.
      + injection H as <- <- <-. eapply ss_stop; eauto. destruct (proj1 Hs eq_refl); [discriminate|easy].
      + apply loop_ok in H. destruct H as (o2 & L & HL & E & ->). injection E as -> ->.
        rewrite <- app_assoc. eapply ss_go; eauto. intros Hw. pose proof (proj2 Hs (or_intror Hw)). discriminate.
  Qed.

  Notation n0_of := n_initial.

  Lemma map_IVal (l : list (item N)) p : mapM as_value l = Ok p -> l = map IVal p.
  Proof.
    revert p. induction l as [|i l IH]; intros p H; cbn in H; [now injection H as <-|].
    apply bind_ok in H. destruct H as (v & Hv & H). apply bind_ok in H. destruct H as (q & Hq & H). injection H as <-.
    destruct i; [|discriminate]. injection Hv as ->. cbn. f_equal. now apply IH.
  Qed.
  Lemma map_IPt (l : list (item N)) p : mapM as_point l = Ok p -> l = map IPt p.
  Proof.
    revert p. induction l as [|i l IH]; intros p H; cbn in H; [now injection H as <-|].
    apply bind_ok in H. destruct H as (v & Hv & H). apply bind_ok in H. destruct H as (q & Hq & H). injection H as <-.
    destruct i as [[]|]; try discriminate. injection Hv as ->. cbn. f_equal. now apply IH.
  Qed.
  Lemma items_given (x0 : x0arg N) items ps : x0_items x0 = Ok items -> mapM as_point items = Ok ps -> given x0 ps.
  Proof.
    intros H H2. apply map_IPt in H2. subst items. destruct x0 as [|b l|]; cbn in H.
    - injection H as H. destruct ps; [constructor|discriminate].
    - destruct l as [|i l]; [destruct b; discriminate|]. destruct i as [v|p].
      + destruct b; apply bind_ok in H; destruct H as (q & Hq & H); injection H as H;
          apply map_IVal in Hq; rewrite Hq; destruct ps as [|? [|]]; try discriminate; injection H as <-;
          constructor; destruct q; easy.
      + destruct b; [|discriminate]. injection H as H. rewrite H. constructor. now destruct ps.
    - discriminate.
  Qed.

  Lemma base_ok f a g t o' res : base_minimize O G W f a g = (t, o', Ok res) ->
    exists x0 g' o0 o1, o' = Some o1 /\ given (m_x0 a) x0 /\
      make_optimizer O G W (set_n0 (n0_of a + Z.of_nat (length x0)) (m_opt a)) g = (g', Ok o0) /\
      Forall (fun p => length p = length (c_dims (o_cfg o0))) x0 /\
      (x0 = [] -> (0 < n0_of a)%Z) /\
      (n0_of a + (if y0_falsy (y0_list (m_y0 a)) then Z.of_nat (length x0) else 0) <= m_ncalls a)%Z /\
      match m_callback a with CBOther => False | _ => True end /\
      (x0 = [] \/ m_y0 a <> Y0Other) /\
      forall y0', given_y (m_y0 a) y0' \/ (m_y0 a = Y0Other /\ y0' = None) ->
      session f (callbacks_of a) (m_ncalls a) x0 o0 y0' t o1 res.
  Proof.
    unfold base_minimize. destruct (x0_items (m_x0 a)) as [items|] eqn:Ex; [|discriminate]. fold (n_initial a).
    destruct ((n0_of a <=? 0)%Z && is_nil items) eqn:E0; [discriminate|].
    destruct (_ <? _)%Z eqn:E1; [discriminate|]. apply Z.ltb_ge in E1.
    destruct (make_optimizer _ _ _ _ _) as [g' [o0|]] eqn:Em; [|discriminate].
    destruct (mapM as_point items) as [x0|] eqn:Ep; [|discriminate].
    destruct (negb _) eqn:Ed; [discriminate|]. apply negb_false_iff in Ed.
    assert (Ecb : forall cbs, check_callback (m_callback a) = Ok cbs ->
              (if m_verbose a then cbs ++ [verbose_callback] else cbs) = callbacks_of a /\
              match m_callback a with CBOther => False | _ => True end).
    { unfold callbacks_of, check_callback. destruct (m_callback a); intros cbs H; try discriminate; injection H as <-;
        destruct (m_verbose a); cbn; rewrite ?app_nil_r; auto. }
    destruct (check_callback (m_callback a)) as [cbs|]; [|discriminate]. destruct (Ecb _ eq_refl) as [-> Hcb].
    destruct (min_body _ _ _ _ _ _ _ _ _) as [[o1 t1] r1] eqn:Eb. intros H. injection H as -> <- ->.
    pose proof (items_given _ Ex Ep) as Hg. apply map_IPt in Ep. subst items. rewrite map_length in *.
    exists x0, g', o0, o1. split; [easy|]. split; [exact Hg|]. split; [exact Em|]. split.
    { apply Forall_forall. intros p Hp. rewrite forallb_forall in Ed. now apply Nat.eqb_eq, Ed. }
    split. { intros ->. cbn in E0. rewrite andb_true_r in E0. now apply Z.leb_gt in E0. }
    split; [exact E1|]. split; [exact Hcb|].
    assert (Hoth : x0 = [] \/ m_y0 a <> Y0Other).
    { destruct x0 as [|p x0]; [now left|]. right. intros E. rewrite E in Eb. discriminate. }
    split; [exact Hoth|].
    intros y0' [Hy|[Hy ->]].
    - eapply body_ok; eauto.
    - destruct Hoth as [->|Hoth]; [|easy]. eapply body_ok; [constructor|exact Eb].
  Qed.

  (** All minimisers are base_minimize with other settings of the optimizer. *)
  Lemma minimize_base m f a g t o' res : minimize O G W m f a g = (t, o', Ok res) ->
    exists a' g1, base_minimize O G W f a' g1 = (t, o', Ok res) /\
      m_ncalls a' = m_ncalls a /\ m_x0 a' = m_x0 a /\ m_y0 a' = m_y0 a /\ callbacks_of a' = callbacks_of a /\
      (m <> MDummy -> n0_of a' = n0_of a) /\
      (m = MBase -> a' = a /\ g1 = g) /\ (m = MDummy -> m_opt a' = dummy_opt (m_opt a)).
  Proof.
    destruct m; cbn [minimize]; intros H.
    - exists a, g. now auto 10.
    - unfold dummy_minimize in H. destruct (match m_x0 a with X0None => _ | _ => _ end); [|discriminate].
      eexists _, g. split; [exact H|]. cbn. easy.
    - eexists _, g. split; [exact H|]. now cbn.
    - eexists _, g. split; [exact H|]. now cbn.
    - unfold gp_minimize in H. destruct (set_kinds_all _ _); [|discriminate].
      eexists _, _. split; [exact H|]. now cbn.
  Qed.
End MinLemmas.
