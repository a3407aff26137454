(** Fitting in detail, and the invariant of every optimizer that can arise (C16, C17, C22, C25). *)
From Coq Require Import String List ZArith Bool Lia.
From Verif Require Import Base Num Values Transformers Dimension Space Optimizer NumLaws BaseLemmas
  SpaceSpec MetricLemmas OptSpec OptLemmas OptLemmas2.
Import ListNotations.
Open Scope list_scope.
Set Implicit Arguments.

Section OptFit.
  Context {N RNG M : Type} (O : numops N) (G : rng_ops N RNG) (W : world N M).
  Notation state := (opt N RNG M).
  Notation row := (list (pyval N)).

  (** *** Exact effect of the pieces *)
  Lemma set_self_gains (o : state) : set_gains (o_gains o) o = o. Proof. now destruct o. Qed.
  Lemma set_self_models (o : state) : set_models (o_models o) o = o. Proof. now destruct o. Qed.
  Lemma set_self_rng (o : state) : set_rng (o_rng o) o = o. Proof. now destruct o. Qed.
  Lemma set_self_xs (o : state) : set_next_xs (o_next_xs o) o = o. Proof. now destruct o. Qed.

  Definition new_gains (o : state) (est : M) (gs : list N) : Prop :=
    match c_acq (o_cfg o), o_next_xs o with
    | AHedge, Some xs => exists p, w_predict W est xs = Ok p /\ sub_list O (o_gains o) p = Ok gs
    | _, _ => gs = o_gains o
    end.
  Lemma update_gains_spec est (o : state) :
    match update_gains O W est o with
    | (o', Ok _) => exists gs, new_gains o est gs /\ o' = set_gains gs o
    | (o', Raise _) => o' = o
    end.
  Proof.
    unfold update_gains, new_gains, andthen, get, lift, upd, ret.
    destruct (o_next_xs o) as [xs|].
    - destruct (c_acq (o_cfg o)); [|exists (o_gains o); now rewrite set_self_gains].
      destruct xs as [|x xs]; [easy|].
      destruct (w_predict W est (x :: xs)) as [p|]; [|easy].
      destruct (sub_list O (o_gains o) p) as [gs|] eqn:E; [|easy]. exists gs. split; [now exists p|easy].
    - exists (o_gains o). rewrite set_self_gains. destruct (c_acq (o_cfg o)); auto.
  Qed.

  Definition pushed (q : option Z) (ms : list M) (est : M) (ms' : list M) : Prop :=
    match q with
    | None => ms' = ms ++ [est]
    | Some q => ((Z.of_nat (length ms) < q)%Z /\ ms' = ms ++ [est]) \/
                ((q <= Z.of_nat (length ms))%Z /\ exists m t, ms = m :: t /\ ms' = t ++ [est])
    end.
  Lemma push_model_spec est (o : state) :
    match push_model est o with
    | (o', Ok _) => exists ms, pushed (c_queue (o_cfg o)) (o_models o) est ms /\ o' = set_models ms o
    | (o', Raise e) => o' = o /\ e = IndexError /\ o_models o = [] /\
                       exists q, c_queue (o_cfg o) = Some q /\ (q <= 0)%Z
    end.
  Proof.
    unfold push_model, pushed, andthen, get, lift, upd, ret.
    destruct (c_queue (o_cfg o)) as [q|]; [|eauto].
    destruct (_ <? _)%Z eqn:E.
    - apply Z.ltb_lt in E. eauto.
    - apply Z.ltb_ge in E. destruct (o_models o) as [|m t].
      + repeat split. exists q. simpl in E. split; [easy|lia].
      + exists (t ++ [est]). split; [right; eauto|easy].
  Qed.

  Lemma candidates_spec (o : state) :
    match candidates O G o with
    | (o', r) => exists g P, space_rvs O G (c_dims (o_cfg o)) (c_npoints (o_cfg o)) (o_rng o) = (P, g) /\
        o' = set_rng g o /\ r = (P <- P ;; space_transform O (c_dims (o_cfg o)) P)
    end.
  Proof.
    unfold candidates, andthen, get, lift, upd. cbn [fst snd].
    destruct (space_rvs _ _ _ _ _) as [[P|e] g]; cbn; do 2 eexists; split; try reflexivity; now split.
  Qed.

  Definition proposed (o : state) (est : M) (X : list row) (a : acq1) (x : row) : Prop :=
    exists yopt x0, np_min O (y_flat (o_yi o)) = Ok yopt /\ pick O W (o_cfg o) a est yopt X = Ok x0 /\
      (if is_categorical (c_dims (o_cfg o)) then x = x0
       else clip_row O (space_tbounds O (c_dims (o_cfg o))) x0 = Ok x).
  Definition xs_of (o : state) : list row := match o_next_xs o with Some xs => xs | None => [] end.
  Lemma proposed_frame (o o' : state) est X a x : o_yi o' = o_yi o -> o_cfg o' = o_cfg o ->
    proposed o' est X a x -> proposed o est X a x.
  Proof. unfold proposed. now intros -> ->. Qed.

  Lemma fill_spec est X l : forall o : state,
    match fill_next_xs O W l est X o with
    | (o', Ok _) => exists xs, Forall2 (proposed o est X) l xs /\
        o' = set_next_xs (match l with [] => o_next_xs o | _ => Some (xs_of o ++ xs) end) o
    | (o', Raise _) => exists xs, o' = set_next_xs xs o
    end.
  Proof.
    induction l as [|a l IH]; intros o.
    - simpl. exists []. split; [constructor|]. now rewrite set_self_xs.
    - cbn [fill_next_xs]. unfold andthen, get, lift, upd.
      destruct (np_min O (y_flat (o_yi o))) as [yopt|] eqn:E1; [|exists (o_next_xs o); now rewrite set_self_xs].
      destruct (pick O W (o_cfg o) a est yopt X) as [x0|] eqn:E2; [|exists (o_next_xs o); now rewrite set_self_xs].
      destruct (if is_categorical _ then _ else _) as [x|] eqn:E3; [|exists (o_next_xs o); now rewrite set_self_xs].
      assert (Hp : proposed o est X a x).
      { exists yopt, x0. repeat split; auto. destruct (is_categorical _); congruence. }
      set (o1 := set_next_xs _ o). specialize (IH o1).
      destruct (fill_next_xs O W l est X o1) as [o' [u|e]].
      + destruct IH as (xs & F & ->). exists (x :: xs). split.
        * constructor; [exact Hp|]. eapply Forall2_weaken; [|exact F]. intros a' x'. now apply proposed_frame.
        * subst o1. unfold set_next_xs, xs_of. simpl. destruct l.
          { inversion F; subst. reflexivity. }
          { now rewrite <- app_assoc. }
      + destruct IH as (xs & ->). exists xs. reflexivity.
  Qed.

  Lemma choose_spec (o : state) :
    match choose_next O G o with
    | (o', r) => (exists g, o' = set_rng g o) /\
        (forall nx, r = Ok nx -> exists i, nth_error (xs_of o) i = Some nx /\
           match c_acq (o_cfg o) with
           | AHedge => exists ps, hedge_weights O (c_eta (o_cfg o)) (o_gains o) = Ok ps /\
                                  i = fst (rg_multinomial G (o_rng o) ps)
           | AOne _ => i = 0
           end)
    end.
  Proof.
    unfold choose_next, andthen, get, lift, upd, xs_of. set (xs := match o_next_xs o with Some xs => xs | None => [] end).
    assert (Hid : exists g, o = set_rng g o) by (exists (o_rng o); now rewrite set_self_rng).
    destruct (c_acq (o_cfg o)) eqn:Ea.
    - destruct (hedge_weights _ _ _) as [ps|] eqn:Eh; [|split; [exact Hid|discriminate]].
      destruct (rg_multinomial G (o_rng o) ps) as [i g] eqn:Er. split; [now exists g|].
      unfold nth_row. intros nx H. destruct (nth_error xs i) as [r|] eqn:En; [|discriminate]. injection H as <-.
      exists i. split; [easy|]. exists ps. split; [easy|]. now rewrite Er.
    - split; [exact Hid|]. unfold nth_row. intros nx H. destruct (nth_error xs 0) as [r|] eqn:En; [|discriminate].
      injection H as <-. now exists 0.
  Qed.

  (** A point decoded from one row has one coordinate per dimension. *)
  Lemma transpose_rows {A} (cols : list (list A)) P : transpose cols = Ok P ->
    Forall (fun p => length p = length cols) P.
  Proof.
    unfold transpose. destruct cols as [|c cols]; [discriminate|]. intros H.
    apply Forall_forall. intros p Hp. destruct (mapM_in _ _ _ H Hp) as (i & _ & Hi). now apply mapM_length in Hi.
  Qed.
  Lemma inverse_columns_length (dims : list (dim N)) : forall s Xt cols,
    inverse_columns O dims s Xt = Ok cols -> length cols = length dims.
  Proof.
    induction dims as [|d dims IH]; intros s Xt cols H; cbn [inverse_columns] in H.
    - now injection H as <-.
    - apply bind_ok in H. destruct H as (c & _ & H). apply bind_ok in H. destruct H as (cs & H & E).
      injection E as <-. simpl. f_equal. eauto.
  Qed.
  Lemma space_inverse_width (dims : list (dim N)) Xt P : space_inverse O dims Xt = Ok P ->
    Forall (fun p => length p = length dims) P.
  Proof.
    unfold space_inverse. intros H. apply bind_ok in H. destruct H as (cols & Hc & Ht).
    rewrite <- (inverse_columns_length _ _ _ Hc). now apply transpose_rows.
  Qed.

  (** *** The whole fit *)
  Record fitted (o o' : state) := {
    f_P : list (point N); f_Xt : list row; f_est : M; f_X : list row; f_xs : list row; f_i : nat;
    f_nx : row; f_p : point N; f_rest : list (point N); f_ps : list N;
    f_plain : mapM (@plain N) (o_Xi o) = Ok f_P;
    f_trans : space_transform O (c_dims (o_cfg o)) f_P = Ok f_Xt;
    f_fit : w_fit W f_Xt (o_yi o) = Ok f_est;
    f_gains : new_gains o f_est (o_gains o');
    f_push : pushed (c_queue (o_cfg o)) (o_models o) f_est (o_models o');
    f_cand : exists g P0, fst (space_rvs O G (c_dims (o_cfg o)) (c_npoints (o_cfg o)) g) = Ok P0 /\
                          space_transform O (c_dims (o_cfg o)) P0 = Ok f_X;
    f_prop : Forall2 (proposed o f_est f_X) (cand_acqs (c_acq (o_cfg o))) f_xs;
    f_next_xs : o_next_xs o' = Some f_xs;
    f_choice : nth_error f_xs f_i = Some f_nx;
    f_weights : c_acq (o_cfg o) = AHedge ->
       hedge_weights O (c_eta (o_cfg o)) (o_gains o') = Ok f_ps /\ exists g, f_i = fst (rg_multinomial G g f_ps);
    f_single : forall a, c_acq (o_cfg o) = AOne a -> f_i = 0;
    f_inv : space_inverse O (c_dims (o_cfg o)) [f_nx] = Ok (f_p :: f_rest);
    f_next : o_next o' = Some f_p }.

  Lemma refit_ok (o o' : state) : refit O G W o = (o', Ok tt) -> inhabited (fitted o o').
  Proof.
    unfold refit. intros H.
    apply andthen_ok in H. destruct H as (o0 & s0 & E & H). injection E as <- <-.
    apply andthen_ok in H. destruct H as (o0 & P & E & H). injection E as <- EP.
    apply andthen_ok in H. destruct H as (o0 & Xt & E & H). injection E as <- EX.
    apply andthen_ok in H. destruct H as (o0 & est & E & H). injection E as <- Ee.
    apply andthen_ok in H. destruct H as (o1 & u1 & E1 & H).
    pose proof (update_gains_spec est o) as S1. rewrite E1 in S1. destruct S1 as (gs & Hgs & ->). clear E1.
    apply andthen_ok in H. destruct H as (o2 & u2 & E2 & H).
    pose proof (push_model_spec est (set_gains gs o)) as S2. rewrite E2 in S2. destruct S2 as (ms & Hms & ->). clear E2.
    apply andthen_ok in H. destruct H as (o3 & X & E3 & H).
    pose proof (candidates_spec (set_models ms (set_gains gs o))) as S3. rewrite E3 in S3.
    destruct S3 as (g3 & P3 & Er & -> & Ex). clear E3. symmetry in Ex. apply bind_ok in Ex. destruct Ex as (P0 & -> & Ex).
    apply andthen_ok in H. destruct H as (o4 & u4 & E4 & H). injection E4 as <- <-.
    apply andthen_ok in H. destruct H as (o5 & u5 & E5 & H).
    match type of E5 with fill_next_xs _ _ _ _ _ ?s = _ => pose proof (fill_spec est X (cand_acqs (c_acq (o_cfg o))) s) as S5;
      rewrite E5 in S5; set (os := s) in * end.
    destruct S5 as (xs & Hxs & ->). clear E5.
    apply andthen_ok in H. destruct H as (o6 & nx & E6 & H).
    match type of E6 with choose_next _ _ ?s = _ => pose proof (choose_spec s) as S6 end.
    rewrite E6 in S6. destruct S6 as [[g6 ->] Hch]. destruct (Hch nx eq_refl) as (i & Hi & Hw). clear E6 Hch.
    apply andthen_ok in H. destruct H as (o7 & P' & E7 & H). injection E7 as <- E7.
    apply andthen_ok in H. destruct H as (o8 & p & E8 & H). injection E8 as <- E8.
    injection H as <-.
    destruct P' as [|p' rest]; [discriminate|]. injection E8 as ->.
    assert (Hne : cand_acqs (c_acq (o_cfg o)) <> []) by (destruct (c_acq (o_cfg o)); easy).
    assert (Hxs' : xs_of (set_next_xs (match cand_acqs (c_acq (o_cfg o)) with [] => o_next_xs os | _ :: _ => Some (xs_of os ++ xs) end) os) = xs).
    { destruct (cand_acqs (c_acq (o_cfg o))); [easy|]. reflexivity. }
    rewrite Hxs' in Hi. 
    constructor.
    set (ps := match c_acq (o_cfg o) with
               | AHedge => match hedge_weights O (c_eta (o_cfg o)) gs with Ok ps => ps | _ => [] end
               | _ => [] end).
    apply (@Build_fitted o _ P Xt est X xs i nx p rest ps); auto.
    - now exists (o_rng (set_models ms (set_gains gs o))), P0; cbn in *; rewrite Er.
    - simpl. destruct (cand_acqs (c_acq (o_cfg o))); [easy|]. reflexivity.
    - intros Ea. subst ps. simpl in Hw. rewrite Ea in *. simpl in Hw. destruct Hw as (ps & Hps & Hi').
      simpl. rewrite Hps. split; [easy|]. eauto.
    - intros a Ea. simpl in Hw. now rewrite Ea in Hw.
  Qed.

  (** Fitting or failing to fit: what may have changed. *)
  Definition next_ok (o o' : state) : Prop :=
    o_next o' = o_next o \/ exists p, o_next o' = Some p /\ length p = length (c_dims (o_cfg o)).
  Definition models_ok (o o' : state) : Prop :=
    o_models o' = o_models o \/
    exists P Xt est, mapM (@plain N) (o_Xi o) = Ok P /\ space_transform O (c_dims (o_cfg o)) P = Ok Xt /\
      w_fit W Xt (o_yi o) = Ok est /\ pushed (c_queue (o_cfg o)) (o_models o) est (o_models o').
  Lemma refit_any (o : state) : next_ok o (fst (refit O G W o)) /\ models_ok o (fst (refit O G W o)).
  Proof.
    destruct (refit O G W o) as [o' [[]|e]] eqn:E.
    - destruct (refit_ok _ E) as [F]. split.
      + right. exists (f_p F). split; [apply F|]. pose proof (space_inverse_width _ _ (f_inv F)) as H. now inversion H.
      + right. exists (f_P F), (f_Xt F), (f_est F). destruct F; simpl. auto.
    - revert E. unfold refit. unfold andthen at 1, get.
      unfold andthen at 1, lift. destruct (mapM _ _) as [P|] eqn:EP; [|intros E; injection E as <- <-; split; now left].
      unfold andthen at 1. destruct (space_transform _ _ _) as [Xt|] eqn:EX; [|intros E; injection E as <- <-; split; now left].
      unfold andthen at 1. destruct (w_fit W Xt (o_yi o)) as [est|] eqn:Ee; [|intros E; injection E as <- <-; split; now left].
      unfold andthen at 1. pose proof (update_gains_spec est o) as S1.
      destruct (update_gains O W est o) as [o1 [u1|]]; [|subst; intros E; injection E as <- <-; split; now left].
      destruct S1 as (gs & _ & ->).
      unfold andthen at 1. pose proof (push_model_spec est (set_gains gs o)) as S2.
      destruct (push_model est (set_gains gs o)) as [o2 [u2|]];
        [|destruct S2 as (-> & _); intros E; injection E as <- <-; split; now left].
      destruct S2 as (ms & Hms & ->).
      assert (Hm : forall o', o_models o' = ms -> models_ok o o').
      { intros o1 <-. right. exists P, Xt, est. auto. }
      unfold andthen at 1. pose proof (candidates_spec (set_models ms (set_gains gs o))) as S3.
      destruct (candidates O G _) as [o3 r3]. destruct S3 as (g3 & P3 & _ & -> & _).
      destruct r3 as [X|]; [|intros E; injection E as <- <-; split; [now left|now apply Hm]].
      unfold andthen at 1, upd at 1.
      unfold andthen at 1. 
      match goal with |- context [fill_next_xs O W ?l est X ?s] => pose proof (fill_spec est X l s) as S5;
        destruct (fill_next_xs O W l est X s) as [o5 [u5|]] end;
      destruct S5 as (xs & S5); [|subst o5; intros E; injection E as <- <-; split; [now left|now apply Hm]].
      destruct S5 as (_ & ->).
      unfold andthen at 1. 
      match goal with |- context [choose_next O G ?s] => pose proof (choose_spec s) as S6;
        destruct (choose_next O G s) as [o6 [nx|]] end;
      destruct S6 as ((g6 & ->) & _); [|intros E; injection E as <- <-; split; [now left|now apply Hm]].
      unfold andthen at 1. destruct (space_inverse _ _ _) as [P'|]; [|intros E; injection E as <- <-; split; [now left|now apply Hm]].
      unfold andthen at 1. destruct (first_of P') as [p|]; [discriminate|].
      intros E; injection E as <- <-; split; [now left|now apply Hm].
  Qed.

  (** *** keep *)
  Lemma keep_pushed q ms est ms' : pushed q ms est ms' ->
    (forall z, q = Some z -> (Z.of_nat (length ms) <= Z.max 0 z)%Z) ->
    ms' = keep q (ms ++ [est]) /\ (forall z, q = Some z -> (Z.of_nat (length ms') <= Z.max 0 z)%Z).
  Proof.
    destruct q as [q|]; simpl; [|intros -> _; split; [easy|discriminate]].
    intros [[H ->]|[H (m & t & -> & ->)]] Hq; specialize (Hq q eq_refl).
    - split.
      + rewrite app_length. simpl. replace (length ms + 1 - Z.to_nat q) with 0 by lia. reflexivity.
      + intros z E. injection E as <-. rewrite app_length. simpl. lia.
    - cbn [length] in *. split.
      + rewrite app_length. cbn [length app].
        replace (length t + 1 + 1 - Z.to_nat q) with 1 by lia. replace (S (length t) + 1 - Z.to_nat q) with 1 by lia. reflexivity.
      + intros z E. injection E as <-. rewrite app_length. simpl. lia.
  Qed.
End OptFit.
