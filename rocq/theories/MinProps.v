(** The minimiser properties (C27-C30). *)
From Coq Require Import String List ZArith Bool Lia.
From Verif Require Import Base Num Values Transformers Dimension Space Optimizer BaseLemmas OptSpec OptLemmas OptLemmas2
  OptLemmas4 OptLemmas5 OptProps Minimize MinSpec MinLemmas.
Import ListNotations.
Open Scope list_scope.
Set Implicit Arguments.

Section MinProps.
  Context {N RNG M : Type} (O : numops N) (G : rng_ops N RNG) (W : world N M).
  Notation state := (opt N RNG M).
  Notation result := (result N RNG M).
  Notation event := (event N RNG M).
  Notation callback := (callback N RNG M).
  Notation looped := (looped O G W).
  Notation session := (session O G W).
  Notation step := (point N * yarg N * result)%type.

  Lemma evals_app (t1 t2 : list event) : evals (t1 ++ t2) = evals t1 ++ evals t2.
  Proof. apply flat_map_app. Qed.
  Lemma evals_calls n (r : result) : evals (calls_of n r) = [].
  Proof. unfold calls_of, evals. generalize 0. induction n; intros i; cbn; auto. Qed.
  Lemma evals_points (ps : list (point N)) : evals (map EEval ps : list event) = ps.
  Proof. induction ps as [|p ps IH]; [easy|]. cbn. f_equal. exact IH. Qed.
  Definition pt_of (s : step) : point N := fst (fst s).
  Lemma evals_steps n (L : list step) : evals (flat_map (step_events n) L) = map pt_of L.
  Proof.
    induction L as [|[[p y] r] L IH]; [easy|]. cbn [flat_map step_events]. rewrite evals_app, IH.
    change (evals (EEval p :: calls_of n r)) with (p :: evals (calls_of n r)). now rewrite evals_calls.
  Qed.
  Lemma evaluated_app ps f : forall L1 L2 k, evaluated O ps f k L1 -> evaluated O ps f (k + length L1) L2 ->
    evaluated O ps f k (L1 ++ L2).
  Proof.
    induction L1 as [|a L1 IH]; intros L2 k H1 H2; [now rewrite Nat.add_0_r in H2|].
    inversion H1; subst. cbn. econstructor; eauto. apply IH; auto. now replace (S k + length L1) with (k + S (length L1)) by lia.
  Qed.

  Lemma final_is (r : result) (L : list step) : exists r', final (Some r) L = Some r'.
  Proof. revert r. induction L as [|s L IH]; intros r; [now exists r|]. apply (IH (snd s)). Qed.
  Lemma final_some (r : result) (L : list step) :
    final (Some r) L = Some (match final None L with Some r' => r' | None => r end).
  Proof.
    destruct L as [|s L]; [easy|]. change (final (Some r) (s :: L)) with (final (Some (snd s)) L).
    change (final None (s :: L)) with (final (Some (snd s)) L).
    destruct (final_is (snd s) L) as [r' E]. now rewrite E.
  Qed.

  (** One ask, one evaluation, one tell. *)
  Lemma step_grows (o o1 o2 : state) p y r :
    ask O G W NPNone "cl_min" o = (o1, Ok (A1pt p)) -> tell O G W (X1 p) y true o1 = (o2, Ok r) ->
    exists v, observation O (ps_of o) y v /\ o_Xi o2 = o_Xi o ++ [X1 p] /\ o_yi o2 = o_yi o ++ [v] /\
      o_cfg o2 = o_cfg o.
  Proof.
    intros Ha Ht. destruct (c18_frame _ _ _ _ _ _ Ha) as (E1 & E2 & _ & _ & _ & E3 & _).
    assert (Hps : ps_of o1 = ps_of o) by (unfold ps_of; now rewrite E3).
    destruct (tell_logs O G W (X1 p) y true o1 I) as [[e E]|(L & HL & Hg)]; [congruence|].
    rewrite Ht in Hg. destruct Hg as (G1 & _ & _ & G4 & G5). cbn [fst] in *. inversion HL; subst.
    rewrite Hps, E1, E2, E3 in *. exists v. auto.
  Qed.

  Lemma looped_facts f cbs k n seen o o' L : looped f cbs k n seen o o' L ->
    o_cfg o' = o_cfg o /\
    (exists E, evaluated O (ps_of o) f k E /\ map fst E = map pt_of L /\
       o_Xi o' = o_Xi o ++ map (fun a => X1 (fst a)) E /\ o_yi o' = o_yi o ++ map snd E) /\
    length L <= n /\ (length L < n -> L <> [] /\ wants_stop cbs (seen ++ map snd L)) /\
    (forall i, S i < length L -> ~ wants_stop cbs (seen ++ map snd (firstn (S i) L))) /\
    by_hand O G W f k (length L) o o' (final None L) /\
    (forall r, final None L = Some r -> get_result O o' = (o', Ok r)).
  Proof.
    induction 1 as [k seen o|k n seen o o1 o2 p y r Ha Hf Ht Hw|k n seen o o1 o2 o3 p y r L Ha Hf Ht Hw HL IH].
    - split; [easy|]. split; [exists []; cbn; rewrite !app_nil_r; repeat constructor|].
      split; [easy|]. split; [cbn; lia|]. split; [cbn; lia|]. split; [constructor|discriminate].
    - destruct (step_grows _ _ Ha Ht) as (v & Hv & E1 & E2 & E3). split; [easy|].
      split; [exists [(p, v)]; split; [econstructor; eauto; constructor|now cbn]|].
      split; [cbn; lia|]. split; [now cbn|]. split; [cbn; lia|]. split.
      + apply (@bh_S N RNG M O G W f k 0 o o1 o2 o2 p y r None Ha Hf Ht). constructor.
      + intros r' E. injection E as <-. eapply tell_get; eauto.
    - destruct IH as (I1 & (E & I2 & I3 & I4 & I5) & I6 & I7 & I8 & I9 & I10).
      destruct (step_grows _ _ Ha Ht) as (v & Hv & E1 & E2 & E3).
      assert (Hps : ps_of o2 = ps_of o) by (unfold ps_of; now rewrite E3). rewrite Hps in *.
      split; [congruence|]. split.
      { exists ((p, v) :: E). split; [econstructor; eauto|]. cbn. split; [now rewrite I3|].
        rewrite I4, I5, E1, E2, <- !app_assoc. now cbn. }
      split; [cbn; lia|]. split.
      { cbn. intros Hl. destruct I7 as [_ I7]; [lia|]. rewrite <- app_assoc in I7. now cbn in I7. }
      split.
      { intros [|i] Hi; cbn [length] in Hi.
        - cbn. exact Hw.
        - change (firstn (S (S i)) ((p, y, r) :: L)) with ((p, y, r) :: firstn (S i) L). cbn [map snd].
          change (r :: map snd (firstn (S i) L)) with ([r] ++ map snd (firstn (S i) L)). rewrite app_assoc. apply I8. lia. }
      assert (Ef : final None ((p, y, r) :: L) = Some (match final None L with Some r' => r' | None => r end))
        by (exact (final_some r L)).
      split.
      + rewrite Ef. exact (@bh_S N RNG M O G W f k (length L) o o1 o2 o3 p y r _ Ha Hf Ht I9).
      + intros r' Er. rewrite Ef in Er. injection Er as <-. destruct (final None L) as [r'|] eqn:EL; [now apply I10|].
        destruct L as [|s L]; [|destruct (final_is (snd s) L) as [r' Er']; cbn in EL; fold (final (Some (snd s)) L) in EL; congruence].
        inversion HL; subst. eapply tell_get; eauto.
  Qed.

  (** Everything a successful session tells about its events, its history and its result. *)
  Definition budget (n_calls : Z) (x0 : list (point N)) (y0 : option (list (yarg N))) : Z :=
    Z.max n_calls (match y0 with None => Z.of_nat (length x0) | Some _ => 0 end).

  Definition round_of (s : step) : list (point N) * result := ([pt_of s], snd s).
  Lemma steps_rounds n (L : list step) : flat_map (step_events n) L = flat_map (round_events n) (map round_of L).
  Proof. induction L as [|[[p y] r] L IH]; [easy|]. cbn [flat_map map]. now rewrite IH. Qed.
  Lemma rounds_results (L : list step) : map snd (map round_of L) = map snd L.
  Proof. rewrite map_map. reflexivity. Qed.
  Lemma final_last (d : option result) (L : list step) s : final d (L ++ [s]) = Some (snd s).
  Proof. unfold final. now rewrite fold_left_app. Qed.

  Record facts (f : objective N) (cbs : list callback) (n_calls : Z) (x0 : list (point N)) (y0 : option (list (yarg N)))
    (o0 : state) (t : list event) (o' : state) (r : result) : Prop := {
    fc_rounds : exists rds rd, t = flat_map (round_events (length cbs)) (rds ++ [rd]) /\ r = snd rd /\
      (forall i, i < length rds -> ~ wants_stop cbs (map snd (firstn (S i) rds))) /\
      (wants_stop cbs (map snd (rds ++ [rd])) \/ Z.of_nat (length (evals t)) = budget n_calls x0 y0) /\
      map fst (rds ++ [rd]) = match x0, y0 with
                              | [], _ => map (fun p => [p]) (evals t)
                              | _, None => x0 :: map (fun p => [p]) (skipn (length x0) (evals t))
                              | _, Some _ => [] :: map (fun p => [p]) (evals t)
                              end;
    fc_most : (Z.of_nat (length (evals t)) <= budget n_calls x0 y0)%Z;
    fc_history : exists E, evaluated O (ps_of o0) f 0 E /\ map fst E = evals t /\
      match x0, y0 with
      | _ :: _, Some ys => exists vs, Forall2 (observation O (ps_of o0)) ys vs /\ length ys = length x0 /\
          o_Xi o' = o_Xi o0 ++ map (@X1 N) (x0 ++ map fst E) /\ o_yi o' = o_yi o0 ++ vs ++ map snd E
      | _, _ => firstn (length x0) (map fst E) = x0 /\
          o_Xi o' = o_Xi o0 ++ map (@X1 N) (map fst E) /\ o_yi o' = o_yi o0 ++ map snd E
      end;
    fc_result : get_result O o' = (o', Ok r);
    fc_hand : never_stops cbs ->
      match x0 with
      | [] => by_hand O G W f 0 (Z.to_nat n_calls) o0 o' (Some r)
      | _ => exists ys k o1 r1 last, tell O G W (X2 x0) (YLst ys) true o0 = (o1, Ok r1) /\ length ys = length x0 /\
          match y0 with
          | Some l => ys = l /\ k = 0
          | None => k = length x0 /\
              forall i x, nth_error x0 i = Some x -> exists y, nth_error ys i = Some y /\ f i x = Ok y
          end /\
          by_hand O G W f k (Z.to_nat (n_calls - Z.of_nat k)) o1 o' last /\
          r = match last with Some r' => r' | None => r1 end
      end;
    fc_cfg : o_cfg o' = o_cfg o0 }.

  Lemma told_points x0 ys (o o1 : state) r : length ys = length x0 -> tell O G W (X2 x0) (YLst ys) true o = (o1, Ok r) ->
    exists vs, Forall2 (observation O (ps_of o)) ys vs /\ o_Xi o1 = o_Xi o ++ map (@X1 N) x0 /\
      o_yi o1 = o_yi o ++ vs /\ o_cfg o1 = o_cfg o /\ length vs = length x0 /\ get_result O o1 = (o1, Ok r).
  Proof.
    intros Hl Ht. destruct (tell_logs O G W (X2 x0) (YLst ys) true o) as [[e E]|(L & HL & Hg)]; [exists ys; auto|congruence|].
    rewrite Ht in Hg. destruct Hg as (G1 & _ & _ & G4 & G5). cbn [fst] in *. inversion HL; subst.
    assert (Hlv : length x0 = length vs) by (rewrite H1; eapply Forall2_len; eauto).
    destruct (hist_combine x0 vs Hlv) as [E1 E2]. rewrite E1, E2 in *. exists vs. repeat split; auto.
    eapply tell_get; eauto.
  Qed.
  Lemma evaluated_list ps f : forall x0 ys vs k, length ys = length x0 ->
    (forall i x, nth_error x0 i = Some x -> exists y, nth_error ys i = Some y /\ f (k + i) x = Ok y) ->
    Forall2 (observation O ps) ys vs -> evaluated O ps f k (combine x0 vs).
  Proof.
    induction x0 as [|x x0 IH]; intros ys vs k Hl Hf Ho; [constructor|].
    destruct Ho as [|y v ys vs Hy Ho]; [discriminate|]. cbn. destruct (Hf 0 x eq_refl) as (y' & Ey & Ef).
    injection Ey as <-. rewrite Nat.add_0_r in Ef. econstructor; eauto. apply (IH ys vs (S k)); [cbn in Hl; congruence| |exact Ho].
    intros i x' Hx. replace (S k + i) with (k + S i) by lia. apply (Hf (S i)). exact Hx.
  Qed.
  Lemma map_fst_combine {A B} (l : list A) : forall (l' : list B), length l = length l' -> map fst (combine l l') = l.
  Proof. induction l; intros [|b l'] H; cbn; try easy. f_equal. apply IHl. now injection H. Qed.
  Lemma map_snd_combine {A B} (l : list A) : forall (l' : list B), length l = length l' -> map snd (combine l l') = l'.
  Proof. induction l; intros [|b l'] H; cbn; try easy. f_equal. apply IHl. now injection H. Qed.
  Lemma firstn_map_snd (L : list step) i : map snd (firstn i (map round_of L)) = map snd (firstn i L).
  Proof. now rewrite firstn_map, map_map. Qed.

  Lemma session_facts f cbs n_calls x0 o0 y0 t o' res :
    session f cbs n_calls x0 o0 y0 t o' res -> (x0 = [] -> (0 < n_calls)%Z) ->
    exists r, res = Some r /\ facts f cbs n_calls x0 y0 o0 t o' r.
  Proof.
    intros [y0' o1 L Hx HL|y0' ys te k r o1 Hx Hl Ht Hw Hy|y0' ys te k r o1 o1' L Hx Hl Ht Hw Hy HL] Hn.
    - subst x0. specialize (Hn eq_refl).
      destruct (looped_facts HL) as (F1 & (E & F2 & F3 & F4 & F5) & F6 & F7 & F8 & F9 & F10).
      assert (HL0 : L <> []).
      { intros ->. destruct F7 as [H _]; [cbn; lia|easy]. }
      destruct (exists_last HL0) as (L' & s & EL). pose proof (final_last None L' s) as Ef. rewrite <- EL in Ef.
      exists (snd s). split; [exact Ef|].
      assert (Hb : budget n_calls [] y0' = n_calls) by (unfold budget; destruct y0'; cbn; lia).
      constructor.
      + exists (map round_of L'), (round_of s).
        change [round_of s] with (map round_of [s]). rewrite <- map_app, <- EL, <- steps_rounds, rounds_results, evals_steps.
        split; [easy|]. split; [easy|]. split.
        { intros i Hi. rewrite map_length in Hi. rewrite firstn_map_snd. specialize (F8 i). cbn [app] in F8.
          rewrite EL in F8. rewrite firstn_app in F8. replace (S i - length L') with 0 in F8 by lia.
          cbn [firstn] in F8. rewrite app_nil_r in F8. apply F8. rewrite app_length. cbn. lia. }
        split; [|now rewrite !map_map].
        rewrite map_length, Hb. destruct (Nat.lt_ge_cases (length L) (Z.to_nat n_calls)) as [Hlt|Hge].
        * left. now apply F7.
        * right. lia.
      + rewrite evals_steps, map_length, Hb. lia.
      + exists E. rewrite evals_steps. split; [exact F2|]. split; [exact F3|]. cbn. rewrite map_map. auto.
      + now apply F10.
      + intros Hs. assert (El : length L = Z.to_nat n_calls).
        { destruct (Nat.lt_ge_cases (length L) (Z.to_nat n_calls)) as [Hlt|Hge]; [|lia].
          destruct F7 as [_ F7]; [lia|]. now apply Hs in F7. }
        rewrite <- El. now rewrite <- Ef.
      + exact F1.
    - exists r. split; [easy|]. destruct (told_points _ _ _ Hl Ht) as (vs & T1 & T2 & T3 & T4 & T5 & T6).
      assert (Et : evals (map EEval te ++ calls_of (length cbs) r) = te)
        by (rewrite evals_app, evals_points, evals_calls; apply app_nil_r).
      constructor; rewrite ?Et.
      + exists [], (te, r). cbn [app flat_map map firstn]. rewrite app_nil_r. split; [easy|]. split; [easy|].
        split; [cbn; lia|]. split; [now left|]. destruct x0; [easy|]. destruct y0' as [l|].
        * destruct Hy as (_ & -> & _). easy.
        * destruct Hy as (-> & _). now rewrite skipn_all.
      + unfold budget. destruct y0'; [destruct Hy as (_ & -> & _); cbn; lia|destruct Hy as (-> & _); lia].
      + destruct y0' as [l|].
        * destruct Hy as (-> & -> & _). exists []. split; [constructor|]. split; [easy|]. destruct x0; [easy|].
          exists vs. cbn [map]. rewrite !app_nil_r. auto.
        * destruct Hy as (-> & _ & Hf). exists (combine x0 vs).
          rewrite map_fst_combine, map_snd_combine by easy. split; [eapply evaluated_list; eauto|].
          split; [easy|]. destruct x0; [easy|]. rewrite firstn_all. auto.
      + exact T6.
      + intros Hs. now apply Hs in Hw.
      + exact T4.
    - destruct (told_points _ _ _ Hl Ht) as (vs & T1 & T2 & T3 & T4 & T5 & T6).
      destruct (looped_facts HL) as (F1 & (E & F2 & F3 & F4 & F5) & F6 & F7 & F8 & F9 & F10).
      assert (Hps : ps_of o1 = ps_of o0) by (unfold ps_of; now rewrite T4). rewrite Hps in *.
      destruct (final_is r L) as [r' Er]. exists r'. split; [exact Er|].
      assert (Et : evals (map EEval te ++ calls_of (length cbs) r ++ flat_map (step_events (length cbs)) L) = te ++ map pt_of L)
        by (rewrite !evals_app, evals_points, evals_calls, evals_steps; reflexivity).
      assert (Ek : k = length te) by (destruct y0'; [destruct Hy as (_ & -> & ->); easy|destruct Hy as (-> & -> & _); easy]).
      assert (Hb : budget n_calls x0 y0' = Z.max n_calls (Z.of_nat k)).
      { unfold budget. destruct y0'; [destruct Hy as (_ & -> & ->); easy|destruct Hy as (-> & -> & _); easy]. }
      assert (Hnk : Z.of_nat (Z.to_nat (n_calls - Z.of_nat k)) = (Z.max n_calls (Z.of_nat k) - Z.of_nat k)%Z) by lia.
      constructor; rewrite ?Et.
      + assert (Hr : exists rds rd, (te, r) :: map round_of L = rds ++ [rd] /\ r' = snd rd).
        { assert (Hne : (te, r) :: map round_of L <> []) by easy. destruct (exists_last Hne) as (rds & rd & Erd).
          exists rds, rd. split; [easy|]. destruct L as [|s0 L0] eqn:EL0.
          - destruct rds as [|? [|]]; try discriminate. injection Erd as <-. cbn in Er. now injection Er as <-.
          - rewrite <- EL0 in *. assert (HL0 : L <> []) by now rewrite EL0.
            destruct (exists_last HL0) as (L' & s & EL). rewrite EL in Er, Erd. rewrite final_last in Er. injection Er as <-.
            rewrite map_app in Erd. cbn [map] in Erd. rewrite app_comm_cons in Erd. apply app_inj_tail in Erd.
            destruct Erd as [_ <-]. easy. }
        destruct Hr as (rds & rd & Erd & ->). exists rds, rd. rewrite <- Erd. split.
        { cbn [flat_map]. rewrite <- steps_rounds. unfold round_events at 1. cbn [fst snd]. now rewrite <- app_assoc. }
        split; [easy|]. split.
        { intros i Hi. assert (El : length L = length rds).
          { apply (f_equal (@length _)) in Erd. rewrite app_length in Erd. cbn in Erd. rewrite map_length in Erd. lia. }
          assert (Efi : firstn (S i) rds = firstn (S i) ((te, r) :: map round_of L)).
          { rewrite Erd, firstn_app. replace (S i - length rds) with 0 by lia. cbn [firstn]. now rewrite app_nil_r. }
          rewrite Efi. destruct i as [|i]; [exact Hw|].
          change (firstn (S (S i)) ((te, r) :: map round_of L)) with ((te, r) :: firstn (S i) (map round_of L)).
          cbn [map snd]. rewrite firstn_map_snd. apply (F8 i). lia. }
        split.
        { cbn [map snd]. rewrite rounds_results.
          destruct (Nat.lt_ge_cases (length L) (Z.to_nat (n_calls - Z.of_nat k))) as [Hlt|Hge].
          - left. now apply F7.
          - right. rewrite Hb, app_length, map_length. lia. }
        { cbn [map fst]. rewrite map_map. cbn [fst round_of]. destruct x0 as [|p0 x0]; [easy|]. destruct y0' as [l|].
          - destruct Hy as (_ & -> & _). cbn [app]. now rewrite map_map.
          - destruct Hy as (-> & _). rewrite skipn_app, skipn_all, Nat.sub_diag. cbn [skipn app]. now rewrite map_map. }
      + rewrite app_length, map_length, Hb. lia.
      + assert (EX : o_Xi o1' = o_Xi o0 ++ map (@X1 N) (x0 ++ map fst E)).
        { rewrite F4, T2, map_app, <- app_assoc, map_map. reflexivity. }
        destruct y0' as [l|].
        * destruct Hy as (-> & -> & Hk0). rewrite Hk0 in *. exists E. split; [exact F2|]. split; [now rewrite F3|].
          destruct x0 as [|p0 x0]; [easy|]. exists vs. split; [exact T1|]. split; [easy|]. split; [exact EX|].
          now rewrite F5, T3, app_assoc.
        * destruct Hy as (-> & Hkx & Hf). exists (combine x0 vs ++ E).
          rewrite !map_app, map_fst_combine, map_snd_combine by easy. split.
          { apply evaluated_app; [eapply evaluated_list; eauto|].
            rewrite combine_length, T5, Nat.min_id. cbn. now rewrite <- Hkx. }
          split; [now rewrite F3|].
          assert (Hfirst : firstn (length x0) (x0 ++ map fst E) = x0)
            by (rewrite firstn_app, firstn_all, Nat.sub_diag; cbn; apply app_nil_r).
          destruct x0 as [|p0 x0]; [easy|]. split; [exact Hfirst|]. split; [rewrite <- map_app; exact EX|].
          now rewrite F5, T3, app_assoc.
      + destruct (final None L) as [r2|] eqn:EL2.
        * rewrite final_some, EL2 in Er. injection Er as <-. now apply F10.
        * rewrite final_some, EL2 in Er. injection Er as <-. destruct L as [|s L0]; [inversion HL; subst; exact T6|].
          destruct (final_is (snd s) L0) as [r3 E3]. change (final None (s :: L0)) with (final (Some (snd s)) L0) in EL2. congruence.
      + intros Hs. assert (El : length L = Z.to_nat (n_calls - Z.of_nat k)).
        { destruct (Nat.lt_ge_cases (length L) (Z.to_nat (n_calls - Z.of_nat k))) as [Hlt|Hge]; [|lia].
          destruct F7 as [_ F7]; [lia|]. now apply Hs in F7. }
        destruct x0 as [|p0 x0]; [easy|]. exists ys, k, o1, r, (final None L).
        split; [exact Ht|]. split; [exact Hl|]. split; [destruct y0'; tauto|]. rewrite <- El. split; [exact F9|].
        rewrite final_some in Er. congruence.
      + congruence.
  Qed.

  Lemma make_dummy a g g' o : make_optimizer O G W a g = (g', Ok o) -> a_est a = None -> c_est (o_cfg o) = None.
  Proof.
    unfold make_optimizer. intros H E. rewrite E in H. destruct (acq_of (a_acq a)) as [acq|]; [|discriminate].
    destruct (a_n0 a <? 0)%Z; [discriminate|]. destruct (is_ps acq); [discriminate|].
    destruct (_ || _); [|discriminate]. apply finish_ok in H. destruct H as (d & init & _ & -> & _). reflexivity.
  Qed.

  Lemma minimize_facts m f a g t o' res : minimize O G W m f a g = (t, o', Ok res) ->
    exists x0 a0 g0 g' o0 o1 r, o' = Some o1 /\ res = Some r /\ given (m_x0 a) x0 /\
      make_optimizer O G W a0 g0 = (g', Ok o0) /\
      (m = MBase -> g0 = g /\ a0 = set_n0 (n_initial a + Z.of_nat (length x0)) (m_opt a)) /\
      Forall (fun p => length p = length (c_dims (o_cfg o0))) x0 /\
      (m <> MDummy -> (n_initial a + (match values_of (m_y0 a) with None => Z.of_nat (length x0) | _ => 0 end) <= m_ncalls a)%Z) /\
      (m = MDummy -> c_est (o_cfg o0) = None) /\
      facts f (callbacks_of a) (m_ncalls a) x0 (values_of (m_y0 a)) o0 t o1 r.
  Proof.
    intros H. assert (Hm := H). apply minimize_base in H. destruct H as (a' & g1 & H & E1 & E2 & E3 & E4 & E5 & E6 & E7).
    apply base_ok in H. destruct H as (x0 & g' & o0 & o1 & -> & H1 & H2 & H3 & H4 & H5 & _ & H6 & H7).
    rewrite E1, E2, E3, E4 in *.
    assert (Hs : session f (callbacks_of a) (m_ncalls a) x0 o0 (values_of (m_y0 a)) t o1 res).
    { apply H7. destruct (m_y0 a); cbn [values_of]; [left; constructor|left; constructor|left; constructor|now right]. }
    apply session_facts in Hs; [|intros ->; specialize (H4 eq_refl); cbn in H5; destruct (y0_falsy _); lia].
    destruct Hs as (r & -> & F).
    exists x0, (set_n0 (n_initial a' + Z.of_nat (length x0)) (m_opt a')), g1, g', o0, o1, r.
    split; [easy|]. split; [easy|]. split; [exact H1|]. split; [exact H2|].
    split; [intros Hb; destruct (E6 Hb) as [-> ->]; easy|]. split; [exact H3|]. split.
    { intros Hd. rewrite <- (E5 Hd). destruct (m_y0 a) as [|x|[|y l]|]; cbn in *; try lia.
      destruct H6 as [->|H6]; [cbn in *; lia|easy]. }
    split; [|exact F]. intros Hd. apply make_dummy in H2; [exact H2|]. cbn. now rewrite (E7 Hd).
  Qed.

  Lemma c27_budget m f a g t o' res : minimize O G W m f a g = (t, o', Ok res) ->
    exists x0 r, given (m_x0 a) x0 /\ res = Some r /\
      (let most := Z.max (m_ncalls a) (match values_of (m_y0 a) with None => Z.of_nat (length x0) | Some _ => 0 end) in
       (Z.of_nat (length (evals t)) <= most)%Z /\
       (never_stops (callbacks_of a) -> Z.of_nat (length (evals t)) = most)) /\
      let n := length (evals t) + (match values_of (m_y0 a) with None => 0 | Some _ => length x0 end) in
      length (res_func_vals r) = n /\ length (res_x_iters r) = n.
  Proof.
    intros H. destruct (minimize_facts _ _ _ _ H) as (x0 & a0 & g0 & g' & o0 & o1 & r & -> & -> & H1 & H2 & _ & _ & _ & _ & F).
    exists x0, r. split; [exact H1|]. split; [easy|]. split.
    { split; [exact (fc_most F)|]. intros Hs. destruct (fc_rounds F) as (rds & rd & _ & _ & _ & [Hw|Hb] & _); [|exact Hb].
      now apply Hs in Hw. }
    destruct (get_result_spec (fc_result F)) as (_ & -> & -> & _).
    destruct (make_empty O G W _ _ H2) as (_ & EX & EY & _).
    destruct (fc_history F) as (E & _ & HE & Hh). rewrite EX, EY in Hh. rewrite <- HE.
    destruct x0 as [|p x0].
    - destruct Hh as (_ & -> & ->). cbn. rewrite !map_length.
      destruct (values_of _); rewrite Nat.add_0_r; auto.
    - destruct (values_of (m_y0 a)) as [ys|].
      + destruct Hh as (vs & Ho & Hl & -> & ->). apply Forall2_len in Ho.
        split; rewrite map_length; [change ([] ++ vs ++ map snd E) with (vs ++ map snd E)|];
          rewrite ?app_length, ?map_length; cbn [length app] in *; rewrite ?map_length, ?app_length, ?map_length; lia.
      + destruct Hh as (_ & -> & ->). cbn. rewrite !map_length, Nat.add_0_r. auto.
  Qed.
  Lemma c27_exact m f a g t o' res : minimize O G W m f a g = (t, o', Ok res) ->
    m <> MDummy -> (0 <= n_initial a)%Z -> never_stops (callbacks_of a) ->
    Z.of_nat (length (evals t)) = m_ncalls a.
  Proof.
    intros H Hm Hn Hs. destruct (minimize_facts _ _ _ _ H) as (x0 & a0 & g0 & g' & o0 & o1 & r & _ & _ & _ & _ & _ & _ & H1 & _ & F).
    specialize (H1 Hm). destruct (fc_rounds F) as (rds & rd & _ & _ & _ & [Hw|Hb] & _); [now apply Hs in Hw|].
    rewrite Hb. unfold budget. destruct (values_of (m_y0 a)); lia.
  Qed.
  Lemma c28 m f a g t o' res : minimize O G W m f a g = (t, o', Ok res) ->
    exists x0 ps r E, given (m_x0 a) x0 /\ res = Some r /\ evaluated O ps f 0 E /\ map fst E = evals t /\
      match values_of (m_y0 a), x0 with
      | Some ys, _ :: _ => exists vs, Forall2 (observation O ps) ys vs /\ length ys = length x0 /\
          res_x_iters r = map (@X1 N) (x0 ++ map fst E) /\ res_func_vals r = map y_obj (vs ++ map snd E)
      | _, _ => firstn (length x0) (map fst E) = x0 /\
          res_x_iters r = map (@X1 N) (map fst E) /\ res_func_vals r = map y_obj (map snd E)
      end.
  Proof.
    intros H. destruct (minimize_facts _ _ _ _ H) as (x0 & a0 & g0 & g' & o0 & o1 & r & -> & -> & H1 & H2 & _ & _ & _ & _ & F).
    destruct (fc_history F) as (E & HE & HE' & Hh). exists x0, (ps_of o0), r, E. split; [exact H1|]. split; [easy|].
    split; [exact HE|]. split; [exact HE'|]. destruct (get_result_spec (fc_result F)) as (_ & EX & EY & _).
    destruct (make_empty O G W _ _ H2) as (_ & EX0 & EY0 & _). rewrite EX0, EY0 in Hh. cbn [app] in Hh.
    rewrite EX, EY. destruct x0 as [|p x0], (values_of (m_y0 a)) as [ys|].
    - destruct Hh as (Hf & -> & ->). auto.
    - destruct Hh as (Hf & -> & ->). auto.
    - destruct Hh as (vs & Ho & Hl & -> & ->). exists vs. auto.
    - destruct Hh as (Hf & -> & ->). auto.
  Qed.
  Lemma c29 m f a g t o' res : minimize O G W m f a g = (t, o', Ok res) ->
    exists x0 rds rd, given (m_x0 a) x0 /\
      t = flat_map (round_events (length (callbacks_of a))) (rds ++ [rd]) /\ res = Some (snd rd) /\
      (forall i, i < length rds -> ~ wants_stop (callbacks_of a) (map snd (firstn (S i) rds))) /\
      (wants_stop (callbacks_of a) (map snd (rds ++ [rd])) \/
       Z.of_nat (length (evals t)) =
         Z.max (m_ncalls a) (match values_of (m_y0 a) with None => Z.of_nat (length x0) | Some _ => 0 end)) /\
      map fst (rds ++ [rd]) = match x0, values_of (m_y0 a) with
                              | [], _ => map (fun p => [p]) (evals t)
                              | _, None => x0 :: map (fun p => [p]) (skipn (length x0) (evals t))
                              | _, Some _ => [] :: map (fun p => [p]) (evals t)
                              end.
  Proof.
    intros H. destruct (minimize_facts _ _ _ _ H) as (x0 & a0 & g0 & g' & o0 & o1 & r & -> & -> & H1 & _ & _ & _ & _ & _ & F).
    destruct (fc_rounds F) as (rds & rd & R1 & -> & R3 & R4 & R5). exists x0, rds, rd. auto 10.
  Qed.
  Lemma c30 f a g t o' res : base_minimize O G W f a g = (t, o', Ok res) -> never_stops (callbacks_of a) ->
    exists x0 g' o0 o1 r, given (m_x0 a) x0 /\ o' = Some o1 /\ res = Some r /\
      make_optimizer O G W (set_n0 (n_initial a + Z.of_nat (length x0)) (m_opt a)) g = (g', Ok o0) /\
      hand_session O G W f a x0 o0 o1 r.
  Proof.
    intros H Hs. change (base_minimize O G W) with (minimize O G W MBase) in H.
    destruct (minimize_facts _ _ _ _ H) as (x0 & a0 & g0 & g' & o0 & o1 & r & -> & -> & H1 & H2 & H3 & _ & _ & _ & F).
    destruct (H3 eq_refl) as [-> ->]. exists x0, g', o0, o1, r. split; [exact H1|]. split; [easy|]. split; [easy|].
    split; [exact H2|]. exact (fc_hand F Hs).
  Qed.
End MinProps.
