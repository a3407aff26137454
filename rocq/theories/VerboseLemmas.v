(** What verbose=True prints in the course of a minimisation. *)
From Coq Require Import String List ZArith Bool Lia.
From Verif Require Import Base Num Values Transformers Dimension Space Optimizer BaseLemmas NumLaws OptSpec OptLemmas OptLemmas2
  OptLemmas4 OptLemmas5 OptProps Minimize MinSpec MinLemmas MinProps CbSpec Verbose VerboseSpec.
Import ListNotations.
Open Scope list_scope.
Set Implicit Arguments.

Section VerboseLemmas.
  Context {N RNG M : Type} (O : numops N) (G : rng_ops N RNG) (W : world N M).
  Notation state := (opt N RNG M).
  Notation result := (result N RNG M).
  Notation event := (event N RNG M).
  Notation callback := (callback N RNG M).
  Notation step := (point N * yarg N * result)%type.

  (** ** The results shown in the rounds *)
  Definition shows (o' : state) (k : nat) (r : result) : Prop :=
    exists oi : state, get_result O oi = (oi, Ok r) /\ o_yi oi = firstn k (o_yi o') /\ k <= length (o_yi o').
  Lemma looped_shows f cbs k n seen (o o' : state) L : looped O G W f cbs k n seen o o' L ->
    forall i s, nth_error L i = Some s -> shows o' (length (o_yi o) + S i) (snd s).
  Proof.
    induction 1 as [k seen o|k n seen o o1 o2 p y r Ha Hf Ht Hw|k n seen o o1 o2 o3 p y r L Ha Hf Ht Hw HL IH]; intros i s Hs.
    - destruct i; discriminate.
    - destruct i as [|[|]]; try discriminate. injection Hs as <-. destruct (step_grows _ _ _ _ _ Ha Ht) as (v & _ & _ & E2 & _).
      exists o2. split; [eapply tell_get; eauto|]. rewrite E2, app_length. cbn [length]. split; [|lia]. rewrite firstn_all2; [reflexivity|]. rewrite app_length. cbn. lia.
    - destruct (step_grows _ _ _ _ _ Ha Ht) as (v & _ & _ & E2 & _). destruct i as [|i].
      + injection Hs as <-. destruct (looped_facts HL) as (_ & (E & _ & _ & _ & F5) & _). exists o2. split; [eapply tell_get; eauto|].
        rewrite F5, E2, !app_length. cbn [length]. split; [|lia]. rewrite firstn_app, app_length. cbn [length]. rewrite Nat.sub_diag, app_nil_r.
        rewrite firstn_all2; [reflexivity|]. rewrite app_length. cbn. lia.
      + cbn in Hs. specialize (IH i s Hs). rewrite E2, app_length in IH. cbn [length] in IH. replace (length (o_yi o) + S (S i)) with (length (o_yi o) + 1 + S i) by lia. exact IH.
  Qed.
  Definition count_at (x0 : list (point N)) (i : nat) : nat := match x0 with [] => S i | _ => length x0 + i end.
  Lemma session_shows f cbs n_calls x0 o0 y0 t o' r : session O G W f cbs n_calls x0 o0 y0 t o' (Some r) -> o_yi o0 = [] ->
    exists rds, t = flat_map (round_events (length cbs)) rds /\
      map fst rds = match x0, y0 with
                    | [], _ => map (fun p => [p]) (evals t)
                    | _, None => x0 :: map (fun p => [p]) (skipn (length x0) (evals t))
                    | _, Some _ => [] :: map (fun p => [p]) (evals t)
                    end /\
      forall i rd, nth_error rds i = Some rd -> shows o' (count_at x0 i) (snd rd).
  Proof.
    intros H He. inversion H as [y0' o1 L Hx HL|y0' ys te k r' o1 Hx Hl Ht Hw Hy|y0' ys te k r' o1 o1' L Hx Hl Ht Hw Hy HL]; subst.
    - exists (map (@round_of N RNG M) L). rewrite evals_steps. split; [apply steps_rounds|]. split; [now rewrite !map_map|].
      intros i rd Hi. rewrite nth_error_map in Hi. destruct (nth_error L i) as [s|] eqn:Es; [|discriminate]. injection Hi as <-.
      pose proof (looped_shows HL _ Es) as S. rewrite He in S. exact S.
    - destruct (told_points _ _ _ _ _ _ Hl Ht) as (vs & _ & _ & T3 & _ & T5 & T6). rewrite He in T3. cbn in T3.
      exists [(te, r)]. cbn [flat_map]. rewrite app_nil_r. split; [reflexivity|]. split.
      + rewrite evals_app, evals_points, evals_calls, app_nil_r. destruct x0; [easy|]. destruct y0.
        * destruct Hy as (_ & -> & _). reflexivity.
        * destruct Hy as (-> & _). now rewrite skipn_all.
      + intros [|[|i]] rd Hi; try discriminate. injection Hi as <-. exists o'. split; [exact T6|]. rewrite T3. unfold count_at. destruct x0; [easy|].
        rewrite Nat.add_0_r. rewrite T5. split; [|lia]. rewrite firstn_all2; [reflexivity|lia].
    - destruct (told_points _ _ _ _ _ _ Hl Ht) as (vs & _ & _ & T3 & _ & T5 & T6). rewrite He in T3. cbn in T3.
      exists ((te, r') :: map (@round_of N RNG M) L). split.
      { cbn [flat_map]. rewrite <- steps_rounds. unfold round_events at 1. cbn [fst snd]. now rewrite <- app_assoc. }
      split.
      + rewrite !evals_app, evals_points, evals_calls, evals_steps. cbn [map fst app]. rewrite map_map. cbn [round_of fst]. destruct x0 as [|p0 x0]; [easy|]. destruct y0.
        * destruct Hy as (_ & -> & _). cbn [app]. now rewrite map_map.
        * destruct Hy as (-> & _). rewrite skipn_app, skipn_all, Nat.sub_diag. cbn [skipn app]. now rewrite map_map.
      + intros [|i] rd Hi.
        * injection Hi as <-. destruct (looped_facts HL) as (_ & (E & _ & _ & _ & F5) & _). exists o1. split; [exact T6|]. rewrite F5, T3. unfold count_at. destruct x0; [easy|].
          rewrite Nat.add_0_r, app_length, T5. split; [|lia]. rewrite firstn_app, T5, Nat.sub_diag, app_nil_r. rewrite firstn_all2; [reflexivity|lia].
        * cbn in Hi. rewrite nth_error_map in Hi. destruct (nth_error L i) as [s|] eqn:Es; [|discriminate]. injection Hi as <-.
          pose proof (looped_shows HL _ Es) as S. rewrite T3, T5 in S. unfold count_at. destruct x0; [easy|]. exact S.
  Qed.

  (** ** What the callback prints in a round *)
  Context (clk : nat -> N) (n_init n_random n_total : Z).
  Definition kd (k : Z) : kind := if (k <=? n_init)%Z then Provided else if (k <=? n_init + n_random)%Z then Random else Search.
  Lemma info_kd k b : print_info n_init n_random k b = Status k b (kd k) :> line N.
  Proof.
    unfold print_info, kd. destruct (Z.leb_spec k n_init); [reflexivity|]. destruct (Z.ltb_spec n_init k); [|lia]. cbn [andb].
    replace (n_random + n_init)%Z with (n_init + n_random)%Z by lia. reflexivity.
  Qed.
  Definition on_time (i : nat) (s : vstate) : Prop := v_iter s = (Z.of_nat i + 1)%Z /\ (i = 0 \/ (Z.of_nat i < n_total)%Z -> v_start s = clk (2 * i) /\ v_reads s = 2 * i + 1).
  Lemma printed_evals j s (ps : list (point N)) t : printed O clk n_init n_random n_total j s (map EEval ps ++ t : list event) =
    (rest <- printed O clk n_init n_random n_total j s t ;; Ok (map (@Evaluated N) ps ++ rest)).
  Proof.
    induction ps as [|p ps IH]; cbn [map app printed].
    - set (q := printed O clk n_init n_random n_total j s t). now destruct q.
    - rewrite IH. set (q := printed O clk n_init n_random n_total j s t). now destruct q.
  Qed.
  Lemma printed_calls s (r : result) t : forall n k, printed O clk n_init n_random n_total (k + n) s (map (fun i => ECall i r) (seq k (S n)) ++ t : list event) =
    (sl <- verbose_call O clk n_init n_random n_total s r ;; rest <- printed O clk n_init n_random n_total (k + n) (fst sl) t ;; Ok (map (@Line N) (snd sl) ++ rest)).
  Proof.
    induction n as [|n IH]; intro k.
    - cbn [seq map app printed]. rewrite Nat.add_0_r, Nat.eqb_refl. reflexivity.
    - change (seq k (S (S n))) with (k :: seq (S k) (S n)). cbn [map app printed]. destruct (Nat.eqb_spec (k + S n) k); [lia|].
      replace (k + S n) with (S k + n) by lia. apply IH.
  Qed.
  Lemma last_index {A} (l : list A) : l <> [] -> exists a l', py_index l (-1) = Some a /\ l = l' ++ [a].
  Proof.
    intro NE. destruct (exists_last NE) as (l' & a & ->). exists a, l'. split; [|reflexivity]. unfold py_index. rewrite app_length. cbn [length].
    destruct (0 <=? -1)%Z eqn:E; [discriminate|]. destruct (0 <=? Z.of_nat (length l' + 1) + -1)%Z eqn:E2; [|apply Z.leb_gt in E2; lia].
    replace (Z.to_nat (Z.of_nat (length l' + 1) + -1)) with (length l') by lia. rewrite nth_error_app2 by lia. now rewrite Nat.sub_diag.
  Qed.
  Definition datum (i : nat) (rd : list (point N) * result) (q : list (point N) * (N * N * N)) : Prop :=
    fst q = fst rd /\ (exists l, res_func_vals (snd rd) = l ++ [snd (fst (snd q))]) /\ snd (snd q) = res_fun (snd rd) /\
    (i = 0 \/ (Z.of_nat i < n_total)%Z -> fst (fst (snd q)) = nsub O (clk (2 * i + 1)) (clk (2 * i))).
  Lemma printed_rounds n : forall rds i s, on_time i s -> (forall rd, In rd rds -> res_func_vals (snd rd) <> []) ->
    exists data, length data = length rds /\
      printed O clk n_init n_random n_total n s (flat_map (round_events (S n)) rds) = Ok (chronicle kd n_total (Z.of_nat i + 1) data) /\
      forall j rd, nth_error rds j = Some rd -> exists q, nth_error data j = Some q /\ datum (i + j) rd q.
  Proof.
    induction rds as [|[ps r] rds IH]; intros i s [Hi Hs] NE.
    - exists []. split; [reflexivity|]. split; [reflexivity|]. intros [|j] rd; discriminate.
    - cbn [flat_map]. unfold round_events at 1. cbn [fst snd]. rewrite <- app_assoc, printed_evals.
      pose proof (printed_calls s r (flat_map (round_events (S n)) rds) n 0) as P. cbn [Nat.add] in P. rewrite P. clear P.
      destruct (last_index (NE (ps, r) (or_introl eq_refl))) as (y & l' & Ey & El). cbn [snd] in El. unfold verbose_call. cbn [snd] in Ey. rewrite Ey. rewrite Hi, !info_kd.
      set (tm := nsub O (clk (v_reads s)) (v_start s)).
      set (s' := if (Z.of_nat i + 1 + 1 <=? n_total)%Z then mkV (Z.of_nat i + 1 + 1) (clk (S (v_reads s))) (S (S (v_reads s))) else mkV (Z.of_nat i + 1 + 1) (v_start s) (S (v_reads s))).
      assert (T : on_time (S i) s').
      { unfold on_time, s'. destruct (Z.leb_spec (Z.of_nat i + 1 + 1) n_total) as [Hle|Hgt]; cbn [v_iter v_start v_reads].
        - split; [lia|]. intros _. destruct Hs as [_ ->]; [lia|]. split; [f_equal; lia|lia].
        - split; [lia|]. intros [?|?]; lia. }
      destruct (IH (S i) s' T) as (data & Ld & Hp & Hd); [intros rd Ir; apply NE; now right|].
      exists ((ps, (tm, y, res_fun r)) :: data). split; [cbn; now rewrite Ld|]. split.
      + destruct (Z.leb_spec (Z.of_nat i + 1 + 1) n_total) as [Hle|Hgt]; cbn [bind fst snd]; fold s'; rewrite Hp; cbn [bind chronicle]; f_equal;
          replace (Z.of_nat (S i) + 1)%Z with (Z.of_nat i + 1 + 1)%Z by lia.
        * destruct (Z.ltb_spec (Z.of_nat i + 1) n_total); [|lia]. rewrite map_app, <- !app_assoc. reflexivity.
        * destruct (Z.ltb_spec (Z.of_nat i + 1) n_total); [lia|]. reflexivity.
      + intros [|j] rd Hj.
        * injection Hj as <-. eexists. split; [reflexivity|]. rewrite Nat.add_0_r. split; [reflexivity|]. cbn [fst snd]. split; [now exists l'|]. split; [reflexivity|].
          intro Ht. destruct (Hs Ht) as [E1 E2]. unfold tm. now rewrite E1, E2.
        * cbn in Hj. destruct (Hd j rd Hj) as (q & Hq & Dq). exists q. split; [exact Hq|]. now replace (i + S j) with (S i + j) by lia.
  Qed.
  Lemma screen_rounds n rds : (forall rd, In rd rds -> res_func_vals (snd rd) <> []) ->
    exists data, length data = length rds /\ screen O clk n_init n_random n_total n (flat_map (round_events (S n)) rds) = Ok (announces kd n_total data) /\
      forall j rd, nth_error rds j = Some rd -> exists q, nth_error data j = Some q /\ datum j rd q.
  Proof.
    intro NE. unfold screen, verbose_init. cbn [fst snd].
    destruct (@printed_rounds n rds 0 (mkV 1 (clk 0) 1)) as (data & Ld & Hp & Hd); [split; [reflexivity|]; intros _; split; reflexivity|exact NE|].
    exists data. split; [exact Ld|]. rewrite Hp. cbn [bind map app]. rewrite info_kd. split; [reflexivity|]. exact Hd.
  Qed.
End VerboseLemmas.
