(** C96: telling several observations at once and one after the other. *)
From Coq Require Import String List ZArith Bool Lia.
From Verif Require Import Base Num Values Transformers Dimension Space Optimizer BaseLemmas NumLaws OptSpec MetricLemmas OptLemmas OptLemmas2 OptBatch BatchSpec.
Import ListNotations.
Open Scope list_scope.
Set Implicit Arguments.

Section BatchTell.
  Context {N RNG M : Type} (O : numops N) (G : rng_ops N RNG) (W : world N M).
  Notation state := (opt N RNG M).
  Notation one_by_one := (one_by_one O G W).
  Lemma one_cons p p2 pts y y2 ys fit o : one_by_one (p :: p2 :: pts) (y :: y2 :: ys) fit o =
    match tell O G W (X1 p) y false o with
    | (o', Ok _) => one_by_one (p2 :: pts) (y2 :: ys) fit o'
    | (o', Raise e) => (o', Raise e)
    end.
  Proof. reflexivity. Qed.
  Definition conv (ps : bool) (y : yarg N) : res (yval N) := if ps then log_pair O y else scalar y.
  Definition rest (fit : bool) (o : state) : state * res (result N RNG M) :=
    andthen (if fit && (o_left o <=? 0)%Z && has_est o then refit O G W else ret tt) (fun _ => get_result O) o.
  Definition noted (xs : list (xarg N)) (vs : list (yval N)) (o : state) : state :=
    mkOpt (o_cfg o) (o_left o - Z.of_nat (length vs)) (o_init o) (o_models o) (o_Xi o ++ xs) (o_yi o ++ vs) [] (o_next o) (o_next_xs o) (o_gains o) (o_rng o).
  Lemma tell_one p v fit o : tell_ O G W (P1 p) (Y1 v) fit o = rest fit (noted [X1 p] [v] o).
  Proof. reflexivity. Qed.
  Lemma tell_many pts vs fit o : tell_ O G W (P2 pts) (Yn vs) fit o = rest fit (noted (map (@X1 N) pts) vs o).
  Proof. reflexivity. Qed.
  Lemma noted_twice xs vs xs' vs' o : noted xs' vs' (noted xs vs o) = noted (xs ++ xs') (vs ++ vs') o.
  Proof.
    unfold noted. cbn [o_cfg o_left o_init o_models o_Xi o_yi o_cache o_next o_next_xs o_gains o_rng]. rewrite <- !app_assoc, app_length, Nat2Z.inj_add. f_equal. lia.
  Qed.
  Lemma conv_ok ps y : valid_y1 O ps y -> exists v, conv ps y = Ok v.
  Proof.
    unfold valid_y1, conv. destruct ps.
    - intros (v & t & -> & Ht). cbn. unfold math_log. rewrite Ht. cbn. eauto.
    - intros (v & ->). cbn. eauto.
  Qed.
  Lemma check_ok ps y : valid_y1 O ps y -> (if ps then is_pair y else is_num y) = true.
  Proof. unfold valid_y1. destruct ps; [intros (v & t & -> & _)|intros (v & ->)]; reflexivity. Qed.
  Lemma tell_single p y v fit o : valid_x O (c_dims (o_cfg o)) (X1 p) -> valid_y1 O (ps_of o) y -> conv (ps_of o) y = Ok v ->
    tell O G W (X1 p) y fit o = rest fit (noted [X1 p] [v] o).
  Proof.
    intros Hx Hy Hv. rewrite <- tell_one. unfold tell, andthen, get, lift. assert (Ex : check_x_in_space O (X1 p) (c_dims (o_cfg o)) = Ok tt) by now apply check_point_ok.
    rewrite Ex. fold (ps_of o). pose proof (check_ok _ _ Hy) as C. unfold check_y. unfold conv in Hv. unfold convert_y.
    destruct (ps_of o); rewrite C; [|destruct y; try discriminate]; rewrite Hv; reflexivity.
  Qed.
  Lemma tell_batch pts ys vs fit o : valid_x O (c_dims (o_cfg o)) (X2 pts) -> Forall (valid_y1 O (ps_of o)) ys -> ys <> [] -> mapM (conv (ps_of o)) ys = Ok vs ->
    tell O G W (X2 pts) (YLst ys) fit o = rest fit (noted (map (@X1 N) pts) vs o).
  Proof.
    intros Hx Hy Hne Hv. rewrite <- tell_many. unfold tell, andthen, get, lift. assert (Ex : check_x_in_space O (X2 pts) (c_dims (o_cfg o)) = Ok tt) by now apply check_batch_ok.
    rewrite Ex. fold (ps_of o). unfold check_y, convert_y. unfold conv in Hv.
    assert (C : forallb (fun y => if ps_of o then is_pair y else is_num y) ys = true).
    { apply forallb_forall. intros y Iy. apply check_ok. rewrite Forall_forall in Hy. auto. }
    destruct (ps_of o).
    - destruct ys as [|y ys]; [contradiction|]. change (forallb is_pair (y :: ys) = true) in C. rewrite C.
      assert (E : mapM (log_pair O) (y :: ys) = Ok vs) by exact Hv. rewrite E. reflexivity.
    - change (forallb is_num ys = true) in C. rewrite C. assert (E : mapM (@scalar N) ys = Ok vs) by exact Hv. rewrite E. reflexivity.
  Qed.
  Lemma result_there (o : state) : length (o_Xi o) = length (o_yi o) -> o_yi o <> [] -> exists r, get_result O o = (o, Ok r).
  Proof.
    intros L Hne. now apply result_total.
  Qed.
  Lemma c96_batch pts : forall ys fit o, pts <> [] -> length (o_Xi o) = length (o_yi o) ->
    Forall2 (fun p y => member O (c_dims (o_cfg o)) p /\ valid_y1 O (ps_of o) y) pts ys ->
    tell O G W (X2 pts) (YLst ys) fit o = one_by_one pts ys fit o.
  Proof.
    induction pts as [|p pts IH]; [contradiction|]. intros ys fit o _ L H. inversion H as [|? y ? ys' [Hp Hy] H']; subst. clear H.
    assert (Hps : Forall (member O (c_dims (o_cfg o))) pts /\ Forall (valid_y1 O (ps_of o)) ys') by (clear - H'; induction H'; split; constructor; tauto).
    destruct Hps as [Hps Hys]. destruct (conv_ok _ _ Hy) as [v Hv].
    assert (exists vs, mapM (conv (ps_of o)) ys' = Ok vs) as [vs Hvs] by (apply mapM_all_ok; intros z Hz; rewrite Forall_forall in Hys; apply conv_ok; auto).
    rewrite (@tell_batch (p :: pts) (y :: ys') (v :: vs) fit o); [|constructor; assumption|constructor; assumption|discriminate|cbn [mapM]; rewrite Hv; cbn [bind]; rewrite Hvs; reflexivity].
    destruct pts as [|p2 pts].
    - inversion H'; subst. cbn in Hvs. injection Hvs as <-. cbn [one_by_one map]. symmetry. now apply tell_single.
    - inversion H' as [|? y2 ? ys2 P2 H2]; subst. rewrite one_cons. rewrite (@tell_single p y v false o) by assumption.
      assert (R : exists r, rest false (noted [X1 p] [v] o) = (noted [X1 p] [v] o, Ok r)).
      { unfold rest, andthen. cbn [andb]. unfold ret. apply result_there; unfold noted; destruct o; cbn; rewrite ?app_length; cbn; [cbn in L; lia|]. now destruct o_yi. }
      destruct R as [r ->]. rewrite <- IH; [|discriminate|unfold noted; destruct o; cbn in *; rewrite !app_length; cbn; lia|unfold noted; destruct o; exact H'].
      rewrite (@tell_batch (p2 :: pts) (y2 :: ys2) vs fit (noted [X1 p] [v] o)); [|unfold noted; destruct o; exact Hps|unfold noted; destruct o; exact Hys|discriminate|unfold noted; destruct o; exact Hvs].
      now rewrite noted_twice.
  Qed.
  Lemma c96_refused pts ys fit o : length pts = length ys -> ~ Forall2 (fun p y => member O (c_dims (o_cfg o)) p /\ valid_y1 O (ps_of o) y) pts ys ->
    exists e, tell O G W (X2 pts) (YLst ys) fit o = (o, Raise e).
  Proof.
    intros L H. apply tell_invalid; [intros (q & v & _ & E); discriminate|]. intros [Hx (l & E & Hy & _)]. injection E as <-. apply H. cbn [valid_x] in Hx. clear H.
    revert ys L Hy. induction Hx as [|p pts Hp Hx IH]; intros [|y ys] L Hy; try discriminate; [constructor|]. inversion Hy; subst. constructor; [tauto|]. apply IH; [now injection L|assumption].
  Qed.
  Lemma tell_valid p y fit o o' r : tell O G W (X1 p) y fit o = (o', Ok r) -> valid_x O (c_dims (o_cfg o)) (X1 p) /\ valid_y1 O (ps_of o) y.
  Proof.
    intro H. destruct (tell_cases O G W (X1 p) y fit o) as [[e E]|(y' & xs & ys & Hx & Hc & Hv & _)]; [congruence|]. split; [exact Hx|].
    destruct (@valid_y_of _ O (ps_of o) (X1 p) y y' Hc Hv) as [V|[_ (q & v & E & _)]]; [exact V|discriminate].
  Qed.
  Lemma singly_grows l o o' : told_singly O G W l o o' -> exists vs, mapM (conv (ps_of o)) (map (fun q => snd (fst q)) l) = Ok vs /\
    Forall2 (fun p y => member O (c_dims (o_cfg o)) p /\ valid_y1 O (ps_of o) y) (map (fun q => fst (fst q)) l) (map (fun q => snd (fst q)) l) /\
    o_Xi o' = o_Xi o ++ map (fun q => X1 (fst (fst q))) l /\ o_yi o' = o_yi o ++ vs /\ o_left o' = (o_left o - Z.of_nat (length l))%Z.
  Proof.
    induction 1 as [o|p y fit l o o1 o2 r Ht Hs IH].
    - exists []. cbn. rewrite !app_nil_r. split; [reflexivity|]. split; [constructor|]. repeat split; try reflexivity. lia.
    - destruct IH as (vs & I1 & I2 & I3 & I4 & I5).
      destruct (tell_valid _ _ _ _ Ht) as [Hx Hy]. destruct (conv_ok _ _ Hy) as [v Hv].
      rewrite (@tell_single p y v fit o Hx Hy Hv), <- tell_one in Ht. destruct (tell_grows O G W fit o (rec_one p v)) as [Hg _]. rewrite Ht in Hg. cbn [fst] in Hg.
      destruct Hg as (G1 & G2 & _ & G4 & G5). unfold ps_of in *. rewrite G1 in *. exists (v :: vs). cbn [map fst snd mapM]. rewrite Hv. cbn [bind]. rewrite I1. split; [reflexivity|].
      split; [constructor; [split; [exact Hx|exact Hy]|exact I2]|]. rewrite I3, I4, I5, G2, G4, G5, <- !app_assoc. cbn [length app]. repeat split. lia.
  Qed.
  Lemma same_result (o1 o2 : state) r1 r2 : o_Xi o2 = o_Xi o1 -> o_yi o2 = o_yi o1 -> get_result O o1 = (o1, Ok r1) -> get_result O o2 = (o2, Ok r2) ->
    res_x r2 = res_x r1 /\ res_fun r2 = res_fun r1 /\ res_x_iters r2 = res_x_iters r1 /\ res_func_vals r2 = res_func_vals r1.
  Proof.
    unfold get_result, create_result. intros -> ->. destruct (np_argmin O (map (@y_obj N) (o_yi o1))) as [b|]; [|discriminate].
    destruct (nth_error (o_Xi o1) b) as [x|]; [|discriminate]. destruct (nth_error _ b) as [y|]; [|discriminate]. intros H1 H2. injection H1 as <-. injection H2 as <-. repeat split.
  Qed.
  Lemma c96_history l o o1 r1 o2 fit : told_singly O G W l o o1 -> l <> [] ->
    tell O G W (X2 (map (fun q => fst (fst q)) l)) (YLst (map (fun q => snd (fst q)) l)) fit o = (o2, Ok r1) ->
    o_Xi o2 = o_Xi o1 /\ o_yi o2 = o_yi o1 /\ o_left o2 = o_left o1 /\
    forall s1 s2, get_result O o1 = (o1, Ok s1) -> get_result O o2 = (o2, Ok s2) ->
      res_x s2 = res_x s1 /\ res_fun s2 = res_fun s1 /\ res_x_iters s2 = res_x_iters s1 /\ res_func_vals s2 = res_func_vals s1.
  Proof.
    intros Hs Hl Ht. assert (K : o_Xi o2 = o_Xi o1 /\ o_yi o2 = o_yi o1 /\ o_left o2 = o_left o1); [|destruct K as (K1 & K2 & K3); repeat (split; [assumption|]); intros; now apply (@same_result o1 o2)]. destruct (singly_grows Hs) as (vs & I1 & I2 & I3 & I4 & I5).
    assert (HF : Forall (member O (c_dims (o_cfg o))) (map (fun q => fst (fst q)) l) /\ Forall (valid_y1 O (ps_of o)) (map (fun q => snd (fst q)) l)) by (clear - I2; induction I2; split; constructor; tauto).
    rewrite (@tell_batch _ _ vs fit o (proj1 HF) (proj2 HF)), <- tell_many in Ht; [|now destruct l|exact I1].
    match type of Ht with tell_ _ _ _ (P2 ?a) (Yn ?b) _ _ = _ => destruct (tell_grows O G W fit o (rec_many a b)) as [Hg _] end. rewrite Ht in Hg. cbn [fst] in Hg.
    destruct Hg as (_ & G2 & _ & G4 & G5). rewrite G2, G4, G5, I3, I4, I5, map_map. apply mapM_length in I1. rewrite map_length in I1. repeat split. lia.
  Qed.
End BatchTell.
