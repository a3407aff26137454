(** Callback properties: exact arithmetic, clocks, and callbacks inside a minimisation. *)
From Coq Require Import String List ZArith Bool Lia Permutation Sorted Reals Lra.
From Verif Require Import Base Num Values Transformers Dimension Space Optimizer NumLaws BaseLemmas SpaceSpec MetricLemmas
  ArgLemmas OptSpec OptLemmas2 OptLemmas5 Minimize MinSpec MinLemmas MinProps MinTrace Callbacks CbSpec CbLemmas.
Import ListNotations.
Open Scope list_scope.
Set Implicit Arguments.

Section Exact.
  Context {RNG M : Type}.
  Notation result := (result R RNG M).
  Open Scope R_scope.

  Lemma Rops_leb a b : nleb Rops a b = true <-> a <= b.
  Proof. apply Rleb_le. Qed.
  Lemma Rops_ltb a b : nltb Rops a b = true <-> a < b.
  Proof. apply Rltb_spec. Qed.
  Lemma count_in (f : R -> bool) (l : list R) : Forall (fun x => f x = true) l -> forall m, Permutation l m -> count f m = length l.
  Proof. intros H m P. rewrite <- (count_perm f P). now apply count_all. Qed.

  Lemma c32_R delta n_best (r : result) : (1 <= n_best)%Z ->
    (delta_y Rops delta n_best r = Ok (Some true) <->
     (n_best <= Z.of_nat (length (res_func_vals r)))%Z /\
     exists smallest rest, Permutation (res_func_vals r) (smallest ++ rest) /\ length smallest = Z.to_nat n_best /\
       (forall a b, In a smallest -> In b rest -> a <= b) /\
       (forall a b, In a smallest -> In b smallest -> Rabs (a - b) < delta)).
  Proof.
    intros Hn. set (vals := res_func_vals r). assert (Hnan : no_nan Rops vals) by apply no_nan_R.
    pose proof (np_sort_perm Rops vals) as P. pose proof (Permutation_length P) as Hl.
    pose proof (np_sort_sorted Rops_order Hnan) as Hs. unfold delta_y. fold vals.
    destruct (n_best <=? Z.of_nat (length vals))%Z eqn:E.
    2:{ apply Z.leb_gt in E. split; [discriminate|]. intros [H _]. lia. }
    apply Z.leb_le in E. rewrite !py_index_nat by lia.
    destruct (nth_error (np_sort Rops vals) (Z.to_nat (n_best - 1))) as [w|] eqn:Ew.
    2:{ apply nth_error_None in Ew. lia. }
    destruct (nth_error (np_sort Rops vals) (Z.to_nat 0)) as [b|] eqn:Eb.
    2:{ apply nth_error_None in Eb. lia. }
    pose proof (kth_sorted Rops_order _ Hnan Ew) as [Kin [Klt Kle]].
    pose proof (least_sorted Rops_order Hnan Eb) as [Bin Ble].
    assert (Hd : Ok (Some (nltb Rops (nsub Rops w b) delta)) = Ok (Some true) :> res (option bool) <-> w - b < delta).
    { rewrite <- Rops_ltb. cbn [nsub Rops]. split; [intros H; now injection H|intros H; now rewrite H]. }
    rewrite Hd. split.
    - intros H. split; [exact E|]. destruct (sorted_split Rops _ Hs Ew) as (p & q & Es & Hp & Hpw & Hqw).
      exists (p ++ [w]), q. split; [rewrite <- app_assoc; cbn; now rewrite <- Es|].
      split; [rewrite app_length, Hp; cbn; lia|].
      rewrite Forall_forall in Hpw, Hqw.
      assert (Hup : forall a, In a (p ++ [w]) -> a <= w).
      { intros a Ha. apply in_app_or in Ha. destruct Ha as [Ha|[<-|[]]]; [apply Rops_leb; auto|lra]. }
      assert (Hlo : forall a, In a (p ++ [w]) -> b <= a).
      { intros a Ha. apply Rops_leb, Ble. apply (Permutation_in _ (Permutation_sym P)). rewrite Es.
        apply in_app_or in Ha. apply in_or_app. destruct Ha as [Ha|[<-|[]]]; [now left|right; now left]. }
      split.
      + intros a c Ha Hc. specialize (Hup _ Ha). specialize (Hqw _ Hc). apply Rops_leb in Hqw. lra.
      + intros a c Ha Hc. pose proof (Hup _ Ha). pose proof (Hup _ Hc). pose proof (Hlo _ Ha). pose proof (Hlo _ Hc).
        apply Rabs_def1; lra.
    - intros (_ & l & rest & Pl & Hlen & Hle & Hdiff).
      assert (Hb : In b l).
      { pose proof (Permutation_in _ Pl Bin) as Hb. apply in_app_or in Hb. destruct Hb as [Hb|Hb]; [exact Hb|].
        destruct l as [|a l]; [cbn in Hlen; lia|]. assert (a = b); [|subst; now left].
        apply Rle_antisym; [apply Hle; auto; now left|]. apply Rops_leb, Ble.
        apply (Permutation_in _ (Permutation_sym Pl)). now left. }
      assert (Hm : exists m, In m l /\ w <= m).
      { destruct (Exists_dec (fun m => w <= m) l (fun m => Rle_dec w m)) as [H|H].
        - apply Exists_exists in H. exact H.
        - exfalso. rewrite <- Forall_Exists_neg in H.
          rewrite (count_perm _ Pl), count_app, (@count_all _ _ l) in Klt; [lia|].
          eapply Forall_impl; [|exact H]. intros a Ha. apply Rops_ltb. lra. }
      destruct Hm as (m & Hm & Hwm). specialize (Hdiff _ _ Hm Hb). apply Rabs_def2 in Hdiff. lra.
  Qed.

  (** C33: in exact arithmetic it always answers for histories of points of the space. *)
  Lemma c33_R delta (r : result) : Forall (wf_dim Rops) (res_space r) ->
    (forall x, In x (res_x_iters r) -> exists p, x = X1 p /\ in_space Rops (res_space r) p) ->
    (2 <= length (res_x_iters r))%nat ->
    exists a b d, last_two r a b /\ space_distance Rops (res_space r) a b = Ok d /\
      exists s, delta_x Rops delta r = Ok (Some s) /\ (s = true <-> d < delta).
  Proof.
    intros Hw Hx Hl. destruct (exists_last (l := res_x_iters r)) as (l1 & x1 & E1); [intros H; rewrite H in Hl; cbn in Hl; lia|].
    assert (Hl1 : l1 <> []) by (intros ->; rewrite E1 in Hl; cbn in Hl; lia).
    destruct (exists_last Hl1) as (l2 & x2 & E2). subst l1. rewrite <- app_assoc in E1. cbn in E1.
    destruct (Hx x2) as (a & -> & Ha); [rewrite E1; apply in_elt|].
    destruct (Hx x1) as (b & -> & Hb); [rewrite E1; apply in_or_app; right; right; now left|].
    destruct (distance_metric Hw Ha Hb) as (d & Hd & _). exists a, b, d.
    assert (K : last_two r a b) by (now exists l2). split; [exact K|]. split; [exact Hd|].
    eexists. split; [apply (proj2 (c33 Rops delta r) _ _ _ K Hd)|]. apply Rops_ltb.
  Qed.
End Exact.

Section Clock.
  Context {N RNG M : Type} (O : numops N).
  Definition durations (clk : nat -> N) (n : nat) : list N :=
    map (fun i => nsub O (clk (2 * i + 1)) (clk (2 * i))) (seq 0 n).
  Lemma timer_last clk n : tm_last (timer_run O clk n) = clk (2 * n).
  Proof. destruct n; [easy|]. cbn [timer_run timer_step tm_last]. f_equal. lia. Qed.
  Lemma iter_times clk n : iter_time O clk n = durations clk n.
  Proof.
    unfold iter_time, durations. induction n as [|n IH]; [easy|]. rewrite seq_S, map_app, <- IH. cbn [timer_run timer_step tm_times].
    rewrite timer_last. reflexivity.
  Qed.
  Lemma early_app criterion (seen : list (result N RNG M)) r : early criterion (seen ++ [r]) = criterion r.
  Proof. unfold early. rewrite map_app. cbn [map]. now rewrite last_last. Qed.
  Lemma c35_deadline (L : order_laws O) total clk seen (r : result N RNG M) :
    res_x_iters r <> [] -> no_nan O (durations clk (S (length seen))) ->
    exists m, In m (durations clk (S (length seen))) /\
      (forall t, In t (durations clk (S (length seen))) -> nleb O t m = true) /\
      deadline O total clk (seen ++ [r]) =
        Ok (Some (nleb O (nsub O total (np_sum O (durations clk (S (length seen))))) m)).
  Proof.
    intros Hx Hn. unfold deadline. rewrite early_app. destruct (res_x_iters r); [easy|].
    rewrite iter_times, app_length. cbn [length]. rewrite Nat.add_1_r.
    destruct (np_max_spec L) with (l := durations clk (S (length seen))) as (m & E & H1 & H2 & _); [discriminate|exact Hn|].
    exists m. split; [exact H1|]. split; [exact H2|]. rewrite E. reflexivity.
  Qed.
End Clock.

Section ClockR.
  Context {RNG M : Type}.
  Open Scope R_scope.
  (** Time between the two readings of the clock at the same step. *)
  Definition gaps (clk : nat -> R) (n : nat) : list R := map (fun i => clk (2 * i + 2)%nat - clk (2 * i + 1)%nat) (seq 0 n).
  Lemma np_sum_snoc (l : list R) x : np_sum Rops (l ++ [x]) = np_sum Rops l + x.
  Proof. unfold np_sum. now rewrite fold_left_app. Qed.
  Lemma durations_S {N} (O : numops N) clk n :
    durations O clk (S n) = durations O clk n ++ [nsub O (clk (2 * n + 1)%nat) (clk (2 * n)%nat)].
  Proof. unfold durations. now rewrite seq_S, map_app. Qed.
  Lemma gaps_S clk n : gaps clk (S n) = gaps clk n ++ [clk (2 * n + 2)%nat - clk (2 * n + 1)%nat].
  Proof. unfold gaps. now rewrite seq_S, map_app. Qed.
  Lemma c35_sum clk n : np_sum Rops (durations Rops clk (S n)) + np_sum Rops (gaps clk n) = clk (2 * n + 1)%nat - clk 0%nat.
  Proof.
    induction n as [|n IH].
    - unfold np_sum. cbn. lra.
    - rewrite durations_S, gaps_S, !np_sum_snoc. cbn [nsub Rops].
      replace (2 * S n)%nat with (2 * n + 2)%nat by lia. replace (2 * n + 2 + 1)%nat with (2 * S n + 1)%nat by lia. lra.
  Qed.
  Lemma c35_in_time total clk (seen : list (result R RNG M)) r : res_x_iters r <> [] ->
    deadline Rops total clk (seen ++ [r]) = Ok (Some false) ->
    forall t, In t (durations Rops clk (S (length seen))) ->
    let n := S (length seen) in
    clk (2 * n + 1)%nat - clk (2 * n)%nat <= t -> np_sum Rops (durations Rops clk (S n)) < total.
  Proof.
    intros Hx Hd t Ht n Hn.
    destruct (@c35_deadline R RNG M Rops Rops_order total clk seen r Hx) as (m & _ & Hm & E); [apply no_nan_R|].
    rewrite E in Hd. injection Hd as Hd. specialize (Hm _ Ht). apply Rops_leb in Hm.
    assert (K : ~ (total - np_sum Rops (durations Rops clk n) <= m)).
    { intros H. apply Rleb_le in H. unfold n in H. cbn [nsub nleb Rops] in Hd. rewrite H in Hd. discriminate. }
    rewrite durations_S, np_sum_snoc. cbn [nsub Rops]. lra.
  Qed.
End ClockR.

Section InMinimisation.
  Context {N RNG M : Type} (O : numops N) (G : rng_ops N RNG) (W : world N M).
  Notation result := (result N RNG M).
  Notation event := (event N RNG M).

  Lemma snoc_inj {A} (l m : list A) : forall a q, m <> [] -> l ++ a :: q = m -> exists k, m = l ++ a :: k.
  Proof. intros a q _ <-. eauto. Qed.
  Lemma calls_split (r : result) k : forall s p i r' q,
    map (fun j => ECall j r) (seq s k) = p ++ ECall i r' :: q -> r' = r /\ i < s + k /\ @evals N RNG M p = [].
  Proof.
    induction k as [|k IH]; intros s p i r' q E; [destruct p; discriminate|].
    destruct p as [|e p]; cbn in E; injection E as E1 E.
    - subst. split; [easy|]. split; [lia|easy].
    - subst. apply IH in E. destruct E as (-> & Hi & Hp). split; [easy|]. split; [lia|]. exact Hp.
  Qed.
  Lemma evals_split (ps : list (point N)) (t : list event) p i r q : map EEval ps ++ t = p ++ ECall i r :: q ->
    exists p', p = map EEval ps ++ p' /\ t = p' ++ ECall i r :: q.
  Proof.
    revert p. induction ps as [|x ps IH]; intros p E; [now exists p|]. destruct p as [|e p]; [discriminate|].
    cbn in E. injection E as <- E. apply IH in E. destruct E as (p' & -> & ->). now exists p'.
  Qed.
  Lemma paced_shown n e b (t : list event) : paced n e b t -> forall p i r q, t = p ++ ECall i r :: q ->
    i < n /\ length (res_func_vals r) = e + length (evals p).
  Proof.
    induction 1 as [e b ps Hb|e b ps r j Hb Hj Hr|e b ps r t Hb Hr Ht IH]; intros p i r' q E.
    - rewrite <- (app_nil_r (map EEval ps)) in E. apply evals_split in E. destruct E as (p' & _ & E). destruct p'; discriminate.
    - apply evals_split in E. destruct E as (p' & -> & E). apply calls_split in E. destruct E as (-> & Hi & Ep).
      rewrite evals_app, evals_points, Ep, app_nil_r. split; [lia|exact Hr].
    - apply evals_split in E. destruct E as (p' & -> & E). apply app_eq_app in E. destruct E as (l & [[E1 E2]|[-> E2]]).
      + destruct l as [|x l].
        * cbn in E2. symmetry in E2. apply (IH [] i r' q) in E2. cbn in E2. rewrite app_nil_r in E1. subst p'.
          rewrite evals_app, evals_points, evals_calls, app_nil_r. lia.
        * injection E2 as <- E2. apply calls_split in E1. destruct E1 as (-> & Hi & Ep).
          rewrite evals_app, evals_points, Ep, app_nil_r. split; [lia|exact Hr].
      + apply IH in E2. rewrite !evals_app, evals_points, evals_calls, !app_length. cbn. lia.
  Qed.

  Lemma c29_any m f a g t o' res x0 : minimize O G W m f a g = (t, o', res) -> given (m_x0 a) x0 ->
    forall p i r q, t = p ++ ECall i r :: q ->
    i < length (callbacks_of a) /\
    length (res_func_vals r) = length (evals p) + match values_of (m_y0 a) with Some _ => length x0 | None => 0 end.
  Proof.
    intros H Hg p i r q E. pose proof (minimize_any O G W m f a g H Hg) as P. destruct (paced_shown P _ _ _ _ E) as [K1 K2].
    split; [exact K1|]. unfold extra_of in K2. lia.
  Qed.

  (** The checkpoint. *)
  Context {B : Type} (ser : result -> list B).
  Lemma disk_app i d (t u : list event) : disk_after ser i d (t ++ u) = disk_after ser i (disk_after ser i d t) u.
  Proof. revert d. induction t as [|[p|j r] t IH]; intros d; cbn [app disk_after]; auto. Qed.
  Lemma disk_evals i d (ps : list (point N)) : disk_after ser i d (map EEval ps : list event) = d.
  Proof. induction ps; cbn; auto. Qed.
  Lemma disk_calls i (r : result) k : forall s d, disk_after ser i d (map (fun j => ECall j r) (seq s k)) =
    if Nat.leb s i && Nat.ltb i (s + k) then Some (ser r) else d.
  Proof.
    induction k as [|k IH]; intros s d; cbn [seq map disk_after].
    - destruct (Nat.leb_spec s i), (Nat.ltb_spec i (s + 0)); cbn; auto; lia.
    - rewrite IH. destruct (Nat.eqb_spec i s).
      + subst. destruct (Nat.leb_spec (S s) s), (Nat.ltb_spec s (S s + k)), (Nat.leb_spec s s), (Nat.ltb_spec s (s + S k)); cbn; auto; lia.
      + destruct (Nat.leb_spec (S s) i), (Nat.ltb_spec i (S s + k)), (Nat.leb_spec s i), (Nat.ltb_spec i (s + S k)); cbn; auto; lia.
  Qed.
  Lemma in_calls i n (r : result) : i < n -> In (ECall i r) (calls_of n r).
  Proof. intros H. unfold calls_of. apply in_map_iff. exists i. split; [easy|]. apply in_seq. lia. Qed.
  Lemma paced_disk n e b (t : list event) i : paced n e b t -> i < n -> forall d,
    (disk_after ser i d t = d /\ (forall r, ~ In (ECall i r) t) /\ length (evals t) <= b) \/
    (exists r, disk_after ser i d t = Some (ser r) /\ In (ECall i r) t /\ e + length (evals t) <= length (res_func_vals r) + 1).
  Proof.
    intros P Hi. induction P as [e b ps Hb|e b ps r j Hb Hj Hr|e b ps r t Hb Hr Ht IH]; intros d.
    - left. rewrite disk_evals, evals_points. split; [easy|]. split; [|easy]. intros r H. apply in_map_iff in H. destruct H as (x & H & _). discriminate.
    - rewrite disk_app, disk_evals, evals_app, evals_points, evals_calls, app_nil_r. unfold calls_of. rewrite disk_calls. cbn [Nat.leb andb].
      destruct (Nat.ltb_spec i (0 + j)) as [Hl|Hl].
      + right. exists r. split; [easy|]. split; [|lia]. apply in_or_app. right. now apply in_calls.
      + left. split; [easy|]. split; [|easy]. intros r' H. apply in_app_or in H. destruct H as [H|H]; apply in_map_iff in H.
        * destruct H as (x & H & _). discriminate.
        * destruct H as (x & H & Hx). injection H as -> _. apply in_seq in Hx. lia.
    - rewrite !disk_app, disk_evals, !evals_app, evals_points, evals_calls. cbn [app]. unfold calls_of. rewrite disk_calls.
      replace (Nat.leb 0 i && Nat.ltb i (0 + n)) with true by (symmetry; apply andb_true_intro; split; [apply Nat.leb_le|apply Nat.ltb_lt]; lia).
      right. destruct (IH (Some (ser r))) as [(E & _ & Hl)|(r' & E & Hin & Hl)].
      + exists r. split; [exact E|]. split; [|rewrite app_length; lia]. apply in_or_app. right. apply in_or_app. left. now apply in_calls.
      + exists r'. split; [exact E|]. split; [|rewrite app_length; lia]. apply in_or_app. right. apply in_or_app. now right.
  Qed.
  Lemma c36 m f a g t o' res x0 i d : minimize O G W m f a g = (t, o', res) -> given (m_x0 a) x0 ->
    nth_error (callbacks_of a) i = Some (saver (N:=N) (RNG:=RNG) (M:=M)) ->
    forall before after, t = before ++ after ->
    (disk_after ser i d before = d /\ length (evals before) <= Nat.max 1 (length x0)) \/
    (exists r, disk_after ser i d before = Some (ser r) /\ In (ECall i r) before /\
       length (evals before) + match values_of (m_y0 a) with Some _ => length x0 | None => 0 end <= length (res_func_vals r) + 1).
  Proof.
    intros H Hg Hi p q E. pose proof (minimize_any O G W m f a g H Hg) as P.
    assert (Hi' : i < length (callbacks_of a)) by (apply nth_error_Some; congruence).
    pose proof (paced_prefix P p q (eq_sym E)) as P'.
    destruct (paced_disk P' Hi' d) as [(K1 & K2 & K3)|(r & K1 & K2 & K3)]; [left; auto|right].
    exists r. split; [exact K1|]. split; [exact K2|]. unfold extra_of in K3. lia.
  Qed.
  (** The file is empty at some moment of every call. *)
  Lemma c36_torn (t : list event) i d r : In (ECall i r) t -> In (Some []) (disks ser i d t).
  Proof.
    revert d. induction t as [|[p|j r'] t IH]; intros d H; [easy| |].
    - destruct H as [H|H]; [discriminate|]. right. auto.
    - cbn [disks]. destruct (Nat.eqb_spec i j).
      + right. apply in_or_app. left. unfold write_states. apply in_map_iff. exists 0. split; [easy|]. apply in_seq. lia.
      + destruct H as [H|H]; [injection H; congruence|]. right. auto.
  Qed.

  (** A criterion inside a minimisation. *)
  Lemma c35_minimise m f a g t o' res thr :
    minimize O G W m f a g = (t, o', Ok res) -> m_callback a = CBOne (early (threshold O thr)) ->
    exists x0 rds rd, given (m_x0 a) x0 /\ t = flat_map (round_events (length (callbacks_of a))) (rds ++ [rd]) /\ res = Some (snd rd) /\
      (forall rd' v, In rd' rds -> In v (res_func_vals (snd rd')) -> nleb O v thr = false) /\
      ((exists v, In v (res_func_vals (snd rd)) /\ nleb O v thr = true) \/
       Z.of_nat (length (evals t)) =
         Z.max (m_ncalls a) (match values_of (m_y0 a) with None => Z.of_nat (length x0) | Some _ => 0 end)).
  Proof.
    intros H Hc. apply c29 in H. destruct H as (x0 & rds & rd & H1 & H2 & H3 & H4 & H5 & _).
    exists x0, rds, rd. split; [exact H1|]. split; [exact H2|]. split; [exact H3|].
    assert (K : forall seen (r : result), wants_stop (callbacks_of a) (seen ++ [r]) <->
              exists v, In v (res_func_vals r) /\ nleb O v thr = true).
    { intros seen r. destruct (c35_threshold O thr r) as (b & E & Hb). unfold wants_stop, callbacks_of. rewrite Hc. split.
      - intros (c & [<-|Hin] & Ec); [rewrite early_app, E in Ec; injection Ec as ->; now apply Hb|].
        destruct (m_verbose a); [destruct Hin as [<-|[]]; discriminate|destruct Hin].
      - intros Hv. exists (early (threshold O thr)). split; [now left|]. rewrite early_app, E. now rewrite (proj2 Hb Hv). }
    split.
    - intros rd' v Hin Hv. apply in_split in Hin. destruct Hin as (l1 & l2 & ->).
      specialize (H4 (length l1)). rewrite app_length in H4. cbn [length] in H4. specialize (H4 ltac:(lia)).
      rewrite firstn_app, firstn_all2 in H4 by lia. replace (S (length l1) - length l1) with 1 in H4 by lia. cbn [firstn] in H4.
      rewrite map_app in H4. cbn [map] in H4. destruct (nleb O v thr) eqn:E; [|easy]. exfalso. apply H4. apply K. eauto.
    - destruct H5 as [H5|H5]; [left|now right]. rewrite map_app in H5. cbn [map] in H5. now apply K in H5.
  Qed.
End InMinimisation.
