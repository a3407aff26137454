From Coq Require Import String List ZArith Bool Lia Reals Lra.
From Verif Require Import Base BaseLemmas Num Values Dimension Space NumLaws Optimizer OptSpec ArgLemmas CbSpec ForestSpec Plots PlotSpec.
Import ListNotations.
Open Scope nat_scope.
Open Scope list_scope.
Set Implicit Arguments.

Lemma mapM_nth {A B} (f : A -> res B) l ys i : mapM f l = Ok ys -> forall y, nth_error ys i = Some y -> exists x, nth_error l i = Some x /\ f x = Ok y.
Proof.
  revert ys i. induction l as [|x l IH]; intros ys i H y Hy; cbn in H; [injection H as <-; now destruct i|].
  destruct (f x) as [v|] eqn:E; [|discriminate]. cbn [bind] in H. destruct (mapM f l) as [r|]; [|discriminate]. injection H as <-.
  destruct i; cbn in Hy; [injection Hy as <-; now exists x|]. now apply (IH r i).
Qed.
Lemma mapM_total {A B} (f : A -> res B) l : (forall x, In x l -> exists y, f x = Ok y) -> exists ys, mapM f l = Ok ys.
Proof.
  induction l as [|x l IH]; intro H; [now exists []|]. destruct (H x) as [y Hy]; [now left|]. destruct IH as [ys Hys]; [intros z Hz; apply H; now right|].
  exists (y :: ys). cbn. now rewrite Hy, Hys.
Qed.
Lemma seq_nth1 n i x : nth_error (seq 1 n) i = Some x -> x = S i /\ i < n.
Proof.
  intro H. assert (i < n) by (rewrite <- (seq_length n 1); apply nth_error_Some; congruence).
  rewrite (nth_error_nth' _ 0) in H by now rewrite seq_length. rewrite seq_nth in H by easy. injection H as <-. split; lia.
Qed.

Section Traces.
  Context {N RNG M : Type} (O : numops N) (OL : order_laws O).
  Notation result := (result N RNG M).

  Lemma no_nan_firstn k l : no_nan O l -> no_nan O (firstn k l).
  Proof. intro H. unfold no_nan in *. rewrite Forall_forall in *. intros x Hx. apply H. rewrite <- (firstn_skipn k l). apply in_or_app. now left. Qed.
  Lemma np_min_least l : l <> [] -> no_nan O l -> exists m, np_min O l = Ok m /\ least O l m.
  Proof. intros A B. destruct (np_min_spec OL A B) as (m & E & I & Lm & _). exists m. split; [easy|]. now split. Qed.

  Lemma min_trace_ok n (r : result) : complete O r -> exists ys, min_trace O n r = Ok ys /\ running_least O n (res_func_vals r) ys.
  Proof.
    intros (Hl & Hn & Hv). unfold min_trace.
    assert (Q : forall i, 0 < i -> exists m, np_min O (firstn i (res_func_vals r)) = Ok m /\ least O (firstn i (res_func_vals r)) m).
    { intros i Hi. apply np_min_least; [|now apply no_nan_firstn]. destruct i, (res_func_vals r); easy. }
    destruct (mapM_total (fun i => np_min O (firstn i (res_func_vals r))) (seq 1 n)) as [ys E].
    { intros i Hi. apply in_seq in Hi. destruct (Q i) as (m & Em & _); [lia|]. now exists m. }
    exists ys. split; [easy|]. split; [rewrite (mapM_length _ _ E); apply seq_length|].
    intros i v Hv'. destruct (mapM_nth _ _ _ E Hv') as (k & Hk & Ek). apply seq_nth1 in Hk. destruct Hk as [-> _].
    destruct (Q (S i)) as (m & Em & Lm); [lia|]. congruence.
  Qed.
  Lemma running_least_decr n vals ys : running_least O n vals ys -> forall i j v w, i <= j -> nth_error ys i = Some v -> nth_error ys j = Some w -> nleb O w v = true.
  Proof.
    intros [_ H] i j v w Hij Hi Hj. destruct (H _ _ Hi) as [Iv _]. destruct (H _ _ Hj) as [_ Lw]. apply Lw.
    replace (firstn (S i) vals) with (firstn (S i) (firstn (S j) vals)) in Iv by (rewrite firstn_firstn; f_equal; lia).
    rewrite <- (firstn_skipn (S i) (firstn (S j) vals)). apply in_or_app. now left.
  Qed.
  Lemma complete_created Xi yi dims g ms (r : result) : create_result O Xi yi dims g ms = Ok r -> length Xi = length yi -> no_nan O (map y_obj yi) -> complete O r.
  Proof.
    unfold create_result. intros H Hl Hn. destruct (np_argmin O (map y_obj yi)) as [b|] eqn:E; [|discriminate].
    destruct (nth_error Xi b) as [x|] eqn:Ex; [|discriminate]. destruct (nth_error (map y_obj yi) b) as [y|] eqn:Ey; [|discriminate]. injection H as <-. unfold complete. cbn [res_x_iters res_func_vals].
    split; [now rewrite map_length|]. split; [|easy]. intro Q. rewrite Q in Ey. now destruct b.
  Qed.
  Lemma running_least_end n (r : result) ys Xi yi dims g ms : create_result O Xi yi dims g ms = Ok r -> n = length (res_func_vals r) ->
    (forall i v, nth_error ys i = Some v -> np_min O (firstn (S i) (res_func_vals r)) = Ok v) -> length ys = n -> 0 < n -> nth_error ys (n - 1) = Some (res_fun r).
  Proof.
    intros H Hn Hy Hl Hp. destruct (nth_error ys (n - 1)) as [v|] eqn:E; [|apply nth_error_None in E; lia]. apply Hy in E.
    replace (S (n - 1)) with (length (res_func_vals r)) in E by lia. rewrite firstn_all in E.
    unfold create_result in H. destruct (np_argmin O (map y_obj yi)) as [b|] eqn:Eb; [|discriminate].
    destruct (nth_error Xi b) as [x|] eqn:Ex; [|discriminate]. destruct (nth_error (map y_obj yi) b) as [y|] eqn:Ey; [|discriminate]. injection H as <-. cbn in *.
    unfold np_min in E. rewrite Eb in E. cbn in E. rewrite Ey in E. congruence.
  Qed.

  (** The lines of one argument. *)
  Variable tr : nat -> result -> res (list N).
  Variable trace : nat -> list N -> list N -> Prop.
  Context (Htr : forall n r, complete O r -> exists ys, tr n r = Ok ys /\ trace n (res_func_vals r) ys).
  Context (Hlen : forall n vals ys, trace n vals ys -> length ys = n).
  Definition col_mean (yss : list (list N)) (j : nat) (v : N) : Prop := exists col, Forall2 (fun ys c => nth_error ys j = Some c) yss col /\ np_mean O col = Ok v.
  Lemma column_means_ok n yss : yss <> [] -> Forall (fun ys => length ys = n) yss ->
    exists ms, column_means O n yss = Ok ms /\ length ms = n /\ forall j v, nth_error ms j = Some v -> col_mean yss j v.
  Proof.
    intros Hne Hl. unfold column_means. match goal with |- context [mapM ?g (seq 0 n)] => set (f := g) end.
    assert (Q : forall j, j < n -> exists v, f j = Ok v /\ col_mean yss j v).
    { intros j Hj. assert (E : exists col, mapM (fun r => match nth_error r j with Some v => Ok v | None => Raise ValueError end) yss = Ok col).
      { apply mapM_total. intros ys Hy. rewrite Forall_forall in Hl. specialize (Hl _ Hy). destruct (nth_error ys j) as [v|] eqn:E; [now exists v|]. apply nth_error_None in E. lia. }
      destruct E as [col E]. unfold f. rewrite E. cbn [bind]. pose proof (mapM_length _ _ E) as L.
      destruct col as [|c col'] eqn:Ec; [destruct yss; easy|]. rewrite <- Ec in *. eexists. split; [unfold np_mean; rewrite Ec; reflexivity|].
      exists col. split; [|unfold np_mean; rewrite Ec; reflexivity].
      clear -E. revert col E. induction yss as [|ys yss IH]; intros col E; cbn in E; [injection E as <-; constructor|].
      destruct (nth_error ys j) as [v|] eqn:Ev; [|discriminate]. cbn [bind] in E. destruct (mapM _ yss) as [r|]; [|discriminate]. injection E as <-. constructor; [easy|now apply IH]. }
    destruct (mapM_total f (seq 0 n)) as [ms E]. { intros j Hj. apply in_seq in Hj. destruct (Q j) as (v & Ev & _); [lia|]. now exists v. }
    exists ms. split; [easy|]. split; [rewrite (mapM_length _ _ E); apply seq_length|].
    intros j v Hv. destruct (mapM_nth _ _ _ E Hv) as (k & Hk & Ek).
    assert (Hj : j < n) by (rewrite <- (seq_length n 0); apply nth_error_Some; congruence).
    rewrite (nth_error_nth' _ 0) in Hk by now rewrite seq_length. rewrite seq_nth in Hk by easy. assert (k = j) by (cbn in Hk; congruence). subst k.
    destruct (Q j Hj) as (w & Ew & Cw). congruence.
  Qed.
  Lemma arg_lines_ok a : all_in (complete O) a -> exists ls, arg_lines O tr a = Ok ls /\ drawn trace col_mean a ls.
  Proof.
    destruct a as [r|rs]; cbn [all_in].
    - intro H. pose proof H as (Hl & _). cbn. rewrite Hl. destruct (Htr (length (res_func_vals r)) H) as (ys & E & T). rewrite E. cbn [bind].
      eexists. split; [reflexivity|]. now exists ys.
    - intros [Hne H]. destruct rs as [|r0 rs]; [easy|]. set (all := r0 :: rs) in *. unfold arg_lines. unfold all at 1.
      assert (H0 := H). apply Forall_cons_iff in H0. destruct H0 as [(Hl & _) _]. rewrite Hl. set (n := length (res_func_vals r0)).
      assert (Q : exists yss, mapM (tr n) all = Ok yss /\ Forall2 (fun r => trace n (res_func_vals r)) all yss).
      { clear -H Htr. induction H as [|r l Hr H IH]; [now exists []|]. destruct (Htr n Hr) as (ys & E & T). destruct IH as (yss & Es & Ts).
        exists (ys :: yss). cbn. rewrite E, Es. split; [easy|now constructor]. }
      destruct Q as (yss & E & F). rewrite E. cbn [bind].
      destruct (@column_means_ok n yss) as (ms & Em & Lm & Cm).
      { intros ->. inversion F. }
      { clear -F Hlen. induction F; constructor; eauto. }
      rewrite Em. cbn [bind]. eexists. split; [reflexivity|]. exists n, yss, ms. split; [now exists r0|]. repeat split; auto.
  Qed.
  Lemma args_lines_ok (args : list (named N RNG M)) : Forall (fun a => all_in (complete O) (snd a)) args ->
    exists lss, mapM (fun a => arg_lines O tr (snd a)) args = Ok lss /\ Forall2 (fun a ls => drawn trace col_mean (snd a) ls) args lss.
  Proof.
    induction 1 as [|a args Ha H IH]; [now exists []|]. destruct (arg_lines_ok _ Ha) as (ls & E & D). destruct IH as (lss & Es & Ds).
    exists (ls :: lss). cbn. rewrite E, Es. split; [easy|now constructor].
  Qed.
End Traces.

(** plot_convergence *)
Section Convergence.
  Context {N RNG M : Type} (O : numops N) (OL : order_laws O).
  Lemma convergence (args : list (named N RNG M)) t : args <> [] -> Forall (fun a => all_in (complete O) (snd a)) args ->
    exists ch lss, plot_convergence O args t = Ok ch /\ ch_lines ch = concat lss /\
      Forall2 (fun a ls => drawn (running_least O) (col_mean O) (snd a) ls) args lss /\
      ch_hline ch = (if truthy O t then t else None).
  Proof.
    intros Hne H. destruct (@args_lines_ok N RNG M O (min_trace O) (running_least O)) with (args := args) as (lss & E & F); auto.
    { intros n r Hr. now apply min_trace_ok. } { now intros n vals ys []. }
    unfold plot_convergence. rewrite E. cbn [bind].
    destruct (truthy O t); cbn [bind]; [now exists (mkChart (concat lss) t true), lss|].
    destruct args as [|a rest]; [easy|]. cbn [bind]. eexists _, lss. split; [reflexivity|]. easy.
  Qed.
  (** One result, as made by create_result. *)
  Lemma convergence_one Xi yi dims (g : RNG) (ms : list M) r name : create_result O Xi yi dims g ms = Ok r -> length Xi = length yi -> no_nan O (map y_obj yi) ->
    exists ch ys, plot_convergence O [(name, TOne r)] None = Ok ch /\ ch_lines ch = [mkLine (seq 1 (length yi)) ys] /\
      running_least O (length yi) (map y_obj yi) ys /\
      (forall i j v w, i <= j -> nth_error ys i = Some v -> nth_error ys j = Some w -> nleb O w v = true) /\
      last (map Some ys) None = Some (res_fun r).
  Proof.
    intros H Hl Hn. pose proof (complete_created _ _ _ _ _ H Hl Hn) as C. pose proof C as (C1 & C2 & C3).
    assert (V : res_func_vals r = map y_obj yi).
    { unfold create_result in H. destruct (np_argmin O _); [|discriminate]. destruct (nth_error Xi _); [|discriminate]. destruct (nth_error (map y_obj yi) _); [|discriminate]. now injection H as <-. }
    assert (L : length (res_func_vals r) = length yi) by (rewrite V; apply map_length).
    destruct (min_trace_ok OL (length yi) C) as (ys & E & T). rewrite V in T.
    unfold plot_convergence. cbn [mapM snd arg_lines]. rewrite C1, L, E. cbn [bind mapM truthy last concat app].
    eexists _, ys. split; [reflexivity|]. split; [reflexivity|]. split; [easy|]. split; [exact (running_least_decr T)|].
    assert (P : 0 < length yi) by (rewrite <- L; destruct (res_func_vals r); cbn; [easy|lia]).
    destruct T as [T1 T2].
    assert (Q : nth_error ys (length yi - 1) = Some (res_fun r)).
    { apply (@running_least_end _ _ _ O) with (Xi := Xi) (yi := yi) (dims := dims) (g := g) (ms := ms); auto.
      intros i v Hv. destruct (mapM_nth _ _ _ E Hv) as (k & Hk & Ek). apply seq_nth1 in Hk. now destruct Hk as [-> _]. }
    clear -Q T1 P. rewrite <- T1 in *. clear T1. rewrite <- (rev_involutive ys) in *. destruct (rev ys) as [|y l]; [cbn in P; lia|].
    cbn [rev] in *. rewrite map_app. cbn [map]. rewrite last_last. rewrite app_length in Q. cbn [length] in Q.
    rewrite nth_error_app2 in Q by lia. replace (length (rev l) + 1 - 1 - length (rev l)) with 0 in Q by lia. now cbn in Q.
  Qed.
End Convergence.

(** Exact arithmetic: the mean is the average; regret. *)
Lemma fold_plus l a : fold_left Rplus l a = (a + fold_right Rplus 0 l)%R.
Proof. revert a. induction l as [|x l IH]; intro a; cbn; [lra|]. rewrite IH. lra. Qed.
Lemma np_sum_R l : np_sum Rops l = fold_right Rplus 0%R l.
Proof. unfold np_sum. cbn. rewrite fold_plus. lra. Qed.
Lemma np_mean_R l v : np_mean Rops l = Ok v -> v = avg l.
Proof.
  unfold np_mean. destruct l as [|a l]; [discriminate|]. intro H. assert (E : v = (np_sum Rops (a :: l) / IZR (Z.of_nat (length (a :: l))))%R) by (cbn in *; congruence).
  rewrite E, np_sum_R. unfold avg. now rewrite <- INR_IZR_INZ.
Qed.
Lemma col_mean_R yss j v : col_mean Rops yss j v -> is_mean yss j v.
Proof. intros (col & F & E). exists col. split; [easy|]. now apply np_mean_R. Qed.
Lemma drawn_mono {N RNG M} (t t' : nat -> list N -> list N -> Prop) (m m' : list (list N) -> nat -> N -> Prop) (a : traced N RNG M) ls :
  (forall yss j v, m yss j v -> m' yss j v) -> (forall n l ys, t n l ys -> t' n l ys) -> drawn t m a ls -> drawn t' m' a ls.
Proof.
  intros Hm Ht. destruct a as [r|rs]; cbn.
  - intros (ys & E & T). exists ys. split; auto.
  - intros (n & yss & ms & A & B & C & D & E). exists n, yss, ms. repeat split; auto. clear -C Ht. induction C; constructor; auto.
Qed.
Lemma regret_R m l : np_sum Rops (map (fun v => nsub Rops v m) l) = regret m l.
Proof. rewrite np_sum_R. induction l as [|v l IH]; [easy|]. cbn [map fold_right regret]. rewrite IH. reflexivity. Qed.
Lemma regret_trace_ok {RNG M} m n (r : result R RNG M) : exists ys, regret_trace Rops m n r = Ok ys /\ running_regret m n (res_func_vals r) ys.
Proof.
  eexists. split; [reflexivity|]. split; [now rewrite map_length, seq_length|].
  intros i v H. destruct (nth_error (seq 1 n) i) as [k|] eqn:E.
  - rewrite (map_nth_error _ _ _ E) in H. apply seq_nth1 in E. destruct E as [-> _]. injection H as <-. now rewrite regret_R.
  - apply nth_error_None in E. assert (Q : nth_error (map (fun i => np_sum Rops (map (fun v0 => nsub Rops v0 m) (firstn i (res_func_vals r)))) (seq 1 n)) i = None) by (apply nth_error_None; now rewrite map_length). congruence.
Qed.
Lemma regret_grows m l : Forall (fun v => m <= v)%R l -> forall i j, i <= j -> (0 <= regret m (firstn i l) <= regret m (firstn j l))%R.
Proof.
  induction 1 as [|v l Hv H IH]; intros i j Hij; [destruct i, j; cbn; lra|].
  destruct i, j; cbn; try lia; try lra; [|specialize (IH i j); lra || (destruct IH; [lia|lra])].
  destruct (IH 0 j) as [A B]; [lia|]. cbn in B. lra.
Qed.
Lemma Rle_of x y : nleb Rops x y = true -> (x <= y)%R.
Proof. cbn. unfold Rleb'. destruct (Rle_dec x y); [easy|discriminate]. Qed.
Section Regret.
  Context {RNG M : Type}.
  Definition seen (args : list (named R RNG M)) : list R := flat_map (fun r => res_func_vals r) (all_results args).
  Lemma least_seen_ok (args : list (named R RNG M)) : args <> [] -> Forall (fun a => all_in (complete Rops) (snd a)) args ->
    exists m, least_seen Rops args = Ok m /\ least Rops (seen args) m.
  Proof.
    intros Hne H.
    assert (A : Forall (complete Rops) (all_results args) /\ all_results args <> []).
    { split.
      - unfold all_results. clear Hne. induction H as [|a args Ha H IH]; [constructor|]. cbn. apply Forall_app. split; [|exact IH]. destruct (snd a); cbn in Ha; [now constructor|easy].
      - destruct H as [|a args Ha H]; [easy|]. unfold all_results. cbn. destruct (snd a); cbn in Ha; [easy|]. destruct rs; [now destruct Ha|easy]. }
    destruct A as [A B]. unfold least_seen, seen. set (rs := all_results args) in *.
    assert (Q : exists ms, mapM (fun r => np_min Rops (res_func_vals r)) rs = Ok ms /\ Forall2 (fun r m => least Rops (res_func_vals r) m) rs ms).
    { clear B. induction A as [|r l Hr A IH]; [now exists []|]. destruct IH as (ms & E & F). destruct Hr as (_ & R1 & R2).
      destruct (np_min_least Rops_order R1 R2) as (m & Em & Lm). exists (m :: ms). cbn [mapM]. rewrite Em. cbn [bind]. rewrite E. cbn [bind]. split; [easy|]. now constructor. }
    destruct Q as (ms & E & F). rewrite E. cbn [bind].
    assert (NN : no_nan Rops ms). { apply Forall_forall. intros x _. cbn. unfold nisnan. cbn. unfold Rleb'. destruct (Rle_dec x x); [easy|]. exfalso. apply n. apply Rle_refl. }
    destruct (@np_min_least _ Rops Rops_order ms) as (m & Em & Lm); auto. { intros ->. inversion F. congruence. }
    exists m. split; [easy|]. destruct Lm as [Im Lm]. split.
    - clear -F Im. revert Im. induction F as [|r m' l ms Hr F IH]; [easy|]. intros [->|Im]; cbn; apply in_or_app; [left; apply Hr|right; auto].
    - intros v Hv. apply in_flat_map in Hv. destruct Hv as (r & Hr & Hv).
      assert (K : exists m', In m' ms /\ nleb Rops m' v = true).
      { clear -F Hr Hv. revert Hr. induction F as [|r0 m' l ms Hr0 F IH]; [easy|]. intros [->|Hr]; [exists m'; split; [now left|now apply Hr0]|]. destruct (IH Hr) as (m2 & ? & ?). exists m2. split; [now right|easy]. }
      destruct K as (m' & K1 & K2). apply (ol_trans Rops_order _ m'); [now apply Lm|easy].
  Qed.
  Lemma regrets (args : list (named R RNG M)) t : args <> [] -> Forall (fun a => all_in (complete Rops) (snd a)) args ->
    exists ch lss m, plot_regret Rops args t = Ok ch /\ ch_lines ch = concat lss /\ ch_hline ch = None /\
      (match t with Some v => m = v | None => least Rops (seen args) m end) /\
      Forall2 (fun a ls => drawn (running_regret m) is_mean (snd a) ls) args lss.
  Proof.
    intros Hne H.
    assert (K : exists m, match t with Some m => Ok m | None => least_seen Rops args end = Ok m /\ match t with Some v => m = v | None => least Rops (seen args) m end).
    { destruct t as [v|]; [now exists v|]. now apply least_seen_ok. }
    destruct K as (m & Em & Hm). unfold plot_regret. rewrite Em. cbn [bind].
    destruct (@args_lines_ok R RNG M Rops (regret_trace Rops m) (running_regret m)) with (args := args) as (lss & E & F); auto.
    { intros n r _. apply regret_trace_ok. } { now intros n vals ys []. }
    rewrite E. cbn [bind]. destruct args as [|a rest]; [easy|]. eexists _, lss, m. split; [reflexivity|]. split; [reflexivity|]. split; [reflexivity|]. split; [easy|].
    clear -F. induction F; constructor; auto. eapply drawn_mono; [apply col_mean_R|intros; eassumption|eassumption].
  Qed.
End Regret.
