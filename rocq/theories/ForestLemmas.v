(** The deviation of a forest. *)
From Coq Require Import String List Reals Lra Lia Arith.
From Verif Require Import Base Forest ForestSpec.
Import ListNotations.
Open Scope R_scope.
Set Implicit Arguments.

Notation sum := (fold_right Rplus 0).
Lemma sum_map_plus {A} (f g : A -> R) l : sum (map (fun a => f a + g a) l) = sum (map f l) + sum (map g l).
Proof. induction l; cbn; lra. Qed.
Lemma sum_map_mult {A} (f : A -> R) c l : sum (map (fun a => c * f a) l) = c * sum (map f l).
Proof. induction l; cbn; [lra|]. rewrite IHl. lra. Qed.
Lemma sum_map_const {A} c (l : list A) : sum (map (fun _ => c) l) = INR (length l) * c.
Proof. induction l; [cbn; lra|]. cbn [map fold_right length]. rewrite S_INR, IHl. lra. Qed.
Lemma sum_nonneg l : Forall (fun x => 0 <= x) l -> 0 <= sum l.
Proof. induction 1; cbn; lra. Qed.
Lemma INR_len {A} (l : list A) : l <> [] -> 0 < INR (length l).
Proof. intro H. apply lt_0_INR. destruct l; [easy|cbn; lia]. Qed.
Lemma avg_nonneg l : Forall (fun x => 0 <= x) l -> 0 <= avg l.
Proof.
  intro H. unfold avg. destruct l as [|a l]; [cbn; unfold Rdiv; lra|]. apply Rmult_le_pos; [now apply sum_nonneg|].
  left. apply Rinv_0_lt_compat. now apply INR_len.
Qed.
Lemma avg_ge c l : l <> [] -> Forall (fun x => c <= x) l -> c <= avg l.
Proof.
  intros Hn H. unfold avg. pose proof (INR_len Hn). apply Rmult_le_reg_r with (INR (length l)); [easy|]. unfold Rdiv. rewrite Rmult_assoc, Rinv_l by lra.
  clear -H. induction H; [cbn; lra|]. cbn [fold_right length]. rewrite S_INR. lra.
Qed.
Lemma variance_nonneg l : 0 <= variance l.
Proof. apply avg_nonneg. apply Forall_map, Forall_forall. intros. apply pow2_ge_0. Qed.
(** The spread around any number. *)
Lemma spread l c : l <> [] -> avg (map (fun y => (y - c) ^ 2) l) = variance l + (avg l - c) ^ 2.
Proof.
  intro Hn. pose proof (INR_len Hn) as Hp. unfold variance. unfold avg at 1 2. rewrite !map_length.
  assert (E : forall d, sum (map (fun y => (y - d) ^ 2) l) = sum (map (fun y => y ^ 2) l) - 2 * d * sum l + INR (length l) * d ^ 2).
  { intro d. clear. induction l as [|a l IH]; [cbn; lra|]. cbn [map fold_right length]. rewrite S_INR, IH. ring. }
  rewrite !E. assert (A : sum l = INR (length l) * avg l) by (unfold avg; field; lra). rewrite A. field. lra.
Qed.
Lemma variance_moment l : l <> [] -> variance l = sum (map (fun y => y ^ 2) l) / INR (length l) - avg l ^ 2.
Proof.
  intro Hn. pose proof (spread 0 Hn) as H. unfold avg at 1 in H. rewrite map_length in H.
  assert (E : map (fun y => (y - 0) ^ 2) l = map (fun y => y ^ 2) l) by (apply map_ext; intro; ring). rewrite E in H. lra.
Qed.

Lemma second_ok minvar x : forall trees s, second_moment minvar trees x = Ok s ->
  s = sum (map (leaf_var minvar x) trees) + sum (map (fun t => t_predict t x ^ 2) trees).
Proof.
  induction trees as [|t ts IH]; intros s H; cbn [second_moment] in H.
  - injection H as <-. cbn. lra.
  - unfold var_tree in H. destruct (nth_error (t_impurity t) (t_apply t x)) as [v|] eqn:E; [|discriminate]. cbn [bind] in H.
    destruct (second_moment minvar ts x) as [r|]; [|discriminate]. cbn [bind] in H. rewrite (IH r eq_refl) in H. assert (Q : forall a b : R, Ok a = Ok b -> b = a) by (intros; congruence). apply Q in H. subst s.
    cbn [map fold_right]. unfold leaf_var at 2. rewrite (nth_error_nth _ _ 0 E).
    destruct (Rlt_dec v minvar); [rewrite Rmax_left by lra|rewrite Rmax_right by lra]; ring.
Qed.
Lemma leaf_nonneg minvar x t : sound_tree x t -> 0 <= leaf_var minvar x t.
Proof. intros (v & E & Hv). unfold leaf_var. rewrite (nth_error_nth _ _ 0 E). apply Rle_trans with v; [easy|apply Rmax_r]. Qed.

Lemma std1_ok trees minvar x s : return_std1 trees minvar x (forest_mean trees x) = Ok s ->
  Forall (sound_tree x) trees -> trees <> [] /\
  s = sqrt (avg (map (leaf_var minvar x) trees) + variance (map (fun t => t_predict t x) trees)).
Proof.
  intros H Hs. assert (Hn : trees <> []) by (destruct trees; discriminate). split; [easy|].
  assert (H' : (s <- second_moment minvar trees x ;; let v := s / INR (length trees) - forest_mean trees x ^ 2 in
                Ok (sqrt (if Rlt_dec v 0 then 0 else v))) = Ok s) by (destruct trees; [easy|exact H]). clear H.
  destruct (second_moment minvar trees x) as [q|] eqn:E; [|discriminate]. apply second_ok in E. cbn [bind] in H'. cbv zeta in H'.
  pose proof (INR_len Hn) as Hp.
  assert (V : q / INR (length trees) - forest_mean trees x ^ 2 = avg (map (leaf_var minvar x) trees) + variance (map (fun t => t_predict t x) trees)).
  { rewrite variance_moment by (destruct trees; easy). rewrite E. unfold avg, forest_mean. rewrite !map_map, !map_length. field. lra. }
  rewrite V in H'. pose proof (variance_nonneg (map (fun t => t_predict t x) trees)).
  assert (0 <= avg (map (leaf_var minvar x) trees)) by (apply avg_nonneg, Forall_map; revert Hs; apply Forall_impl; intro; apply leaf_nonneg).
  destruct (Rlt_dec _ 0) in H'; [lra|]. now injection H' as <-.
Qed.

Lemma c56 f X ans : forest_predict f X true = Ok ans -> (forall x, In x X -> Forall (sound_tree x) (f_trees f)) ->
  exists means stds, ans = (means, Some stds) /\ means = map (fun x => avg (map (fun t => t_predict t x) (f_trees f))) X /\
    Forall2 (fun x s =>
      s = sqrt (avg (map (leaf_var (f_minvar f) x) (f_trees f)) + variance (map (fun t => t_predict t x) (f_trees f))) /\
      0 <= s /\ sqrt (f_minvar f) <= s /\
      sqrt (avg (map (leaf_var (f_minvar f) x) (f_trees f))) <= s /\ sqrt (variance (map (fun t => t_predict t x) (f_trees f))) <= s) X stds.
Proof.
  unfold forest_predict. intros H Hs. destruct (String.eqb _ _); [|discriminate].
  destruct (return_std _ _ _ _) as [stds|] eqn:E; [|discriminate]. cbn [bind] in H. injection H as <-.
  exists (map (forest_mean (f_trees f)) X), stds. split; [easy|]. split.
  { apply map_ext. intro x. unfold forest_mean, avg. now rewrite map_length. }
  revert stds E Hs. induction X as [|x X IH]; intros stds E Hs; cbn in E.
  - injection E as <-. constructor.
  - destruct (return_std1 _ _ _ _) as [s|] eqn:E1; [|discriminate]. cbn [bind] in E.
    destruct (return_std _ _ X _) as [r|]; [|discriminate]. cbn [bind] in E. injection E as <-.
    constructor; [|apply IH; [easy|intros; apply Hs; now right]].
    assert (Hx : Forall (sound_tree x) (f_trees f)) by (apply Hs; now left).
    destruct (std1_ok _ E1 Hx) as [Hn ->].
    pose proof (variance_nonneg (map (fun t => t_predict t x) (f_trees f))).
    assert (0 <= avg (map (leaf_var (f_minvar f) x) (f_trees f))) by (apply avg_nonneg, Forall_map; revert Hx; apply Forall_impl; intro; apply leaf_nonneg).
    assert (f_minvar f <= avg (map (leaf_var (f_minvar f) x) (f_trees f))).
    { apply avg_ge; [destruct (f_trees f); easy|]. apply Forall_map, Forall_forall. intros t _. apply Rmax_l. }
    repeat split; [apply sqrt_pos|apply sqrt_le_1_alt..]; lra.
Qed.
Lemma return_std_total trees minvar : trees <> [] -> forall X means, length means = length X ->
  (forall x, In x X -> Forall (sound_tree x) trees) -> exists s, return_std trees minvar X means = Ok s.
Proof.
  intros Hn. induction X as [|x X IH]; intros [|m means] L Hs; try discriminate; [now exists []|]. cbn.
  assert (E : exists q, second_moment minvar trees x = Ok q).
  { assert (Hx : Forall (sound_tree x) trees) by (apply Hs; now left). clear -Hx. induction Hx as [|t ts (v & E & _) _ [q IH]]; [now exists 0|].
    cbn. unfold var_tree. rewrite E. cbn [bind]. rewrite IH. now eexists. }
  destruct E as [q E]. assert (E1 : exists s, return_std1 trees minvar x m = Ok s) by (unfold return_std1; destruct trees; [easy|rewrite E; now eexists]).
  destruct E1 as [s ->]. cbn [bind]. destruct (IH means) as [r ->]; [now injection L|intros; apply Hs; now right|]. now eexists.
Qed.
Lemma c56_total f X : f_criterion f = "mse"%string -> f_trees f <> [] -> (forall x, In x X -> Forall (sound_tree x) (f_trees f)) ->
  exists ans, forest_predict f X true = Ok ans.
Proof.
  intros Hc Hn Hs. unfold forest_predict. rewrite Hc. cbn [String.eqb].
  destruct (return_std_total (trees:=f_trees f) (f_minvar f) Hn X (map (forest_mean (f_trees f)) X) (map_length _ _) Hs) as [s ->]. now eexists.
Qed.

(** The variance of the mixture of the leaves. *)
Lemma leaf_variance_nonneg x t ys : leaf_of x t ys -> sound_tree x t.
Proof. intros (_ & E & _). exists (variance ys). split; [easy|apply variance_nonneg]. Qed.
Lemma c56_mixture f x m s leaves : forest_predict f [x] true = Ok ([m], Some [s]) -> f_minvar f <= 0 ->
  Forall2 (leaf_of x) (f_trees f) leaves ->
  m = avg (map avg leaves) /\ s ^ 2 = avg (map (fun ys => avg (map (fun y => (y - m) ^ 2) ys)) leaves).
Proof.
  intros H Hm Hl.
  assert (Hs : Forall (sound_tree x) (f_trees f)) by (clear -Hl; induction Hl; constructor; eauto using leaf_variance_nonneg).
  apply c56 in H; [|intros ? [<-|[]]; exact Hs]. destruct H as (means & stds & E & M & F). injection E as <- <-. cbn in M. injection M as M.
  inversion F as [|? ? ? ? (Es & _) F']. subst.
  assert (P : map (fun t => t_predict t x) (f_trees f) = map avg leaves) by (clear -Hl; induction Hl as [|? ? ? ? (_ & _ & E)]; cbn; congruence).
  assert (V : map (leaf_var (f_minvar f) x) (f_trees f) = map variance leaves).
  { clear -Hl Hm. induction Hl as [|t ys ts l (_ & E & _) _ IH]; cbn; [easy|]. rewrite IH. f_equal. unfold leaf_var. rewrite (nth_error_nth _ _ 0 E).
    apply Rmax_right. pose proof (variance_nonneg ys). lra. }
  rewrite P in *. rewrite V in *. split; [easy|]. rewrite pow2_sqrt.
  2:{ apply Rplus_le_le_0_compat; [|apply variance_nonneg]. apply avg_nonneg, Forall_map, Forall_forall. intros. apply variance_nonneg. }
  set (m := avg (map avg leaves)). unfold variance at 2. fold m.
  assert (S : map (fun ys => avg (map (fun y => (y - m) ^ 2) ys)) leaves = map (fun ys => variance ys + (avg ys - m) ^ 2) leaves).
  { apply map_ext_in. intros ys Hy. apply spread. clear -Hl Hy. induction Hl as [|? ? ? ? (? & _)]; [easy|]. destruct Hy as [<-|]; auto. }
  rewrite S. unfold avg at 1 2 4. rewrite !map_length, map_map. rewrite sum_map_plus. unfold Rdiv. ring.
Qed.

(** Two trees; the row falls into a leaf with the observations 0 and 2, and into one with the observation 3. *)
Definition tree1 := mkTree (fun _ => 1%nat) [4; 1] (fun _ => 1).
Definition tree2 := mkTree (fun _ => 0%nat) [0] (fun _ => 3).
Definition forest2 := mkForest [tree1; tree2] "mse" 0.
Lemma forest2_predict : forest_predict forest2 [[5]] true = Ok ([2], Some [sqrt (3 / 2)]).
Proof.
  unfold forest_predict. cbn. unfold forest_mean. cbn. destruct (Rlt_dec 1 0); [lra|]. destruct (Rlt_dec 0 0); [lra|].
  replace ((1 + (3 + 0)) / (1 + 1)) with 2 by field.
  match goal with |- context [Rlt_dec ?v 0] => replace v with (3 / 2) by field end. destruct (Rlt_dec (3 / 2) 0); [lra|]. reflexivity.
Qed.
Lemma forest2_leaves : Forall2 (leaf_of [5]) (f_trees forest2) [[0; 2]; [3]].
Proof.
  assert (A : avg [0; 2] = 1) by (unfold avg; cbn; field). assert (B : avg [3] = 3) by (unfold avg; cbn; field).
  repeat constructor; try discriminate; cbn; rewrite ?A, ?B; try easy; do 2 f_equal; unfold variance; rewrite ?A, ?B; unfold avg; cbn; field.
Qed.
