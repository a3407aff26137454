(** Posterior mean and deviation of the Gaussian process regressor. *)
From Coq Require Import List ZArith Bool Reals Lra Lia.
From Coquelicot Require Import Coquelicot.
From Verif Require Import Base BaseLemmas Kernels KernelSpec AcqSpec GaussLemmas AcqLemmas KernelLemmas KernelProps Gpr GprSpec.
Import ListNotations.
Open Scope R_scope.
Open Scope list_scope.

(** ** Bilinear forms over lists *)
Lemma dot_nil_l b : dot [] b = 0. Proof. reflexivity. Qed.
Lemma dot_nil_r a : dot a [] = 0. Proof. destruct a; reflexivity. Qed.
Lemma dot_cons x a y b : dot (x :: a) (y :: b) = x * y + dot a b. Proof. reflexivity. Qed.
Lemma dot_comm : forall a b, dot a b = dot b a.
Proof. induction a as [|x a IH]; intros [|y b]; try reflexivity. rewrite !dot_cons, IH. ring. Qed.
Lemma dot_lin {A} (f g : A -> R) c : forall b l, dot b (map (fun r => c * f r + g r) l) = c * dot b (map f l) + dot b (map g l).
Proof.
  induction b as [|x b IH]; intros [|r l]; cbn [map]; rewrite ?dot_nil_l, ?dot_nil_r; try ring. rewrite !dot_cons, IH. ring.
Qed.
Lemma dot_0 {A} : forall b (l : list A), dot b (map (fun _ => 0) l) = 0.
Proof. induction b as [|x b IH]; intros [|r l]; cbn [map]; rewrite ?dot_nil_l, ?dot_nil_r; try ring. rewrite dot_cons, IH. ring. Qed.
Lemma dot_fubini {A B} (S : A -> B -> R) : forall a b l l',
  dot a (map (fun r => dot b (map (fun r' => S r r') l')) l) = dot b (map (fun r' => dot a (map (fun r => S r r') l)) l').
Proof.
  induction a as [|x a IH]; intros b [|r l] l'; cbn [map].
  - rewrite dot_nil_l. symmetry. apply dot_0.
  - rewrite dot_nil_l. symmetry. apply dot_0.
  - rewrite dot_nil_r. symmetry. apply dot_0.
  - rewrite dot_cons, IH. rewrite <- dot_lin. reflexivity.
Qed.
Lemma dot_ext {A} (f g : A -> R) b l : (forall r, f r = g r) -> dot b (map f l) = dot b (map g l).
Proof. intro E. f_equal. now apply map_ext. Qed.
Lemma dot_ext_in {A} (f g : A -> R) b l : (forall r, In r l -> f r = g r) -> dot b (map f l) = dot b (map g l).
Proof. intro E. f_equal. now apply map_ext_in. Qed.

Definition form (A : mat) (a b : vec) : R := dot a (map (dot b) (kinv A)).
Lemma form_alt A a b : form A a b = dot a (map (fun r => dot b (map (dot r) A)) A).
Proof. unfold form, kinv. now rewrite map_map. Qed.
Lemma form_sym A a b : form A a b = form A b a.
Proof.
  rewrite !form_alt. rewrite (dot_fubini (fun r r' => dot r r')). apply dot_ext. intro r. apply dot_ext. intro r'. apply dot_comm.
Qed.
Lemma dot_coords : forall a b n, (length a <= n)%nat -> dot a b = sum (map (fun m => nth m a 0 * nth m b 0) (seq 0 n)).
Proof.
  assert (Z : forall n s, sum (map (fun _ : nat => 0) (seq s n)) = 0).
  { intro n. induction n as [|n IH]; intro s; [reflexivity|]. change (0 + sum (map (fun _ => 0) (seq (S s) n)) = 0). rewrite IH. ring. }
  induction a as [|x a IH]; intros b n L.
  - rewrite dot_nil_l. symmetry. rewrite (map_ext _ (fun _ => 0)); [apply Z|]. intro m. destruct m; cbn [nth]; ring.
  - destruct n as [|n]; [cbn in L; lia|]. cbn in L. cbn [seq map]. rewrite <- seq_shift, map_map.
    destruct b as [|y b].
    + rewrite dot_nil_r. change (0 = x * 0 + sum (map (fun m => nth m a 0 * 0) (seq 0 n))).
      rewrite (map_ext _ (fun _ => 0)) by (intro; ring). rewrite Z. ring.
    + rewrite dot_cons, (IH b n) by lia. reflexivity.
Qed.
Lemma sum_nonneg {A} (f : A -> R) l : (forall x, In x l -> 0 <= f x) -> 0 <= sum (map f l).
Proof.
  induction l as [|a l IH]; intro H; [cbn; lra|]. change (0 <= f a + sum (map f l)).
  assert (0 <= f a) by (apply H; now left). assert (0 <= sum (map f l)) by (apply IH; intros; apply H; now right). lra.
Qed.
Lemma sum_dot {A} (f : A -> R) : forall l, sum (map f l) = dot (map (fun _ => 1) l) (map f l).
Proof. induction l as [|a l IH]; [reflexivity|]. cbn [map]. rewrite dot_cons, <- IH. cbn [sum fold_right]. fold (sum (map f l)). ring. Qed.
Lemma dot_scal {A} (f : A -> R) c b l : dot b (map (fun r => c * f r) l) = c * dot b (map f l).
Proof. rewrite <- (Rplus_0_r (c * _)). rewrite <- (dot_0 b l), <- dot_lin. apply dot_ext. intro. ring. Qed.
Lemma max_len (A : mat) : exists w, forall r, In r A -> (length r <= w)%nat.
Proof.
  induction A as [|r A [w H]]; [exists 0%nat; intros ? []|]. exists (Nat.max (length r) w). intros r' [<-|I]; [lia|]. specialize (H _ I). lia.
Qed.
Lemma form_nonneg A a : 0 <= form A a a.
Proof.
  rewrite form_alt. destruct (max_len A) as [w W].
  set (c := fun m => dot a (map (fun r => nth m r 0) A)).
  assert (E : dot a (map (fun r => dot a (map (dot r) A)) A) = sum (map (fun m => c m * c m) (seq 0 w))).
  { set (one := map (fun _ : nat => 1) (seq 0 w)).
    transitivity (dot a (map (fun r => dot one (map (fun m => nth m r 0 * c m) (seq 0 w))) A)).
    - apply dot_ext_in. intros r Hr.
      transitivity (dot a (map (fun r' => dot one (map (fun m => nth m r 0 * nth m r' 0) (seq 0 w))) A)).
      + apply dot_ext_in. intros r' _. rewrite (dot_coords r r' w) by now apply W. apply sum_dot.
      + rewrite (dot_fubini (fun r' m => nth m r 0 * nth m r' 0)). apply dot_ext. intro m. unfold c. now rewrite dot_scal.
    - rewrite (dot_fubini (fun r m => nth m r 0 * c m)), sum_dot. fold one. apply dot_ext. intro m. unfold c at 3.
      rewrite <- dot_scal. apply dot_ext. intro r. ring. }
  rewrite E. apply sum_nonneg. intros m _. nra.
Qed.

(** ** Derivatives of dot products *)
Definition at_ (fs : list (R -> R)) (u : R) : vec := map (fun f => f u) fs.
Lemma dot_derive2 (a : R) : forall fs ds, Forall2 (fun (f : R -> R) (d : R) => is_derive f a d) fs ds ->
  forall gs es, Forall2 (fun (f : R -> R) (d : R) => is_derive f a d) gs es ->
  is_derive (fun u => dot (at_ fs u) (at_ gs u)) a (dot ds (at_ gs a) + dot (at_ fs a) es).
Proof.
  induction 1 as [|f d fs ds Hf Hfs IH]; intros gs es Hg.
  - apply d_ext with (fun _ => 0); [reflexivity|]. eapply d_eq; [apply d_const|]. cbn [at_ map]. rewrite !dot_nil_l. ring.
  - destruct Hg as [|g e gs es Hg Hgs].
    + apply d_ext with (fun _ => 0); [intro u; symmetry; apply dot_nil_r|]. eapply d_eq; [apply d_const|]. cbn [at_ map]. rewrite !dot_nil_r. ring.
    + eapply d_eq; [apply (d_plus (fun u => f u * g u) (fun u => dot (at_ fs u) (at_ gs u))); [apply d_mult; eassumption|apply IH; exact Hgs]|].
      cbn [at_ map]. rewrite !dot_cons. unfold at_. ring.
Qed.
Lemma const_derives (a : R) (l : vec) : Forall2 (fun (f : R -> R) (d : R) => is_derive f a d) (map (fun c (_ : R) => c) l) (map (fun _ => 0) l).
Proof. induction l as [|c l IH]; cbn; constructor; [apply d_const|exact IH]. Qed.
Lemma at_const (l : vec) u : at_ (map (fun c (_ : R) => c) l) u = l.
Proof. unfold at_. rewrite map_map. apply map_id. Qed.
Lemma dot_derive (a : R) fs ds (l : vec) : Forall2 (fun (f : R -> R) (d : R) => is_derive f a d) fs ds ->
  is_derive (fun u => dot (at_ fs u) l) a (dot ds l).
Proof.
  intro H. pose proof (dot_derive2 a fs ds H _ _ (const_derives a l)) as D. rewrite at_const, dot_0, Rplus_0_r in D.
  eapply d_ext; [|exact D]. intro u. cbn beta. now rewrite at_const.
Qed.
Lemma form_derive (a : R) A fs ds : Forall2 (fun (f : R -> R) (d : R) => is_derive f a d) fs ds ->
  is_derive (fun u => form A (at_ fs u) (at_ fs u)) a (2 * form A (at_ fs a) ds).
Proof.
  intro H. set (gs := map (fun row u => dot (at_ fs u) row) (kinv A)). set (es := map (dot ds) (kinv A)).
  assert (G : Forall2 (fun (f : R -> R) (d : R) => is_derive f a d) gs es).
  { unfold gs, es. induction (kinv A) as [|row M IH]; cbn; constructor; [now apply dot_derive|exact IH]. }
  pose proof (dot_derive2 a fs ds H gs es G) as D.
  assert (E : forall u, at_ gs u = map (dot (at_ fs u)) (kinv A)) by (intro u; unfold at_, gs; now rewrite map_map).
  eapply d_eq; [eapply d_ext; [|exact D]|].
  - intro u. cbn beta. rewrite E. reflexivity.
  - rewrite E. fold (form A ds (at_ fs a)). unfold es. fold (form A (at_ fs a) ds). rewrite (form_sym A ds). ring.
Qed.

(** ** The kernel row and its gradient *)
Lemma rows_ok k x i a : nth_error x i = Some a -> forall X G,
  List.Forall (fun t => length x = length t /\ smooth k x t) X -> mapM (gradient_x k 1 x) X = Ok G ->
  exists fs, locally a (fun u => mapM (kcall k 2 (put x i u)) X = Ok (at_ fs u)) /\
    Forall2 (fun (f : R -> R) (d : R) => is_derive f a d) fs (col G i).
Proof.
  intro Ha. induction X as [|t X IH]; intros G F H.
  - injection H as <-. exists []. split; [|constructor]. apply filter_forall. reflexivity.
  - cbn [mapM] in H. destruct (gradient_x k 1 x t) as [g|e] eqn:Eg; [|discriminate]. cbn [bind] in H.
    destruct (mapM (gradient_x k 1 x) X) as [G'|e] eqn:EG; [|discriminate]. injection H as <-. inversion F as [|? ? [L S] F']; subst.
    destruct (IH G' F' eq_refl) as (fs & Lf & Df). pose proof (gradient_x_kgrad k 1 x t g L S Eg) as [Lg K].
    destruct (nth_lt x g i a Ha (eq_sym Lg)) as [d Hd]. destruct (K i a d Ha Hd) as (f & Ef & Dd).
    exists (f :: fs). split.
    + apply (filter_imp (fun u => kcall k 2 (put x i u) t = Ok (f u) /\ mapM (kcall k 2 (put x i u)) X = Ok (at_ fs u))); [|now apply filter_and].
      intros u [E1 E2]. cbn [mapM]. rewrite E1. cbn [bind]. now rewrite E2.
    + unfold col. cbn [map]. constructor; [|exact Df]. now rewrite (nth_error_nth g i 0 Hd).
Qed.
Lemma kdiag_const : forall k x y, no_dot k -> kdiag k x = kdiag k y.
Proof.
  induction k; intros x y N; cbn in *; try reflexivity; try contradiction.
  - now rewrite (IHk x y).
  - destruct N. now rewrite (IHk1 x y), (IHk2 x y).
  - destruct N. now rewrite (IHk1 x y), (IHk2 x y).
Qed.

Lemma mean_gradient g x gm : List.Forall (fun t => length x = length t /\ smooth (g_kernel g) x t) (g_X g) ->
  post_mean_grad g x = Ok gm -> gradient (fun x => value (post_mean g x)) x gm.
Proof.
  intros F H. unfold post_mean_grad in H. destruct (mapM (gradient_x (g_kernel g) 1 x) (g_X g)) as [G|e] eqn:EG; [|discriminate].
  injection H as <-. split; [now rewrite map_length, seq_length|]. intros i a d Ha Hd.
  apply map_nth_inv in Hd. destruct Hd as (c & Hc & ->).
  assert (Li : (i < length x)%nat) by (apply nth_error_Some; congruence).
  rewrite (nth_error_nth' (seq 0 (length x)) 0%nat) in Hc by now rewrite seq_length. rewrite seq_nth in Hc by exact Li. injection Hc as <-.
  destruct (rows_ok (g_kernel g) x i a Ha (g_X g) G F EG) as (fs & L & D).
  apply (is_derive_ext_loc (fun u => g_ystd g * dot (at_ fs u) (g_alpha g) + g_ymean g)).
  - revert L. apply filter_imp. intros u E. unfold post_mean. rewrite E. reflexivity.
  - eapply d_eq; [apply d_plus; [apply d_scal, dot_derive; exact D|apply d_const]|]. change (0 + i)%nat with i. ring.
Qed.
Lemma mean_defined g x gm i a : List.Forall (fun t => length x = length t /\ smooth (g_kernel g) x t) (g_X g) ->
  post_mean_grad g x = Ok gm -> nth_error x i = Some a -> locally a (fun u => exists v, post_mean g (put x i u) = Ok v).
Proof.
  intros F H Ha. unfold post_mean_grad in H. destruct (mapM (gradient_x (g_kernel g) 1 x) (g_X g)) as [G|e] eqn:EG; [|discriminate].
  destruct (rows_ok (g_kernel g) x i a Ha (g_X g) G F EG) as (fs & L & D).
  revert L. apply filter_imp. intros u E. unfold post_mean. rewrite E. eexists. reflexivity.
Qed.

Lemma std_gradient g x gs s : List.Forall (fun t => length x = length t /\ smooth (g_kernel g) x t) (g_X g) -> no_dot (g_kernel g) ->
  post_std g x = Ok s -> / 100000000 < s -> post_std_grad g x = Ok gs -> gradient (fun x => value (post_std g x)) x gs.
Proof.
  intros F N Hs Ps H. unfold post_std_grad in H. destruct (mapM (kcall (g_kernel g) 2 x) (g_X g)) as [kt|e] eqn:Ek; [|discriminate]. cbn [bind] in H.
  destruct (mapM (gradient_x (g_kernel g) 1 x) (g_X g)) as [G|e] eqn:EG; [|discriminate]. cbn [bind] in H. rewrite Hs in H. cbn [bind] in H.
  destruct (Rle_dec s (/ 100000000)) as [Q|_]; [lra|]. injection H as <-.
  unfold post_std in Hs. rewrite Ek in Hs. cbn [bind] in Hs. destruct (kdiag (g_kernel g) x) as [dg|e] eqn:Ed; [|discriminate]. cbn [bind] in Hs.
  fold (form (g_Linv g) kt kt) in Hs. set (var := dg - form (g_Linv g) kt kt) in Hs.
  set (y2 := sqr (g_ystd g)) in *. assert (Hy : 0 <= y2) by apply sqr_nonneg.
  destruct (Rlt_dec var 0) as [Q|Q].
  { exfalso. rewrite Rmult_0_l, sqrt_0 in Hs. injection Hs as <-. lra. }
  assert (Es : s = sqrt (var * y2)) by congruence. clear Hs.
  assert (Pv : 0 < var * y2). { destruct (Rlt_le_dec 0 (var * y2)) as [P|P]; [exact P|]. exfalso. rewrite sqrt_neg_0 in Es by exact P. lra. }
  assert (Pvar : 0 < var) by nra.
  split; [now rewrite map_length, seq_length|]. intros i a d Ha Hd.
  apply map_nth_inv in Hd. destruct Hd as (c & Hc & ->).
  assert (Li : (i < length x)%nat) by (apply nth_error_Some; congruence).
  rewrite (nth_error_nth' (seq 0 (length x)) 0%nat) in Hc by now rewrite seq_length. rewrite seq_nth in Hc by exact Li. injection Hc as <-.
  change (0 + i)%nat with i. destruct (rows_ok (g_kernel g) x i a Ha (g_X g) G F EG) as (fs & L & D).
  assert (E0 : at_ fs a = kt). { apply locally_singleton in L. rewrite (put_same x i a Ha), Ek in L. congruence. }
  pose proof (form_derive a (g_Linv g) fs _ D) as Dq. rewrite E0 in Dq.
  set (v := fun u => dg - form (g_Linv g) (at_ fs u) (at_ fs u)).
  assert (Dv : is_derive v a (- 2 * form (g_Linv g) kt (col G i))).
  { eapply d_eq; [apply d_minus; [apply d_const|exact Dq]|]. ring. }
  assert (Ev : v a = var) by (unfold v, var; now rewrite E0).
  assert (Lv : locally a (fun u => 0 < v u)).
  { assert (C : continuous v a) by (apply ed_cont; eexists; exact Dv). apply (C (fun w => 0 < w)). rewrite Ev. exact (open_gt 0 var Pvar). }
  apply (is_derive_ext_loc (fun u => sqrt (v u * y2))).
  - apply (filter_imp (fun u => mapM (kcall (g_kernel g) 2 (put x i u)) (g_X g) = Ok (at_ fs u) /\ 0 < v u)); [|now apply filter_and].
    intros u [E P]. unfold post_std. rewrite E. cbn [bind]. rewrite (kdiag_const _ (put x i u) x N), Ed. cbn [bind].
    fold (form (g_Linv g) (at_ fs u) (at_ fs u)). fold (v u). destruct (Rlt_dec (v u) 0); [lra|]. reflexivity.
  - assert (Dvy : is_derive (fun u => v u * y2) a (- 2 * form (g_Linv g) kt (col G i) * y2)).
    { eapply d_eq; [apply (d_mult v (fun _ => y2)); [exact Dv|apply d_const]|]. ring. }
    assert (Pv' : 0 < v a * y2) by now rewrite Ev.
    eapply d_eq; [exact (is_derive_sqrt _ _ _ Dvy Pv')|]. cbn beta. rewrite Ev, <- Es.
    replace (dot kt (map (fun row => dot row (col G i)) (kinv (g_Linv g)))) with (form (g_Linv g) kt (col G i)).
    2:{ unfold form. apply dot_ext. intro r. apply dot_comm. }
    field. lra.
Qed.
