(** gradient_x is the gradient of the kernel. *)
From Coq Require Import List ZArith Bool Reals Lra Lia.
From Coquelicot Require Import Coquelicot.
From Verif Require Import Base BaseLemmas Kernels KernelSpec AcqSpec GaussLemmas AcqLemmas KernelLemmas.
Import ListNotations.
Open Scope R_scope.
Open Scope list_scope.

Lemma scales_len l d ls : scales l d = Ok ls -> length ls = d.
Proof.
  destruct l as [l|[|l [|l' ls']]]; unfold scales; intro H.
  - injection H as <-. apply repeat_length.
  - destruct (Nat.eqb_spec (length (@nil R)) d); [|discriminate]. now injection H as <-.
  - injection H as <-. apply repeat_length.
  - destruct (Nat.eqb_spec (length (l :: l' :: ls')) d); [|discriminate]. now injection H as <-.
Qed.
Lemma repeat_all {A} (P : A -> Prop) a n : P a -> List.Forall P (repeat a n).
Proof. intro H. induction n; cbn; constructor; auto. Qed.
Lemma scales_nonzero l d ls : scales l d = Ok ls -> nonzero_scale l -> List.Forall (fun l => l <> 0) ls.
Proof.
  destruct l as [l|[|l [|l' ls']]]; unfold scales; intros H N.
  - injection H as <-. now apply repeat_all.
  - destruct (Nat.eqb_spec (length (@nil R)) d); [|discriminate]. injection H as <-. constructor.
  - injection H as <-. apply repeat_all. now inversion N.
  - destruct (Nat.eqb_spec (length (l :: l' :: ls')) d); [|discriminate]. injection H as <-. exact N.
Qed.
Lemma diffs_inv l x t v : diffs l x t = Ok v ->
  length x = length t /\ exists ls, scales l (length x) = Ok ls /\ v = scaled x t ls.
Proof.
  unfold diffs, minus. destruct (Nat.eqb_spec (length x) (length t)) as [L|]; [|discriminate]. cbn [bind].
  destruct (scales l (length x)) as [ls|e] eqn:E; [|discriminate]. cbn [bind]. intro H. injection H as <-.
  split; [exact L|]. now exists ls.
Qed.
Lemma diffs_of l x t ls : length x = length t -> scales l (length x) = Ok ls -> diffs l x t = Ok (scaled x t ls).
Proof. intros L E. unfold diffs, minus. rewrite L, Nat.eqb_refl, <- L. cbn [bind]. now rewrite E. Qed.
Lemma minus_inv x t v : minus x t = Ok v -> length x = length t /\ v = zip Rminus x t.
Proof. unfold minus. destruct (Nat.eqb_spec (length x) (length t)); [|discriminate]. intro H. now injection H as <-. Qed.
Lemma div_1 : forall v n, length v = n -> zip Rdiv v (repeat 1 n) = v.
Proof.
  induction v as [|a v IH]; intros [|n] H; try discriminate; [reflexivity|]. cbn in H.
  change (a / 1 :: zip Rdiv v (repeat 1 n) = a :: v). rewrite IH by congruence. f_equal. field.
Qed.
Lemma scaled_1 x t : length x = length t -> scaled x t (repeat 1 (length x)) = zip Rminus x t.
Proof. intro L. unfold scaled. apply div_1. now apply zip_len. Qed.

(** The kernel is computed around the point, and the row is its gradient. *)
Definition kgrad (k : kernel) (x t g : list R) : Prop :=
  length g = length x /\
  forall i a d, nth_error x i = Some a -> nth_error g i = Some d ->
  exists f : R -> R, locally a (fun u => kcall k 2 (put x i u) t = Ok (f u)) /\ is_derive f a d.
Lemma kgrad_gradient k x t g : kgrad k x t g -> gradient (fun x => value (kcall k 2 x t)) x g.
Proof.
  intros [L H]. split; [exact L|]. intros i a d Ha Hd. destruct (H i a d Ha Hd) as (f & E & D).
  apply (is_derive_ext_loc f); [|exact D]. revert E. apply filter_imp. intros u ->. reflexivity.
Qed.
(** A function of the distance. *)
Lemma kgrad_radial k (h : R -> R) (h' : R) x t ls g :
  (forall x', length x' = length x -> kcall k 2 x' t = Ok (h (norm (scaled x' t ls)))) ->
  length x = length t -> length ls = length x -> List.Forall (fun l => l <> 0) ls ->
  let r := norm (scaled x t ls) in
  is_derive h r h' -> (r = 0 -> h' = 0) -> length g = length x ->
  (forall i v l d, nth_error (scaled x t ls) i = Some v -> nth_error ls i = Some l -> nth_error g i = Some d ->
     exists q, d = q * (v / l) /\ (r <> 0 -> q = h' / r)) ->
  kgrad k x t g.
Proof.
  intros K L1 L2 Hl r Hh H0 Lg E.
  assert (G : gradient (fun x => h (norm (scaled x t ls))) x g).
  { apply (radial_gradient h h'); auto.
    intros i v l d Hv Hi Hd. destruct (E i v l d Hv Hi Hd) as (q & -> & Hq). fold r. unfold radial_d.
    destruct (Req_EM_T r 0) as [Z|Z]; [|now rewrite Hq].
    pose proof (norm_0 _ Z) as F. rewrite List.Forall_forall in F. rewrite (F v) by now apply nth_error_In in Hv.
    unfold Rdiv. ring. }
  destruct G as [_ G]. split; [exact Lg|]. intros i a d Ha Hd.
  exists (fun u => h (norm (scaled (put x i u) t ls))). split; [|now apply G].
  apply filter_forall. intro u. apply K, put_len.
Qed.

Lemma s3 : sqrt 3 * sqrt 3 = 3. Proof. apply sqrt_sqrt. lra. Qed.
Lemma s5 : sqrt 5 * sqrt 5 = 5. Proof. apply sqrt_sqrt. lra. Qed.

Lemma zip_div_nth (c : R) v ls i d : nth_error (zip Rdiv (scalev c v) ls) i = Some d ->
  exists a l, nth_error v i = Some a /\ nth_error ls i = Some l /\ d = c * (a / l).
Proof.
  intro H. apply zip_nth_inv in H. destruct H as (a & l & Ha & Hl & ->). unfold scalev in Ha.
  apply map_nth_inv in Ha. destruct Ha as (a' & Ha & ->). exists a', l. split; [exact Ha|]. split; [exact Hl|]. unfold Rdiv. ring.
Qed.
Ltac same_nth := repeat match goal with
  | H : nth_error ?l ?i = Some ?a, H' : nth_error ?l ?i = Some ?b |- _ =>
      lazymatch a with b => fail | _ => rewrite H in H'; injection H' as ? ; subst end end.

Lemma rbf_ok l x t ls : length x = length t -> scales l (length x) = Ok ls -> nonzero_scale l ->
  kgrad (RBF l) x t (rbf_grad (scaled x t ls) ls).
Proof.
  intros L E N. pose proof (scales_len _ _ _ E) as Ls.
  assert (Lv : length (scaled x t ls) = length x) by (unfold scaled; rewrite zip_len; rewrite zip_len; congruence).
  apply (kgrad_radial (RBF l) (fun r => exp (- / 2 * sqr r)) (- norm (scaled x t ls) * exp (- / 2 * sqr (norm (scaled x t ls)))) x t ls); auto.
  - intros x' L'. cbn [kcall Nat.leb]. rewrite (diffs_of l x' t ls) by congruence. cbn [bind]. now rewrite sqr_norm.
  - now apply (scales_nonzero l (length x)).
  - unfold sqr. auto_derive; [exact I|]. field.
  - intro Z. rewrite Z. ring.
  - unfold rbf_grad. rewrite zip_len; unfold scalev; rewrite map_length; congruence.
  - intros i v l0 d Hv Hl Hd. unfold rbf_grad in Hd. apply zip_div_nth in Hd. destruct Hd as (a & l1 & Ha & Hl1 & ->). same_nth.
    eexists. split; [reflexivity|]. intro NZ. rewrite sqr_norm. field. exact NZ.
Qed.
Lemma scaled_distinct : forall x t ls, length x = length t -> length x = length ls -> List.Forall (fun l => l <> 0) ls ->
  List.Forall (fun a => a = 0) (scaled x t ls) -> x = t.
Proof.
  induction x as [|a x IH]; intros [|b t] [|l ls] L1 L2 N Z; try discriminate; [reflexivity|]. cbn in L1, L2.
  change (scaled (a :: x) (b :: t) (l :: ls)) with ((a - b) / l :: scaled x t ls) in Z. inversion Z as [|? ? Z1 Z2]; subst. inversion N; subst.
  f_equal; [|apply (IH t ls); auto]. assert (Q : a - b = (a - b) / l * l) by (field; assumption). rewrite Z1 in Q. lra.
Qed.
Lemma matern_ok n l x t ls : length x = length t -> scales l (length x) = Ok ls -> nonzero_scale l -> (n = NuHalf -> x <> t) ->
  kgrad (Matern n l) x t (matern_grad n (scaled x t ls) ls).
Proof.
  intros L E N Hx. pose proof (scales_len _ _ _ E) as Ls.
  pose proof (scales_nonzero _ _ _ E N) as Nz.
  assert (Lv : length (scaled x t ls) = length x) by (unfold scaled; rewrite zip_len; rewrite zip_len; congruence).
  set (r := norm (scaled x t ls)).
  set (h' := match n with NuHalf => - exp (- r) | Nu3Half => - 3 * r * exp (- (sqrt 3 * r))
             | Nu5Half => - (5 / 3) * r * (1 + sqrt 5 * r) * exp (- (sqrt 5 * r)) end).
  apply (kgrad_radial (Matern n l) (matern n) h' x t ls); auto.
  - intros x' L'. cbn [kcall Nat.leb]. rewrite (diffs_of l x' t ls) by congruence. reflexivity.
  - fold r. unfold h'. destruct n.
    + apply d_ext with (fun d => exp (- d)); [reflexivity|]. auto_derive; [exact I|]. ring.
    + apply d_ext with (fun d => (1 + sqrt 3 * d) * exp (- (sqrt 3 * d))); [reflexivity|]. auto_derive; [exact I|].
      replace (-3) with (- (sqrt 3 * sqrt 3)) by (rewrite s3; ring). ring.
    + apply d_ext with (fun d => (1 + sqrt 5 * d + sqrt 5 * d * (sqrt 5 * d) / 3) * exp (- (sqrt 5 * d))); [reflexivity|].
      auto_derive; [exact I|]. pose proof s5 as Q. unfold Rdiv.
      replace (sqrt 5 * 1 + (sqrt 5 * 1 * (sqrt 5 * r) + sqrt 5 * r * (sqrt 5 * 1)) * / 3) with (sqrt 5 + 2 * (sqrt 5 * sqrt 5) * r * / 3) by ring.
      replace ((1 + sqrt 5 * r + sqrt 5 * r * (sqrt 5 * r) * / 3) * (- (sqrt 5 * 1) * exp (- (sqrt 5 * r))))
        with (- (sqrt 5 + (sqrt 5 * sqrt 5) * r + (sqrt 5 * sqrt 5) * sqrt 5 * r * r * / 3) * exp (- (sqrt 5 * r))) by ring.
      rewrite Q. field.
  - fold r. intro Z. unfold h'. destruct n; [|rewrite Z; ring|rewrite Z; ring].
    exfalso. apply (Hx eq_refl), (scaled_distinct x t ls); [exact L|congruence|exact Nz|now apply norm_0].
  - unfold matern_grad. destruct n.
    + rewrite zip_len; destruct (Req_EM_T _ _); unfold scalev; rewrite ?repeat_length, ?map_length; congruence.
    + rewrite !map_length, zip_len; congruence.
    + rewrite map_length, zip_len; congruence.
  - fold r. intros i v l0 d Hv Hl Hd. unfold matern_grad in Hd. fold r in Hd. destruct n.
    + destruct (Req_EM_T r 0) as [Z|Z].
      { exfalso. apply (Hx eq_refl), (scaled_distinct x t ls); [exact L|congruence|exact Nz|now apply norm_0]. }
      apply zip_div_nth in Hd. destruct Hd as (a & l1 & Ha & Hl1 & ->). same_nth. eexists. split; [reflexivity|].
      intros _. unfold h'. reflexivity.
    + apply map_nth_inv in Hd. destruct Hd as (d1 & Hd & ->). apply map_nth_inv in Hd. destruct Hd as (d2 & Hd & ->).
      apply zip_nth_inv in Hd. destruct Hd as (a & l1 & Ha & Hl1 & ->). same_nth.
      set (by_dist := if Req_EM_T r 0 then 0 else sqrt 3 / r).
      exists (exp (sqrt 3 * r * -1) * by_dist * ((1 + sqrt 3 * r) * -1 + 1)). split; [unfold Rdiv; ring|]. intro NZ.
      unfold by_dist. destruct (Req_EM_T r 0); [contradiction|]. unfold h'.
      replace (sqrt 3 * r * -1) with (- (sqrt 3 * r)) by ring.
      replace (exp (- (sqrt 3 * r)) * (sqrt 3 / r) * ((1 + sqrt 3 * r) * -1 + 1)) with (- (sqrt 3 * sqrt 3) * exp (- (sqrt 3 * r))) by (field; exact NZ).
      rewrite s3. field. exact NZ.
    + apply map_nth_inv in Hd. destruct Hd as (d1 & Hd & ->).
      apply zip_nth_inv in Hd. destruct Hd as (a & l1 & Ha & Hl1 & ->). same_nth.
      set (dist := (if Req_EM_T r 0 then r else / r) * sqrt 5). set (g := exp (sqrt 5 * r * -1)).
      exists ((5 / 3 * sq_norm (scaled x t ls) + sqrt 5 * r + 1) * (- g * dist) + g * (dist + 10 / 3)). split; [unfold Rdiv; ring|]. intro NZ.
      unfold dist, g. destruct (Req_EM_T r 0); [contradiction|]. unfold h'. rewrite <- sqr_norm. fold r. unfold sqr.
      replace (sqrt 5 * r * -1) with (- (sqrt 5 * r)) by ring. set (ex := exp (- (sqrt 5 * r))).
      replace ((5 / 3 * (r * r) + sqrt 5 * r + 1) * (- ex * (/ r * sqrt 5)) + ex * (/ r * sqrt 5 + 10 / 3))
        with (ex * (- (5 / 3) * r * sqrt 5 - sqrt 5 * sqrt 5 + 10 / 3)) by (field; exact NZ).
      rewrite s5. field. exact NZ.
Qed.

Lemma sq_norm_scale c : forall v, sq_norm (map (fun b => b / c) v) = sq_norm v / sqr c.
Proof.
  intro v. unfold sq_norm. induction v as [|a v IH]; [cbn; unfold Rdiv; ring|].
  change (sqr (a / c) + sum (map sqr (map (fun b => b / c) v)) = (sqr a + sum (map sqr v)) / sqr c). rewrite IH.
  unfold sqr, Rdiv. rewrite Rinv_mult. ring.
Qed.
Lemma ratquad_ok l a x t : length x = length t -> l <> 0 -> 0 < a ->
  forall v, minus x t = Ok v -> kgrad (RatQuad l a) x t (ratquad_grad l a (map (fun b => b / l) v)).
Proof.
  intros L Nl Pa v Ev. apply minus_inv in Ev. destruct Ev as [_ ->].
  set (ls := repeat 1 (length x)). assert (Lv : length (zip Rminus x t) = length x) by (rewrite zip_len; congruence).
  assert (Es : scaled x t ls = zip Rminus x t) by now apply scaled_1.
  set (r := norm (scaled x t ls)). assert (Hsl : 0 < sqr l) by (unfold sqr; nra).
  assert (Pos : forall s, 0 < 1 + sqr s / (2 * a * sqr l)).
  { intro s. assert (0 <= sqr s / (2 * a * sqr l)); [|lra]. apply Rmult_le_pos; [apply sqr_nonneg|]. apply Rlt_le, Rinv_0_lt_compat. nra. }
  apply (kgrad_radial (RatQuad l a) (fun s => Rpower (1 + sqr s / (2 * a * sqr l)) (- a))
           (- Rpower (1 + sqr r / (2 * a * sqr l)) (- a - 1) * (r / sqr l)) x t ls); auto.
  - intros x' L'. cbn [kcall Nat.leb]. unfold minus. rewrite L', L, Nat.eqb_refl. cbn [bind].
    unfold ls. rewrite <- L', scaled_1 by congruence. now rewrite sqr_norm.
  - unfold ls. apply repeat_length.
  - apply repeat_all. lra.
  - fold r. apply d_eq with ((- a) * Rpower (1 + sqr r / (2 * a * sqr l)) (- a - 1) * (r / (a * sqr l))).
    2:{ unfold sqr. field. split; [exact Nl|lra]. }
    assert (D : is_derive (fun s => 1 + sqr s / (2 * a * sqr l)) r (r / (a * sqr l))).
    { unfold sqr. auto_derive; [exact I|]. unfold Rdiv. field. split; [exact Nl|lra]. }
    pose proof (is_derive_comp (fun y => Rpower y (- a)) _ r _ _
      (proj2 (is_derive_Reals _ _ _) (derivable_pt_lim_power _ (- a) (Pos r))) D) as D'.
    eapply d_eq; [exact D'|]. change (r / (a * sqr l) * (- a * Rpower (1 + sqr r / (2 * a * sqr l)) (- a - 1)) =
      - a * Rpower (1 + sqr r / (2 * a * sqr l)) (- a - 1) * (r / (a * sqr l))). ring.
  - fold r. intro Z. rewrite Z. unfold Rdiv. ring.
  - unfold ratquad_grad, scalev. rewrite !map_length. exact Lv.
  - fold r. intros i v l0 d Hv Hl Hd. rewrite Es in Hv. unfold ratquad_grad, scalev in Hd.
    apply map_nth_inv in Hd. destruct Hd as (d1 & Hd & ->). apply map_nth_inv in Hd. destruct Hd as (d2 & Hd & ->).
    apply map_nth_inv in Hd. destruct Hd as (d3 & Hd & ->). same_nth.
    assert (l0 = 1) by (apply nth_error_In, repeat_spec in Hl; exact Hl). subst l0.
    exists (- Rpower (1 + sq_norm (map (fun b => b / l) (zip Rminus x t)) / (2 * a)) (- a - 1) / sqr l).
    split; [unfold sqr; field; exact Nl|]. intro NZ. rewrite sq_norm_scale, <- Es. fold r. rewrite <- sqr_norm. fold r.
    replace (sqr r / sqr l / (2 * a)) with (sqr r / (2 * a * sqr l)) by (field; split; lra). field. repeat split; [lra|exact NZ].
Qed.
Lemma expsine_ok l p x t : length x = length t -> l <> 0 -> p <> 0 ->
  forall v, minus x t = Ok v -> kgrad (ExpSine l p) x t (expsine_grad l p v).
Proof.
  intros L Nl Np v Ev. apply minus_inv in Ev. destruct Ev as [_ ->].
  set (ls := repeat 1 (length x)). assert (Lv : length (zip Rminus x t) = length x) by (rewrite zip_len; congruence).
  assert (Es : scaled x t ls = zip Rminus x t) by now apply scaled_1.
  set (r := norm (scaled x t ls)).
  apply (kgrad_radial (ExpSine l p) (fun s => exp (-2 * sqr (sin (PI * s / p) / l)))
           (-4 * PI / (p * sqr l) * sin (PI * r / p) * cos (PI * r / p) * exp (-2 * sqr (sin (PI * r / p) / l))) x t ls); auto.
  - intros x' L'. cbn [kcall Nat.leb]. unfold minus. rewrite L', L, Nat.eqb_refl. cbn [bind].
    unfold ls. rewrite <- L', scaled_1 by congruence. reflexivity.
  - unfold ls. apply repeat_length.
  - apply repeat_all. lra.
  - fold r. unfold sqr. auto_derive; [exact I|]. unfold Rdiv. field. split; assumption.
  - fold r. intro Z. rewrite Z. replace (PI * 0 / p) with 0 by (unfold Rdiv; ring). rewrite sin_0. ring.
  - unfold expsine_grad, scalev. rewrite map_length. exact Lv.
  - fold r. intros i v l0 d Hv Hl Hd. rewrite Es in Hv. unfold expsine_grad, scalev in Hd. cbv zeta in Hd.
    assert (Er : norm (zip Rminus x t) = r) by (unfold r; now rewrite Es). rewrite Er in Hd.
    apply map_nth_inv in Hd. destruct Hd as (d1 & Hd & ->). same_nth.
    assert (l0 = 1) by (apply nth_error_In, repeat_spec in Hl; exact Hl). subst l0.
    eexists. split; [rewrite Rdiv_1; reflexivity|]. intro NZ. destruct (Req_EM_T r 0); [contradiction|].
    replace (r * (PI / p)) with (PI * r / p) by (field; exact Np). rewrite sin_2a. unfold sqr. field. auto.
Qed.

Lemma div_repeat l : forall v n, length v = n -> zip Rdiv v (repeat l n) = map (fun b => b / l) v.
Proof.
  induction v as [|a v IH]; intros [|n] H; try discriminate; [reflexivity|]. cbn in H.
  change (a / l :: zip Rdiv v (repeat l n) = a / l :: map (fun b => b / l) v). now rewrite IH by congruence.
Qed.
Lemma constant_ok k c x t : (forall x', kcall k 2 x' t = Ok c) -> length x = length t -> kgrad k x t (zeros (length t)).
Proof.
  intros K L. split; [unfold zeros; now rewrite repeat_length|]. intros i a d Ha Hd.
  assert (d = 0) by (apply nth_error_In, repeat_spec in Hd; exact Hd). subst d.
  exists (fun _ => c). split; [|apply d_const]. apply filter_forall. intro u. apply K.
Qed.
Lemma dot_coordinate : forall x t i b, length x = length t -> nth_error t i = Some b ->
  exists c, forall u, sum (zip Rmult (put x i u) t) = c + u * b.
Proof.
  induction x as [|x0 x IH]; intros [|t0 t] [|i] b L Hb; try discriminate; cbn in L, Hb.
  - injection Hb as <-. exists (sum (zip Rmult x t)). intro u.
    change (u * t0 + sum (zip Rmult x t) = sum (zip Rmult x t) + u * t0). ring.
  - destruct (IH t i b) as [c E]; auto. exists (x0 * t0 + c). intro u.
    change (x0 * t0 + sum (zip Rmult (put x i u) t) = x0 * t0 + c + u * b). rewrite E. ring.
Qed.
Lemma dot_ok s x t : length x = length t -> kgrad (Dot s) x t t.
Proof.
  intro L. split; [congruence|]. intros i a d Ha Hd. destruct (dot_coordinate x t i d L Hd) as [c E].
  exists (fun u => c + u * d + sqr s). split.
  - apply filter_forall. intro u. cbn [kcall Nat.leb]. rewrite put_len, L, Nat.eqb_refl. now rewrite E.
  - auto_derive; [exact I|]. ring.
Qed.
Lemma sum_ok k1 k2 x t g1 g2 : kgrad k1 x t g1 -> kgrad k2 x t g2 -> kgrad (Sum k1 k2) x t (zip Rplus g1 g2).
Proof.
  intros [L1 H1] [L2 H2]. split; [rewrite zip_len; congruence|]. intros i a d Ha Hd.
  apply zip_nth_inv in Hd. destruct Hd as (d1 & d2 & E1 & E2 & ->).
  destruct (H1 i a d1 Ha E1) as (f1 & K1 & D1). destruct (H2 i a d2 Ha E2) as (f2 & K2 & D2).
  exists (fun u => f1 u + f2 u). split; [|now apply d_plus].
  apply (filter_imp (fun u => kcall k1 2 (put x i u) t = Ok (f1 u) /\ kcall k2 2 (put x i u) t = Ok (f2 u))); [|now apply filter_and].
  intros u [E E']. cbn [kcall]. rewrite E. cbn [bind]. now rewrite E'.
Qed.
Lemma at_point_value k x t i a (f : R -> R) v : nth_error x i = Some a -> locally a (fun u => kcall k 2 (put x i u) t = Ok (f u)) ->
  kcall k 2 x t = Ok v -> f a = v.
Proof. intros Ha H E. apply locally_singleton in H. rewrite (put_same x i a Ha) in H. congruence. Qed.
Lemma prod_ok k1 k2 x t g1 g2 a b : kcall k1 2 x t = Ok a -> kcall k2 2 x t = Ok b ->
  kgrad k1 x t g1 -> kgrad k2 x t g2 -> kgrad (Prod k1 k2) x t (zip Rplus (scalev a g2) (scalev b g1)).
Proof.
  intros Ka Kb [L1 H1] [L2 H2]. split; [unfold scalev; rewrite zip_len; rewrite !map_length; congruence|]. intros i u0 d Ha Hd.
  apply zip_nth_inv in Hd. destruct Hd as (c1 & c2 & E1 & E2 & ->). unfold scalev in E1, E2.
  apply map_nth_inv in E1. destruct E1 as (d2 & E1 & ->). apply map_nth_inv in E2. destruct E2 as (d1 & E2 & ->).
  destruct (H1 i u0 d1 Ha E2) as (f1 & K1 & D1). destruct (H2 i u0 d2 Ha E1) as (f2 & K2 & D2).
  exists (fun u => f1 u * f2 u). split.
  - apply (filter_imp (fun u => kcall k1 2 (put x i u) t = Ok (f1 u) /\ kcall k2 2 (put x i u) t = Ok (f2 u))); [|now apply filter_and].
    intros u [E E']. cbn [kcall]. rewrite E. cbn [bind]. now rewrite E'.
  - eapply d_eq; [apply d_mult; [exact D1|exact D2]|].
    rewrite (at_point_value k1 x t i u0 f1 a Ha K1 Ka), (at_point_value k2 x t i u0 f2 b Ha K2 Kb). ring.
Qed.
Lemma expo_nat_ok k n x t g a : kcall k 2 x t = Ok a -> kgrad k x t g -> kgrad (Expo k (ENat (S n))) x t (scalev (INR (S n) * a ^ n) g).
Proof.
  intros Ka [L H]. split; [unfold scalev; now rewrite map_length|]. intros i u0 d Ha Hd.
  apply map_nth_inv in Hd. destruct Hd as (d1 & E1 & ->). destruct (H i u0 d1 Ha E1) as (f & K & D).
  exists (fun u => f u ^ (S n)). split.
  - revert K. apply filter_imp. intros u E. cbn [kcall]. now rewrite E.
  - eapply d_eq; [exact (is_derive_pow f (S n) u0 d1 D)|]. rewrite (at_point_value k x t i u0 f a Ha K Ka). cbn [pred]. ring.
Qed.
Lemma expo_real_ok k p x t g a : kcall k 2 x t = Ok a -> 0 < a -> kgrad k x t g ->
  kgrad (Expo k (EReal p)) x t (scalev (p * Rpower a (p - 1)) g).
Proof.
  intros Ka Pa [L H]. split; [unfold scalev; now rewrite map_length|]. intros i u0 d Ha Hd.
  apply map_nth_inv in Hd. destruct Hd as (d1 & E1 & ->). destruct (H i u0 d1 Ha E1) as (f & K & D).
  pose proof (at_point_value k x t i u0 f a Ha K Ka) as Fa.
  assert (C : continuous f u0) by (apply ed_cont; now exists d1).
  assert (P : locally u0 (fun u => 0 < f u)) by (apply (C (fun v => 0 < v)); rewrite Fa; exact (open_gt 0 a Pa)).
  exists (fun u => Rpower (f u) p). split.
  - apply (filter_imp (fun u => kcall k 2 (put x i u) t = Ok (f u) /\ 0 < f u)); [|now apply filter_and].
    intros u [E Pu]. cbn [kcall]. rewrite E. cbn [bind kpow]. destruct (Rlt_dec 0 (f u)); [reflexivity|contradiction].
  - pose proof (is_derive_comp (fun y => Rpower y p) f u0 _ d1
      (proj2 (is_derive_Reals _ _ _) (derivable_pt_lim_power (f u0) p ltac:(rewrite Fa; exact Pa))) D) as D'.
    eapply d_eq; [exact D'|]. rewrite Fa. change (d1 * (p * Rpower a (p - 1)) = p * Rpower a (p - 1) * d1). ring.
Qed.

(** Higher-dimensional arrays only make calls fail. *)
Lemma kcall_nd : forall k nd x t v, kcall k nd x t = Ok v -> kcall k 2 x t = Ok v.
Proof.
  induction k as [l|n l|l a|l p|c|c|s|k IH p|k1 IH1 k2 IH2|k1 IH1 k2 IH2|l]; intros nd x t v H; cbn [kcall] in *; auto;
    try (destruct (Nat.leb nd 2); [exact H|discriminate]).
  - destruct (kcall k nd x t) as [b|e] eqn:E; [|discriminate]. now rewrite (IH _ _ _ _ E).
  - destruct (kcall k1 nd x t) as [a|e] eqn:E1; [|discriminate]. cbn [bind] in H.
    destruct (kcall k2 nd x t) as [b|e] eqn:E2; [|discriminate]. now rewrite (IH1 _ _ _ _ E1), (IH2 _ _ _ _ E2).
  - destruct (kcall k1 nd x t) as [a|e] eqn:E1; [|discriminate]. cbn [bind] in H.
    destruct (kcall k2 nd x t) as [b|e] eqn:E2; [|discriminate]. now rewrite (IH1 _ _ _ _ E1), (IH2 _ _ _ _ E2).
Qed.

Theorem gradient_x_kgrad : forall k nd x t g, length x = length t -> smooth k x t -> gradient_x k nd x t = Ok g -> kgrad k x t g.
Proof.
  induction k as [l|n l|l a|l p|c|c|s|k IH p|k1 IH1 k2 IH2|k1 IH1 k2 IH2|l]; intros nd x t g L S H; cbn [gradient_x] in H.
  - destruct (Nat.leb nd 2); [|discriminate]. destruct (diffs l x t) as [v|e] eqn:E; [|discriminate]. cbn [bind] in H.
    apply diffs_inv in E. destruct E as (_ & ls & E & ->). rewrite E in H. cbn [bind] in H. injection H as <-. now apply rbf_ok.
  - destruct (Nat.leb nd 2); [|discriminate]. destruct (diffs l x t) as [v|e] eqn:E; [|discriminate]. cbn [bind] in H.
    apply diffs_inv in E. destruct E as (_ & ls & E & ->). rewrite E in H. cbn [bind] in H.
    assert (G : g = matern_grad n (scaled x t ls) ls).
    { destruct n; [destruct (Nat.eqb nd 1 || Nat.eqb (length x) 1)%bool; [|discriminate]| |]; congruence. }
    subst g. apply matern_ok; auto; [destruct n; cbn in S; tauto|]. intros ->. cbn in S. tauto.
  - destruct (Nat.leb nd 2); [|discriminate]. destruct (diffs (Iso l) x t) as [v|e] eqn:E; [|discriminate]. cbn [bind] in H.
    apply diffs_inv in E. destruct E as (_ & ls & E & ->). injection E as <-. injection H as <-. destruct S as [S1 S2].
    unfold scaled. rewrite div_repeat by (rewrite zip_len; congruence). apply ratquad_ok; auto.
    unfold minus. now rewrite L, Nat.eqb_refl.
  - destruct (Nat.leb nd 2); [|discriminate]. destruct (minus x t) as [v|e] eqn:E; [|discriminate]. injection H as <-.
    destruct S. now apply expsine_ok.
  - injection H as <-. now apply (constant_ok (Const c) c).
  - injection H as <-. now apply (constant_ok (White c) 0).
  - destruct (Nat.leb nd 2); [|discriminate]. injection H as <-. now apply dot_ok.
  - destruct (kcall k (Datatypes.S nd) x t) as [K|e] eqn:EK; [|discriminate]. cbn [bind] in H. apply kcall_nd in EK.
    destruct p as [[|n]|p]; [discriminate| |].
    + cbn [bind] in H. destruct (gradient_x k nd x t) as [g'|e] eqn:E; [|discriminate]. cbn [bind] in H.
      assert (Q : g = scalev (INR (Datatypes.S n) * K ^ n) g') by congruence. subst g. apply expo_nat_ok; [exact EK|]. now apply (IH nd).
    + unfold kpow in H. destruct (Rlt_dec 0 K) as [P|]; [|discriminate]. cbn [bind] in H.
      destruct (gradient_x k nd x t) as [g'|e] eqn:E; [|discriminate]. injection H as <-. apply expo_real_ok; auto. now apply (IH nd).
  - destruct S as [S1 S2]. destruct (gradient_x k1 nd x t) as [g1|e] eqn:E1; [|discriminate]. cbn [bind] in H.
    destruct (gradient_x k2 nd x t) as [g2|e] eqn:E2; [|discriminate]. injection H as <-.
    apply sum_ok; [now apply (IH1 nd)|now apply (IH2 nd)].
  - destruct S as [S1 S2]. destruct (kcall k1 (Datatypes.S nd) x t) as [a|e] eqn:Ka; [|discriminate]. cbn [bind] in H.
    destruct (gradient_x k2 (Datatypes.S nd) x t) as [g2|e] eqn:E2; [|discriminate]. cbn [bind] in H.
    destruct (kcall k2 (Datatypes.S nd) x t) as [b|e] eqn:Kb; [|discriminate]. cbn [bind] in H.
    destruct (gradient_x k1 (Datatypes.S nd) x t) as [g1|e] eqn:E1; [|discriminate]. injection H as <-.
    apply prod_ok; [now apply kcall_nd in Ka|now apply kcall_nd in Kb|now apply (IH1 (Datatypes.S nd))|now apply (IH2 (Datatypes.S nd))].
  - discriminate.
Qed.

(** ** The gradient is computed *)
Lemma fits_scales l d : fits l d -> exists ls, scales l d = Ok ls.
Proof.
  destruct l as [l|[|l [|l' ls]]]; cbn; intro H; try (eexists; reflexivity).
  - destruct H as [H|H]; [discriminate|]. rewrite <- H. eexists; reflexivity.
  - destruct H as [H|H]; [discriminate|]. rewrite <- H. rewrite Nat.eqb_refl. eexists; reflexivity.
Qed.
Lemma factor_total : forall k nd x t, (nd <= 2)%nat -> length x = length t -> factor k (length x) ->
  (exists v, kcall k nd x t = Ok v) /\ (exists g, gradient_x k nd x t = Ok g).
Proof.
  induction k as [l|n l|l a|l p|c|c|s|k IH p|k1 IH1 k2 IH2|k1 IH1 k2 IH2|l]; intros nd x t N L F; cbn [kcall gradient_x factor] in *;
    try contradiction; try (assert (B : Nat.leb nd 2 = true) by now apply Nat.leb_le); rewrite ?B;
    try (split; eexists; reflexivity).
  - destruct (fits_scales _ _ F) as [ls E]. rewrite (diffs_of l x t ls L E). cbn [bind]. rewrite E. split; eexists; reflexivity.
  - destruct F as [F F1]. destruct (fits_scales _ _ F) as [ls E]. rewrite (diffs_of l x t ls L E). cbn [bind]. rewrite E. cbn [bind].
    split; [eexists; reflexivity|]. destruct n; try (eexists; reflexivity).
    rewrite (F1 eq_refl), orb_true_r. eexists; reflexivity.
  - unfold diffs, minus. rewrite L, Nat.eqb_refl. cbn [bind scales]. split; eexists; reflexivity.
  - unfold minus. rewrite L, Nat.eqb_refl. cbn [bind]. split; eexists; reflexivity.
  - rewrite L, Nat.eqb_refl. split; eexists; reflexivity.
  - destruct F as [F1 F2]. destruct (IH1 nd x t N L F1) as [[v1 E1] [g1 G1]]. destruct (IH2 nd x t N L F2) as [[v2 E2] [g2 G2]].
    rewrite E1, G1. cbn [bind]. rewrite E2, G2. split; eexists; reflexivity.
Qed.
Lemma computable_total : forall k x t, length x = length t -> computable k (length x) ->
  (exists v, kcall k 2 x t = Ok v) /\ (exists g, gradient_x k 1 x t = Ok g).
Proof.
  induction k as [l|n l|l a|l p|c|c|s|k IH p|k1 IH1 k2 IH2|k1 IH1 k2 IH2|l]; intros x t L F; cbn [kcall gradient_x computable Nat.leb] in *;
    try contradiction; try (split; eexists; reflexivity).
  - destruct (fits_scales _ _ F) as [ls E]. rewrite (diffs_of l x t ls L E). cbn [bind]. rewrite E. split; eexists; reflexivity.
  - destruct (fits_scales _ _ F) as [ls E]. rewrite (diffs_of l x t ls L E). cbn [bind]. rewrite E. cbn [bind].
    split; [eexists; reflexivity|]. destruct n; try (eexists; reflexivity).
  - unfold diffs, minus. rewrite L, Nat.eqb_refl. cbn [bind scales]. split; eexists; reflexivity.
  - unfold minus. rewrite L, Nat.eqb_refl. cbn [bind]. split; eexists; reflexivity.
  - rewrite L, Nat.eqb_refl. split; eexists; reflexivity.
  - destruct F as [F (n & ->)]. destruct (IH x t L F) as [[v E] [g G]]. rewrite E, G. split; eexists; reflexivity.
  - destruct F as [F1 F2]. destruct (IH1 x t L F1) as [[v1 E1] [g1 G1]]. destruct (IH2 x t L F2) as [[v2 E2] [g2 G2]].
    rewrite E1, G1. cbn [bind]. rewrite E2, G2. split; eexists; reflexivity.
  - destruct F as [F1 F2]. destruct (factor_total k1 2 x t (le_n _) L F1) as [[v1 E1] [g1 G1]].
    destruct (factor_total k2 2 x t (le_n _) L F2) as [[v2 E2] [g2 G2]].
    rewrite E1, G1. cbn [bind]. rewrite E2, G2. cbn [bind]. split; eexists; reflexivity.
Qed.

Lemma c52_gradient k x t g : length x = length t -> smooth k x t -> gradient_x k 1 x t = Ok g ->
  gradient (fun x => value (kcall k 2 x t)) x g /\
  forall i a, nth_error x i = Some a -> locally a (fun u => exists v, kcall k 2 (put x i u) t = Ok v).
Proof.
  intros L S H. pose proof (gradient_x_kgrad k 1 x t g L S H) as K. split; [now apply kgrad_gradient|].
  intros i a Ha. destruct K as [Lg K]. destruct (nth_lt x g i a Ha (eq_sym Lg)) as [d Hd].
  destruct (K i a d Ha Hd) as (f & E & _). revert E. apply filter_imp. intros u E. now exists (f u).
Qed.
