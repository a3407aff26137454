(** A dimension and the same in another unit: warping, un-warping, membership. *)
From Coq Require Import String List ZArith Bool Reals Lra Lia.
From Verif Require Import Base BaseLemmas Num NumLaws Values Transformers Dimension Space SpaceSpec Optimizer OptSpec UnitSim ScaleSpec.
Import ListNotations.
Open Scope R_scope.
Open Scope list_scope.
Set Implicit Arguments.

Notation val := (pyval R).

Lemma leb_mono h : (forall u v, u < v -> h u < h v) -> forall u v, Rleb' (h u) (h v) = Rleb' u v.
Proof.
  intros Hh u v. unfold Rleb'. destruct (Rle_dec u v) as [L|L], (Rle_dec (h u) (h v)) as [L'|L']; try reflexivity; exfalso.
  - apply L'. destruct L as [L| ->]; [apply Hh in L|]; lra.
  - apply Rnot_le_lt in L. apply Hh in L. lra.
Qed.
Lemma clip_mono h : (forall u v, u < v -> h u < h v) -> forall lo hi x, nclip Rops (h lo) (h hi) (h x) = h (nclip Rops lo hi x).
Proof.
  intros Hh lo hi x. unfold nclip. change (nltb Rops) with Rltb. rewrite !(ltb_mono _ Hh). destruct (Rltb x lo); [now destruct (Rltb hi lo)|]. now destruct (Rltb hi x).
Qed.
Lemma clip_within lo hi x : lo < hi -> lo <= nclip Rops lo hi x <= hi.
Proof.
  intro L. unfold nclip. change (nltb Rops) with Rltb. unfold Rltb. destruct (Rlt_dec x lo); [destruct (Rlt_dec hi lo); lra|]. destruct (Rlt_dec hi x); lra.
Qed.

(** *** Real dimensions *)
Lemma leb_float lo v : py_leb Rops (VFloat lo) v = match to_num Rops v with Some x => Some (Rleb' lo x) | None => None end.
Proof. destruct v; reflexivity. Qed.
Lemma leb_float' hi v : py_leb Rops v (VFloat hi) = match to_num Rops v with Some x => Some (Rleb' x hi) | None => None end.
Proof. destruct v; reflexivity. Qed.
Lemma contains_real r v : contains Rops (DReal r) v = match to_num Rops v with Some x => Ok (Rleb' (r_low r) x && Rleb' x (r_high r)) | None => Raise TypeError end.
Proof.
  cbn [contains]. unfold leb_chain. rewrite leb_float, leb_float'. destruct (to_num Rops v); [|reflexivity]. now destruct (Rleb' (r_low r) r0).
Qed.
Lemma contains_real_ok r v : contains Rops (DReal r) v = Ok true -> exists x, to_num Rops v = Some x /\ r_low r <= x <= r_high r.
Proof.
  rewrite contains_real. destruct (to_num Rops v) as [x|]; [|discriminate]. intro H. injection H as H. apply andb_prop in H. destruct H as [A B]. exists x. split; [reflexivity|].
  unfold Rleb' in *. destruct (Rle_dec (r_low r) x); [|discriminate]. destruct (Rle_dec x (r_high r)); [|discriminate]. lra.
Qed.
Lemma measured_num h v : to_num Rops (measured h v) = option_map h (to_num Rops v).
Proof. unfold measured. destruct (to_num Rops v) eqn:E; [reflexivity|exact E]. Qed.
Lemma contains_measured h r : (forall u v, u < v -> h u < h v) -> forall v, contains Rops (moved (h (r_low r)) (h (r_high r)) r) (measured h v) = contains Rops (DReal r) v.
Proof.
  intros Hh v. unfold moved. rewrite !contains_real, measured_num. destruct (to_num Rops v); [|reflexivity]. cbn [option_map r_low r_high]. now rewrite !(leb_mono _ Hh).
Qed.
Lemma nums_measured h : forall l, nums Rops (map (measured h) l) = rmap (map h) (nums Rops l).
Proof.
  induction l as [|v l IH]; [reflexivity|]. unfold nums in *. cbn [map mapM]. rewrite measured_num. destruct (to_num Rops v); [|reflexivity]. cbn [option_map bind]. rewrite IH.
  now destruct (mapM _ l).
Qed.
Lemma nums_in r : forall l, Forall (fun v => contains Rops (DReal r) v = Ok true) l -> exists xs, nums Rops l = Ok xs /\ Forall (fun x => r_low r <= x <= r_high r) xs.
Proof.
  induction 1 as [|v l H _ (xs & E & F)]; [now exists []|]. destruct (@contains_real_ok r v H) as (x & Ex & Hx). exists (x :: xs). unfold nums in *. cbn [mapM]. rewrite Ex. cbn [bind]. rewrite E.
  split; [reflexivity|now constructor].
Qed.
Lemma normalize_in lo hi xs : lo < hi -> Forall (fun x => lo <= x <= hi) xs -> normalize_transform Rops lo hi false xs = Ok (map (fun x => (x - lo) / (hi - lo)) xs).
Proof.
  intros L F. unfold normalize_transform. change (nltb Rops) with Rltb. cbn [nadd nsub neps Rops ndiv nofZ].
  assert (A : existsb (fun x => Rltb (hi + / 100000000) x) xs = false).
  { induction F as [|x l H _ IH]; [reflexivity|]. cbn. rewrite IH. unfold Rltb. destruct (Rlt_dec _ x); [exfalso; lra|reflexivity]. }
  assert (B : existsb (fun x => Rltb x (lo - / 100000000)) xs = false).
  { induction F as [|x l H _ IH]; [reflexivity|]. cbn in *. apply orb_false_iff in A. rewrite (IH (proj2 A)). unfold Rltb. destruct (Rlt_dec x _); [exfalso; lra|reflexivity]. }
  rewrite A, B. unfold neqb. cbn [nleb Rops]. unfold Rleb'. destruct (Rle_dec (hi - lo) 0); [exfalso; lra|]. reflexivity.
Qed.

Definition warp_real (r : real_dim R) (x : R) : R :=
  match r_prior r with
  | PUniform => (x - r_low r) / (r_high r - r_low r)
  | PLogUniform => (logb Rops (r_base r) x - logb Rops (r_base r) (r_low r)) / (logb Rops (r_base r) (r_high r) - logb Rops (r_base r) (r_low r))
  end.
Definition sane_real (r : real_dim R) : Prop := r_kind r = KNormalize /\ r_low r < r_high r /\ match r_prior r with PUniform => True | PLogUniform => 0 < r_low r /\ 1 < r_base r end.
Lemma ln10 : 0 < ln 10.
Proof. rewrite <- ln_1. apply ln_increasing; lra. Qed.
Lemma logb_alt b x : logb Rops b x = ln x / ln b.
Proof.
  unfold logb. cbn. pose proof ln10. destruct (Req_dec (ln b) 0) as [E|E]; [|field; lra]. rewrite E. unfold Rdiv. rewrite Rmult_0_l, Rinv_0. ring.
Qed.
Lemma ln_base b : 1 < b -> 0 < ln b.
Proof. intro H. rewrite <- ln_1. apply ln_increasing; lra. Qed.
Lemma logb_incr b x y : 1 < b -> 0 < x -> x < y -> logb Rops b x < logb Rops b y.
Proof.
  intros Hb Px L. rewrite !logb_alt. pose proof (ln_base Hb). unfold Rdiv. apply Rmult_lt_compat_r; [now apply Rinv_0_lt_compat|]. now apply ln_increasing.
Qed.
Lemma warped_real r l : sane_real r -> Forall (fun v => contains Rops (DReal r) v = Ok true) l ->
  exists xs, nums Rops l = Ok xs /\ dim_transform Rops (DReal r) l = Ok (A1 (map (fun x => VFloat (warp_real r x)) xs)).
Proof.
  intros (Hk & L & S) F. destruct (@nums_in r l F) as (xs & E & Fx). exists xs. split; [exact E|]. unfold dim_transform, warp_real. cbn [dim_transformer]. unfold real_transformer. rewrite Hk.
  destruct (r_prior r); cbn [transform bind as_A1].
  - rewrite E. cbn [bind]. rewrite (normalize_in L Fx). cbn [bind]. now rewrite map_map.
  - rewrite E. cbn [bind as_A1].
    assert (N : nums Rops (map (fun x => VFloat (logb Rops (r_base r) x)) xs) = Ok (map (logb Rops (r_base r)) xs)).
    { clear. induction xs as [|x xs IH]; [reflexivity|]. unfold nums in *. cbn [map mapM to_num bind]. now rewrite IH. }
    unfold logb in N at 1. rewrite N. cbn [bind]. destruct S as [Pl Pb]. rewrite normalize_in; [|now apply logb_incr|].
    + cbn [bind]. now rewrite !map_map.
    + apply Forall_map. eapply Forall_impl; [|exact Fx]. cbn. intros x Hx. split.
      * destruct (proj1 Hx) as [H|H]; [left; now apply logb_incr|right; now rewrite H].
      * destruct (proj2 Hx) as [H|H]; [left; apply logb_incr; lra|right; now rewrite H].
Qed.

(** Un-warping *)
Definition unwarp_real (r : real_dim R) (z : R) : R :=
  match r_prior r with
  | PUniform => z * (r_high r - r_low r) + r_low r
  | PLogUniform => Rpower (r_base r) (z * (logb Rops (r_base r) (r_high r) - logb Rops (r_base r) (r_low r)) + logb Rops (r_base r) (r_low r))
  end.
Definition in_unit_b (x : R) : bool := negb (Rltb (1 + / 100000000) x) && negb (Rltb x (0 - / 100000000)).
Lemma unwarped_real r a : r_kind r = KNormalize -> dim_inverse Rops (DReal r) a =
  (l <- as_A1 a ;; xs <- nums Rops l ;; if forallb in_unit_b xs then Ok (map (fun z => VFloat (nclip Rops (r_low r) (r_high r) (unwarp_real r z))) xs) else Raise ValueError).
Proof.
  intro Hk. cbn [dim_inverse]. unfold real_transformer. rewrite Hk. unfold unwarp_real.
  assert (Nm : forall lo hi xs, normalize_inverse Rops lo hi false xs = if forallb in_unit_b xs then Ok (map (fun z => VFloat (z * (hi - lo) + lo)) xs) else Raise ValueError).
  { intros lo hi xs. unfold normalize_inverse. change (nltb Rops) with Rltb. cbn [nadd nsub neps Rops nofZ nmul].
    assert (E : forallb in_unit_b xs = negb (existsb (fun x => Rltb (1 + / 100000000) x) xs) && negb (existsb (fun x => Rltb x (0 - / 100000000)) xs)).
    { induction xs as [|x xs IH]; [reflexivity|]. cbn [forallb existsb]. rewrite IH. unfold in_unit_b. destruct (Rltb (1 + / 100000000) x), (Rltb x (0 - / 100000000)); cbn; try reflexivity; now rewrite ?andb_false_r. }
    rewrite E. destruct (existsb _ xs); [reflexivity|]. destruct (existsb _ xs); reflexivity. }
  assert (P : forall xs h, mapM (real_post Rops r) (map (fun z : R => VFloat (h z)) xs) = Ok (map (fun z => VFloat (nclip Rops (r_low r) (r_high r) (h z))) xs)).
  { clear. induction xs as [|x xs IH]; intro h; [reflexivity|]. cbn [map mapM]. rewrite IH. reflexivity. }
  destruct (r_prior r); cbn [inverse_transform bind].
  - destruct (as_A1 a) as [l|]; [|reflexivity]. cbn [bind]. destruct (nums Rops l) as [xs|]; [|reflexivity]. cbn [bind]. rewrite Nm. destruct (forallb in_unit_b xs); [|reflexivity]. cbn [bind as_A1]. apply P.
  - destruct (as_A1 a) as [l|]; [|reflexivity]. cbn [bind]. destruct (nums Rops l) as [xs|]; [|reflexivity]. cbn [bind]. rewrite Nm. destruct (forallb in_unit_b xs); [|reflexivity]. cbn [bind as_A1].
    assert (N : forall h, nums Rops (map (fun z : R => VFloat (h z)) xs) = Ok (map h xs)).
    { clear. intro h. induction xs as [|x xs IH]; [reflexivity|]. unfold nums in *. cbn [map mapM to_num bind]. now rewrite IH. }
    rewrite N. cbn [bind as_A1]. rewrite map_map. cbn [npow Rops]. apply P.
Qed.

(** *** Any dimension *)
Lemma logb_scale b s x : 0 < s -> 0 < x -> logb Rops b (s * x) = logb Rops b s + logb Rops b x.
Proof. intros. rewrite !logb_alt, ln_mult by assumption. unfold Rdiv. ring. Qed.
Lemma rescaled_contains d d' f v : rescaled d d' f -> contains Rops d' (f v) = contains Rops d v.
Proof.
  intro H. destruct H as [d|s t r Ps _ _|s r Ps _ _ _]; [reflexivity| |].
  - apply (@contains_measured (fun x => s * x + t)). intros u w L. apply Rplus_lt_compat_r. now apply Rmult_lt_compat_l.
  - apply (@contains_measured (fun x => s * x)). intros u w L. now apply Rmult_lt_compat_l.
Qed.
Lemma all_kept d d' f l : Forall (kept d d' f) l -> (d' = d /\ f = fun v => v) \/ Forall (fun v => contains Rops d v = Ok true) l.
Proof. induction 1 as [|v l [H|H] _ [IH|IH]]; auto. Qed.
Lemma warp_linear s t r x : 0 < s -> r_prior r = PUniform -> r_low r < r_high r ->
  warp_real (mkReal (s * r_low r + t) (s * r_high r + t) (r_prior r) (r_base r) (r_kind r) (r_name r) (r_dtype r)) (s * x + t) = warp_real r x.
Proof. intros Ps Hp L. unfold warp_real. cbn [r_prior r_low r_high]. rewrite Hp. field. nra. Qed.
Lemma warp_log s r x : 0 < s -> r_prior r = PLogUniform -> 0 < r_low r < r_high r -> r_low r <= x ->
  warp_real (mkReal (s * r_low r) (s * r_high r) (r_prior r) (r_base r) (r_kind r) (r_name r) (r_dtype r)) (s * x) = warp_real r x.
Proof.
  intros Ps Hp L Hx. unfold warp_real. cbn [r_prior r_low r_high r_base]. rewrite Hp, !logb_scale by lra.
  replace (logb Rops (r_base r) s + logb Rops (r_base r) x - (logb Rops (r_base r) s + logb Rops (r_base r) (r_low r))) with (logb Rops (r_base r) x - logb Rops (r_base r) (r_low r)) by ring.
  replace (logb Rops (r_base r) s + logb Rops (r_base r) (r_high r) - (logb Rops (r_base r) s + logb Rops (r_base r) (r_low r))) with (logb Rops (r_base r) (r_high r) - logb Rops (r_base r) (r_low r)) by ring.
  reflexivity.
Qed.
Lemma unwarp_linear s t r z : r_prior r = PUniform ->
  unwarp_real (mkReal (s * r_low r + t) (s * r_high r + t) (r_prior r) (r_base r) (r_kind r) (r_name r) (r_dtype r)) z = s * unwarp_real r z + t.
Proof. intros Hp. unfold unwarp_real. cbn [r_prior r_low r_high]. rewrite Hp. ring. Qed.
Lemma unwarp_log s r z : 0 < s -> r_prior r = PLogUniform -> 0 < r_low r < r_high r -> 1 < r_base r ->
  unwarp_real (mkReal (s * r_low r) (s * r_high r) (r_prior r) (r_base r) (r_kind r) (r_name r) (r_dtype r)) z = s * unwarp_real r z.
Proof.
  intros Ps Hp L Hb. unfold unwarp_real. cbn [r_prior r_low r_high r_base]. rewrite Hp, !logb_scale by lra. set (b := r_base r) in *. set (lh := logb Rops b (r_high r)). set (ll := logb Rops b (r_low r)).
  replace (z * (logb Rops b s + lh - (logb Rops b s + ll)) + (logb Rops b s + ll)) with (logb Rops b s + (z * (lh - ll) + ll)) by ring.
  rewrite Rpower_plus. f_equal. rewrite logb_alt. unfold Rpower. replace (ln s / ln b * ln b) with (ln s) by (field; apply Rgt_not_eq; now apply ln_base). now apply exp_ln.
Qed.
Lemma rescaled_transform d d' f l : rescaled d d' f -> normal d d' f -> Forall (kept d d' f) l -> dim_transform Rops d' (map f l) = dim_transform Rops d l.
Proof.
  intros H [[-> ->]|Hk] F; [now rewrite map_id|]. destruct (all_kept F) as [[-> ->]|Fc]; [now rewrite map_id|].
  assert (Fc' : Forall (fun v => contains Rops d' v = Ok true) (map f l)).
  { apply Forall_map. eapply Forall_impl; [|exact Fc]. cbn. intros v Hv. now rewrite (rescaled_contains v H). }
  destruct H as [d|s t r Ps Hp L|s r Ps Hp L Hb]; [now rewrite map_id| |].
  - cbn [dim_kind] in Hk. assert (S : sane_real r) by (repeat split; [exact Hk|exact L|now rewrite Hp]).
    destruct (warped_real S Fc) as (xs & Ex & ->). unfold moved in *.
    assert (S' : sane_real (mkReal (s * r_low r + t) (s * r_high r + t) (r_prior r) (r_base r) (r_kind r) (r_name r) (r_dtype r))).
    { repeat split; cbn; [exact Hk|nra|now rewrite Hp]. }
    destruct (warped_real S' Fc') as (ys & Ey & ->). rewrite nums_measured, Ex in Ey. injection Ey as <-. rewrite map_map. do 2 f_equal. apply map_ext. intro x. now rewrite warp_linear.
  - cbn [dim_kind] in Hk. assert (S : sane_real r) by (split; [exact Hk|split; [lra|rewrite Hp; lra]]).
    destruct (warped_real S Fc) as (xs & Ex & ->). unfold moved in *.
    assert (S' : sane_real (mkReal (s * r_low r) (s * r_high r) (r_prior r) (r_base r) (r_kind r) (r_name r) (r_dtype r))).
    { split; [exact Hk|]. split; cbn; [nra|]. rewrite Hp. nra. }
    destruct (warped_real S' Fc') as (ys & Ey & ->). rewrite nums_measured, Ex in Ey. injection Ey as <-. rewrite map_map. do 2 f_equal.
    destruct (@nums_in r l Fc) as (xs' & Ex' & Fx). rewrite Ex in Ex'. injection Ex' as <-. apply map_ext_in. intros x Hx. rewrite Forall_forall in Fx. rewrite warp_log; auto. now apply Fx.
Qed.
Lemma rescaled_inverse d d' f a : rescaled d d' f -> normal d d' f -> dim_inverse Rops d' a = rmap (map f) (dim_inverse Rops d a) /\
  forall l, dim_inverse Rops d a = Ok l -> Forall (kept d d' f) l.
Proof.
  intros H [[-> ->]|Hk].
  { split; [|intros l _; apply Forall_forall; now left]. destruct (dim_inverse Rops d a); [|reflexivity]. cbn. now rewrite map_id. }
  destruct H as [d|s t r Ps Hp L|s r Ps Hp L Hb].
  { split; [|intros l _; apply Forall_forall; now left]. destruct (dim_inverse Rops d a); [|reflexivity]. cbn. now rewrite map_id. }
  - cbn [dim_kind] in Hk. unfold moved. rewrite !unwarped_real by exact Hk. destruct (as_A1 a) as [l|]; [|split; [reflexivity|discriminate]]. cbn [bind].
    destruct (nums Rops l) as [xs|]; [|split; [reflexivity|discriminate]]. cbn [bind]. destruct (forallb in_unit_b xs); [|split; [reflexivity|discriminate]]. split.
    + cbn [rmap]. f_equal. rewrite map_map. apply map_ext. intro z. unfold measured. cbn [to_num]. f_equal. rewrite unwarp_linear by exact Hp. cbn [r_low r_high].
      apply (@clip_mono (fun x => s * x + t)). intros u w Lw. apply Rplus_lt_compat_r. now apply Rmult_lt_compat_l.
    + intros m E. injection E as <-. apply Forall_map. apply Forall_forall. intros z _. right. rewrite contains_real. cbn [to_num]. pose proof (@clip_within (r_low r) (r_high r) (unwarp_real r z) L).
      unfold Rleb'. do 2 (match goal with |- context [Rle_dec ?a ?b] => destruct (Rle_dec a b); [|exfalso; lra] end). reflexivity.
  - cbn [dim_kind] in Hk. unfold moved. rewrite !unwarped_real by exact Hk. destruct (as_A1 a) as [l|]; [|split; [reflexivity|discriminate]]. cbn [bind].
    destruct (nums Rops l) as [xs|]; [|split; [reflexivity|discriminate]]. cbn [bind]. destruct (forallb in_unit_b xs); [|split; [reflexivity|discriminate]]. split.
    + cbn [rmap]. f_equal. rewrite map_map. apply map_ext. intro z. unfold measured. cbn [to_num]. f_equal. rewrite unwarp_log by assumption. cbn [r_low r_high].
      apply (@clip_mono (fun x => s * x)). intros u w Lw. now apply Rmult_lt_compat_l.
    + intros m E. injection E as <-. apply Forall_map. apply Forall_forall. intros z _. right. rewrite contains_real. cbn [to_num]. assert (Lw : r_low r < r_high r) by lra. pose proof (@clip_within (r_low r) (r_high r) (unwarp_real r z) Lw).
      unfold Rleb'. do 2 (match goal with |- context [Rle_dec ?a ?b] => destruct (Rle_dec a b); [|exfalso; lra] end). reflexivity.
Qed.
Lemma rescaled_shape d d' f : rescaled d d' f -> normal d d' f -> tsize d' = tsize d /\ tbounds Rops d' = tbounds Rops d /\ is_cat d' = is_cat d /\ dim_rvs_spec Rops d' = dim_rvs_spec Rops d.
Proof.
  intros H [[-> ->]|Hk]; [auto|]. destruct H as [d|s t r Ps Hp L|s r Ps Hp L Hb]; [auto| |]; cbn [dim_kind] in Hk; cbn; rewrite Hk; auto.
Qed.
Lemma rescaled_distance d d' f v w : rescaled d d' f -> rmap (fun _ => tt) (dim_distance Rops d' (f v) (f w)) = rmap (fun _ => tt) (dim_distance Rops d v w).
Proof.
  intro H. unfold dim_distance. rewrite !(rescaled_contains _ H). destruct H as [d|s t r Ps Hp L|s r Ps Hp L Hb]; [reflexivity| |];
    (destruct (contains Rops (DReal r) v) as [[|]|] eqn:Ev; [|reflexivity|reflexivity]); cbn [bind];
    (destruct (contains Rops (DReal r) w) as [[|]|] eqn:Ew; [|reflexivity|reflexivity]); cbn [bind];
    destruct (contains_real_ok _ _ Ev) as (x & Ex & _), (contains_real_ok _ _ Ew) as (y & Ey & _); unfold measured; rewrite Ex, Ey; cbn; destruct v, w; cbn in *; try discriminate; reflexivity.
Qed.
Lemma rescaled_rvs RNG (G : rng_ops R RNG) d d' f n g : rescaled d d' f -> normal d d' f ->
  dim_rvs Rops G d' n g = (let '(c, g') := dim_rvs Rops G d n g in (rmap (map f) c, g')) /\ forall c g', dim_rvs Rops G d n g = (Ok c, g') -> Forall (kept d d' f) c.
Proof.
  intros H Hn. assert (Same : d' = d /\ f = (fun v => v) -> dim_rvs Rops G d' n g = (let '(c, g') := dim_rvs Rops G d n g in (rmap (map f) c, g')) /\ forall c g', dim_rvs Rops G d n g = (Ok c, g') -> Forall (kept d d' f) c).
  { intros [-> ->]. split; [|intros; apply Forall_forall; now left]. destruct (dim_rvs Rops G d n g) as [[c|e] g']; [|reflexivity]. cbn. now rewrite map_id. }
  destruct Hn as [E|Hk]; [now apply Same|].
  assert (Hu : is_cat d = false -> d' = d /\ f = (fun v => v) \/ dim_rvs_spec Rops d = RVUniform 0 1 /\ dim_rvs_spec Rops d' = RVUniform 0 1).
  { intros _. destruct (rescaled_shape H (or_intror Hk)) as (_ & _ & _ & Hs). rewrite Hs. destruct H as [d|s t r Ps Hp L|s r Ps Hp L Hb]; [now left| |]; right; cbn [dim_kind] in Hk; cbn; rewrite Hk; auto. }
  destruct (is_cat d) eqn:Ec; [apply Same; destruct H; [auto|discriminate|discriminate]|]. destruct (Hu eq_refl) as [E|[E1 E2]]; [now apply Same|].
  unfold dim_rvs. rewrite E1, E2. destruct (draws (uniform_draw Rops G 0 1) n g) as [us g'].
  destruct (rescaled_inverse (A1 (map (@VFloat R) us)) H (or_intror Hk)) as [Hi Hf]. rewrite Hi. split; [reflexivity|]. intros c g1 E. injection E as E _. now apply Hf.
Qed.
Lemma rescaled_kind d d' f : rescaled d d' f -> match set_kind KNormalize d, set_kind KNormalize d' with Ok e, Ok e' => rescaled e e' f /\ normal e e' f | _, _ => False end.
Proof.
  intro H. destruct H as [d|s t r Ps Hp L|s r Ps Hp L Hb].
  - destruct d; cbn; (split; [constructor|now right]).
  - cbn. split; [|now right]. exact (@rs_linear s t (mkReal (r_low r) (r_high r) (r_prior r) (r_base r) KNormalize (r_name r) (r_dtype r)) Ps Hp L).
  - cbn. split; [|now right]. exact (@rs_log s (mkReal (r_low r) (r_high r) (r_prior r) (r_base r) KNormalize (r_name r) (r_dtype r)) Ps Hp L Hb).
Qed.
