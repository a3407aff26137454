(** Every value can be drawn. *)
From Coq Require Import String List ZArith Bool Lia Reals Lra.
From Flocq Require Import Core.Core.
From Verif Require Import Base BaseLemmas Num Values Transformers Dimension Space NumLaws NormLaws SpaceSpec
  DimLemmas CatLemmas RoundTrip SpaceLemmas RealLemmas ReachSpec.
From Coq Require Import Permutation.
Import ListNotations.
Open Scope list_scope.
Local Open Scope R_scope.

Lemma scripted_ok : rng_ok Rops scripted.
Proof.
  assert (I : forall p k, p <> [] -> (index_of p k < length p)%nat).
  { intros p k Hp. assert (0 < length p)%nat by (destruct p; [easy|cbn; lia]). unfold index_of. destruct (nth_error p k) eqn:E; [|easy].
    destruct (Rlt_dec 0 r); [|easy]. apply nth_error_Some. congruence. }
  split; [|split; [|split; [|split]]].
  - intro g. cbn. destruct (slot g) as [[[u k] j] r]. cbn. unfold unit_of.
    split; [apply Rleb_spec|apply Rltb_spec]; destruct (Rle_dec 0 u), (Rlt_dec u 1); lra.
  - intros g lo hi H. cbn. destruct (slot g) as [[[u k] j] r]. cbn. unfold int_of. destruct (Z.leb_spec lo k), (Z.ltb_spec k hi); cbn; lia.
  - intros g p Hp. cbn. destruct (slot g) as [[[u k] j] r]. cbn. now apply I.
  - intros g n. cbn. apply Permutation_refl.
  - intros g p Hp. cbn. destruct (slot g) as [[[u k] j] r]. cbn. now apply I.
Qed.

Lemma unit_of_id u : 0 <= u < 1 -> unit_of u = u.
Proof. intro H. unfold unit_of. destruct (Rle_dec 0 u), (Rlt_dec u 1); lra. Qed.

(** The outcome that leads to [t]. *)
Definition share (p : prior) (base lo hi t : R) : R := (warp1 p base t - warp1 p base lo) / (warp1 p base hi - warp1 p base lo).
Lemma share_range p k base lo hi t : log_ok p k base lo -> lo <= t < hi -> 0 <= share p base lo hi t < 1 /\
  share p base lo hi t * (warp1 p base hi - warp1 p base lo) + warp1 p base lo = warp1 p base t.
Proof.
  intros H Ht. unfold share.
  assert (Q : forall a b c : R, 0 <= a < b -> c <> 0 -> 0 <= (a / c) / (b / c) < 1).
  { intros a b c [Ha Hb] Hc. replace (a / c / (b / c)) with (a / b) by (field; lra). split.
    - apply Rmult_le_pos; [easy|]. left. apply Rinv_0_lt_compat. lra.
    - apply Rmult_lt_reg_r with b; [lra|]. unfold Rdiv. rewrite Rmult_assoc, Rinv_l by lra. lra. }
  destruct p; cbn [warp1].
  - specialize (Q (t - lo) (hi - lo) 1 ltac:(lra) ltac:(lra)). unfold Rdiv in Q. rewrite Rinv_1, !Rmult_1_r in Q. split; [exact Q|]. field. lra.
  - destruct (H eq_refl) as (Hl & Hb & H1 & _). rewrite !logb_val by easy. pose proof (ln_neq0 Hb H1).
    assert (ln lo <= ln t) by (destruct (Rle_lt_or_eq_dec lo t) as [L|E]; [lra|left; apply ln_increasing; lra|rewrite E; lra]).
    assert (ln t < ln hi) by (apply ln_increasing; lra).
    specialize (Q (ln t - ln lo) (ln hi - ln lo) (ln base) ltac:(lra) ltac:(easy)).
    replace (ln t / ln base - ln lo / ln base) with ((ln t - ln lo) / ln base) by (field; easy).
    replace (ln hi / ln base - ln lo / ln base) with ((ln hi - ln lo) / ln base) by (field; easy).
    split; [exact Q|]. field. split; [easy|]. lra.
Qed.
Lemma share_warpR p base lo hi t : share p base lo hi t = warpR lo hi base p KNormalize t.
Proof. reflexivity. Qed.

Lemma draw_uniform lo sc u rest : 0 <= u < 1 ->
  draws (uniform_draw Rops scripted lo sc) 1 ((u, 0%Z, 0%nat) :: rest) = ([u * sc + lo], rest).
Proof. intro H. cbn. unfold uniform_draw. cbn. now rewrite unit_of_id. Qed.

Lemma reach_real r x rest : wf_real Rops r -> log_ok (r_prior r) (r_kind r) (r_base r) (r_low r) -> r_low r <= x < r_high r ->
  exists s, dim_rvs Rops scripted (DReal r) 1 (s :: rest) = (Ok [VFloat x], rest).
Proof.
  intros Hw H Hx. destruct (share_range _ _ _ _ _ _ H Hx) as [U E]. set (u := share (r_prior r) (r_base r) (r_low r) (r_high r) x) in *.
  exists (u, 0%Z, 0%nat). unfold dim_rvs, dim_rvs_spec. pose proof Hw as (_ & _ & Hk).
  pose proof (@real_inverse_R r [x] Hw H) as I. cbn [map] in I. specialize (I ltac:(constructor; [lra|constructor])).
  destruct Hk as [Hk|Hk]; rewrite Hk in *.
  - destruct (r_prior r) eqn:Hp; rewrite (draw_uniform _ _ u rest U); cbn [map]; f_equal.
    + cbn [warp1] in E. cbn [nsub Rops]. rewrite E. exact I.
    + cbn [warp1] in E. cbn [nsub Rops]. rewrite E. exact I.
  - rewrite (draw_uniform _ _ u rest U). cbn [map]. f_equal. cbn [nofZ Rops]. rewrite Rmult_1_r, Rplus_0_r. exact I.
Qed.

(** Values that round to an integer *)
Lemma target lo hi z : (lo <= z <= hi)%Z -> (lo < hi)%Z -> exists t, IZR lo <= t < IZR hi /\ ZnearestE t = z.
Proof.
  intros Hz Hlh. destruct (Z.eq_dec z hi) as [->|N].
  - exists (IZR hi - / 4). assert (IZR lo <= IZR hi - 1) by (rewrite <- minus_IZR; apply IZR_le; lia). split; [lra|].
    apply Znearest_imp. replace (IZR hi - / 4 - IZR hi) with (- / 4) by ring. rewrite Rabs_Ropp, Rabs_pos_eq; lra.
  - exists (IZR z). split; [split; [apply IZR_le; lia|apply IZR_lt; lia]|]. apply ZnearestE_IZR.
Qed.
Lemma clip_R lo hi x : lo <= x <= hi -> nclip Rops lo hi x = x.
Proof.
  intro H. unfold nclip. cbn. assert (A : Rltb x lo = false) by (apply Rltb_false; lra). assert (B : Rltb hi x = false) by (apply Rltb_false; lra). now rewrite A, B.
Qed.
Lemma reach_int i z rest : wf_int i -> log_ok (i_prior i) (i_kind i) (i_base i) (IZR (i_low i)) -> (i_low i <= z <= i_high i)%Z ->
  exists s, dim_rvs Rops scripted (DInt i) 1 (s :: rest) = (Ok [VInt z], rest).
Proof.
  intros Hw H Hz. pose proof Hw as (Hlh & _ & _ & Hc & Hk). destruct (target _ _ _ Hz Hlh) as (t & Ht & Et).
  destruct (share_range _ _ _ _ _ _ H Ht) as [U E]. set (u := share (i_prior i) (i_base i) (IZR (i_low i)) (IZR (i_high i)) t) in *.
  assert (P : forall w, w = t \/ w = IZR z -> post_int (O:=Rops) i w = VInt z).
  { intros w [->| ->]; unfold post_int; cbn [nofZ Rops]; rewrite clip_R by (try lra; split; apply IZR_le; lia); cbn [ntoint nround Rops];
      rewrite ?ZnearestE_IZR, ?Et, Ztrunc_IZR; f_equal; now apply Hc. }
  assert (UW : forall k, log_ok (i_prior i) k (i_base i) (IZR (i_low i)) -> unwarp Rops (IZR (i_low i)) (IZR (i_high i)) (i_base i) (i_prior i) k
      (warpR (IZR (i_low i)) (IZR (i_high i)) (i_base i) (i_prior i) k t) = t).
  { intros k Hk'. apply unwarp_warp; [easy|lra|apply IZR_lt; lia]. }
  destruct Hk as [Hk|Hk]; rewrite Hk in *.
  - destruct (i_prior i) eqn:Hp.
    + exists (0, z, 0%nat). unfold dim_rvs, dim_rvs_spec. rewrite Hk, Hp. cbn [draws]. cbn [rg_randint scripted slot].
      assert (J : int_of (i_low i) (i_high i + 1) z = z) by (unfold int_of; destruct (Z.leb_spec (i_low i) z), (Z.ltb_spec z (i_high i + 1)); cbn; lia).
      rewrite J. cbn [map]. f_equal. rewrite int_inverse_eq, Hk, Hp. cbn [nums mapM to_num bind is_norm implb map].
      unfold int_pre. rewrite ?Hk, ?Hp. unfold unwarp. cbn. f_equal. f_equal. apply P. now right.
    + exists (u, 0%Z, 0%nat). unfold dim_rvs, dim_rvs_spec. rewrite Hk, Hp. rewrite (draw_uniform _ _ u rest U). cbn [map]. f_equal.
      cbn [warp1] in E. cbn [nsub nofZ Rops]. rewrite E. rewrite int_inverse_eq, Hk, Hp. cbn [nums mapM to_num bind is_norm implb map].
      unfold int_pre. rewrite ?Hk, ?Hp. f_equal. f_equal. apply P. left. exact (UW KIdentity H).
  - exists (u, 0%Z, 0%nat). unfold dim_rvs, dim_rvs_spec. rewrite Hk. rewrite (draw_uniform _ _ u rest U). cbn [map]. f_equal.
    cbn [nofZ Rops]. rewrite Rmult_1_r, Rplus_0_r, int_inverse_eq, Hk. cbn [nums mapM to_num bind is_norm implb map forallb].
    rewrite unit_range_R by lra. cbn [andb]. f_equal. f_equal. apply P. unfold int_pre. rewrite Hk. cbn [nofZ ntoint nround Rops].
    specialize (UW KNormalize H). change (warpR _ _ _ _ KNormalize t) with u in UW. rewrite UW. destruct (i_prior i); [|now left].
    right. now rewrite Et, Ztrunc_IZR.
Qed.

Lemma reach_cat c k v rest : wf_cat Rops c -> (Z.of_nat (length (c_cats c)) <= 2 ^ 53)%Z -> nth_error (c_cats c) k = Some v ->
  match c_prior c with None => True | Some p => exists q, nth_error p k = Some q /\ 0 < q end ->
  exists s, dim_rvs Rops scripted (DCat c) 1 (s :: rest) = (Ok [v], rest).
Proof.
  intros (Hn & Hh & Hd) Hl Hk Hp.
  assert (D : c_kind c <> KNormalize \/ c_kind c = KNormalize) by (destruct (c_kind c); auto; left; discriminate). destruct D as [D|D].
  - exists (0, 0%Z, k). unfold dim_rvs, dim_rvs_spec.
    assert (J : index_of (cat_prior Rops c) k = k).
    { unfold index_of, cat_prior. destruct (c_prior c) as [p|].
      - destruct Hp as (q & -> & Pq). destruct (Rlt_dec 0 q); easy.
      - assert (L : (k < length (c_cats c))%nat) by (apply nth_error_Some; congruence). rewrite nth_error_repeat by exact L.
        cbn. destruct (Rlt_dec 0 _) as [|Nq]; [easy|]. exfalso. apply Nq. apply Rdiv_lt_0_compat; [lra|]. apply IZR_lt. lia. }
    destruct (c_kind c); try easy; cbn [draws rg_choice scripted slot]; rewrite J; cbn [mapM]; rewrite Hk; reflexivity.
  - set (l := label_order (O:=Rops) (c_cats c)).
    assert (Pm : Permutation (c_cats c) l) by now apply label_order_perm.
    destruct (In_nth_error l v) as [j Hj]. { eapply Permutation_in; [exact Pm|]. now apply nth_error_In in Hk. }
    assert (Lj : (j < length (c_cats c))%nat) by (rewrite (Permutation_length Pm); apply nth_error_Some; congruence).
    set (n1 := (Z.of_nat (length (c_cats c)) - 1)%Z).
    assert (T : exists u, 0 <= u < 1 /\ ZnearestE (u * (IZR n1 - 0) + 0) = Z.of_nat j).
    { destruct (Z.eq_dec n1 0) as [Z0|NZ].
      - exists 0. split; [lra|]. rewrite Rmult_0_l, Rplus_0_r. rewrite (ZnearestE_IZR 0). unfold n1 in Z0. lia.
      - destruct (target 0 n1 (Z.of_nat j)) as (t & Ht & Et); [unfold n1 in *; lia..|]. exists (t / IZR n1). assert (0 < IZR n1) by lra. split.
        + split; [apply Rmult_le_pos; [lra|left; apply Rinv_0_lt_compat; lra]|]. apply Rmult_lt_reg_r with (IZR n1); [lra|]. unfold Rdiv. rewrite Rmult_assoc, Rinv_l by lra. lra.
        + replace (t / IZR n1 * (IZR n1 - 0) + 0) with t by (field; lra). exact Et. }
    destruct T as (u & U & Eu). exists (u, 0%Z, 0%nat). unfold dim_rvs, dim_rvs_spec. rewrite D. rewrite (draw_uniform _ _ u rest U). cbn [map]. f_equal.
    cbn [nofZ Rops]. rewrite Rmult_1_r, Rplus_0_r. unfold dim_inverse, cat_transformer. rewrite D.
    cbn [inverse_transform rev app as_A1 bind nums mapM to_num].
    change (nums Rops [VFloat u]) with (Ok [u]). cbn [bind]. rewrite normalize_inverse_eq. cbn [forallb]. rewrite unit_range_R by lra. cbn [andb bind map nofZ Rops nadd nmul nsub ntoint nround].
    fold n1. rewrite Eu, Ztrunc_IZR. cbn [as_A1 bind mapM].
    rewrite (@label_inverse_ok R Rops Rops_order Rops_int (c_cats c) j v (VInt (Z.of_nat j)) Hh Hd Hj eq_refl ltac:(lia)). cbn [bind].
    cbn [as_A1 bind]. f_equal. apply np_asarray_homog. exists (type_of v). now constructor.
Qed.

Lemma reach_dim d v rest : drawable d v -> exists s, dim_rvs Rops scripted d 1 (s :: rest) = (Ok [v], rest).
Proof.
  destruct d; cbn; intros (Hw & Ho & x & Hx).
  - destruct Hx as [-> Hx]. now apply reach_real.
  - destruct Hx as [-> Hx]. now apply reach_int.
  - destruct Hx as [Hx Hp]. now apply (reach_cat d x).
Qed.
Lemma reach_columns : forall dims p, Forall2 drawable dims p -> exists s, rvs_columns Rops scripted dims 1 s = (Ok (map (fun v => [v]) p), []).
Proof.
  induction 1 as [|d v dims p Hd H [s IH]]; [exists []; reflexivity|].
  destruct (reach_dim d v s Hd) as [a E]. exists (a :: s). cbn [rvs_columns]. rewrite E, IH. reflexivity.
Qed.
Lemma transpose_one (p : list (pyval R)) : p <> [] -> transpose (map (fun v => [v]) p) = Ok [p].
Proof.
  intro Hp. assert (E : mapM (fun col : list (pyval R) => match nth_error col 0 with Some v => Ok v | None => Raise IndexError end) (map (fun v => [v]) p) = Ok p).
  { clear. induction p as [|v p IH]; [reflexivity|]. cbn [map mapM nth_error bind] in *. now rewrite IH. }
  assert (F : forall cols : list (list (pyval R)), match cols with c :: _ => length c = 1%nat | [] => False end ->
    mapM (fun col => match nth_error col 0 with Some v => Ok v | None => Raise IndexError end) cols = Ok p -> transpose cols = Ok [p]).
  { intros [|c cols] Hc M; [easy|]. unfold transpose. rewrite Hc. cbn [seq]. cbn [mapM]. cbn [mapM] in M. rewrite M. reflexivity. }
  apply F; [|exact E]. destruct p; easy.
Qed.
Lemma c66 dims p : dims <> [] -> Forall2 drawable dims p -> exists RNG (G : rng_ops R RNG) g, rng_ok Rops G /\ fst (space_rvs Rops G dims 1 g) = Ok [p].
Proof.
  intros Hn H. destruct (reach_columns dims p H) as [s E]. exists script, scripted, s. split; [exact scripted_ok|]. unfold space_rvs. rewrite E. cbn [bind fst].
  apply transpose_one. destruct H; easy.
Qed.

(** With the "normalize" transform the two bounds get half the share of an inner value. *)
Lemma draw_any RNG (G : rng_ops R RNG) lo sc g u g' : rg_random G g = (u, g') -> draws (uniform_draw Rops G lo sc) 1 g = ([u * sc + lo], g').
Proof. intro H. cbn. unfold uniform_draw. now rewrite H. Qed.
Lemma c66_share RNG (G : rng_ops R RNG) g g' i u z : rg_random G g = (u, g') -> wf_int i -> i_kind i = KNormalize -> i_prior i = PUniform -> 0 <= u < 1 -> (i_low i <= z <= i_high i)%Z ->
  fst (dim_rvs Rops G (DInt i) 1 g) = Ok [VInt z] <-> ZnearestE (u * (IZR (i_high i) - IZR (i_low i)) + IZR (i_low i)) = z.
Proof.
  intros Hg Hw Hk Hp U Hz. pose proof Hw as (Hlh & _ & _ & Hc & _). apply IZR_lt in Hlh.
  unfold dim_rvs, dim_rvs_spec. rewrite Hk. rewrite (draw_any _ _ _ _ _ _ _ Hg). cbn [map fst].
  cbn [nofZ Rops]. rewrite Rmult_1_r, Rplus_0_r, int_inverse_eq, Hk. cbn [nums mapM to_num bind is_norm implb map forallb].
  rewrite unit_range_R by lra. cbn [andb]. unfold int_pre, unwarp. rewrite Hk, Hp. cbn [nofZ ntoint nround nadd nsub nmul Rops].
  set (x := u * (IZR (i_high i) - IZR (i_low i)) + IZR (i_low i)). rewrite Ztrunc_IZR.
  assert (B : (i_low i <= ZnearestE x <= i_high i)%Z).
  { split; [rewrite <- (ZnearestE_IZR (i_low i))|rewrite <- (ZnearestE_IZR (i_high i))]; apply ZnearestE_le; unfold x; nra. }
  unfold post_int. cbn [nofZ Rops]. rewrite clip_R by (split; apply IZR_le; lia). cbn [ntoint nround Rops]. rewrite ZnearestE_IZR, Ztrunc_IZR, Hc by lia.
  split; [intro E; congruence|intros ->; reflexivity].
Qed.
Lemma c66_low RNG (G : rng_ops R RNG) g g' i u : rg_random G g = (u, g') -> wf_int i -> i_kind i = KNormalize -> i_prior i = PUniform -> 0 <= u < 1 ->
  fst (dim_rvs Rops G (DInt i) 1 g) = Ok [VInt (i_low i)] -> u <= / 2 / IZR (i_high i - i_low i).
Proof.
  intros Hg Hw Hk Hp U E. apply (c66_share _ _ _ _ _ _ _ Hg) in E; try easy; [|destruct Hw; lia]. destruct Hw as (Hlh & _). rewrite minus_IZR. apply IZR_lt in Hlh.
  pose proof (Znearest_half (fun x => negb (Z.even x)) (u * (IZR (i_high i) - IZR (i_low i)) + IZR (i_low i))) as Hh. rewrite E in Hh.
  apply Rabs_le_inv in Hh. apply Rmult_le_reg_r with (IZR (i_high i) - IZR (i_low i)); [lra|]. unfold Rdiv. rewrite Rmult_assoc, Rinv_l by lra. lra.
Qed.
Lemma c66_inner RNG (G : rng_ops R RNG) g g' i u z : rg_random G g = (u, g') -> wf_int i -> i_kind i = KNormalize -> i_prior i = PUniform -> (i_low i < z < i_high i)%Z ->
  (IZR (z - i_low i) - / 2) / IZR (i_high i - i_low i) < u < (IZR (z - i_low i) + / 2) / IZR (i_high i - i_low i) ->
  fst (dim_rvs Rops G (DInt i) 1 g) = Ok [VInt z].
Proof.
  intros Hg Hw Hk Hp Hz U. pose proof (IZR_lt _ _ (proj1 Hw)) as Hlh. 
  assert (A : 1 <= IZR (z - i_low i)) by (apply (IZR_le 1); lia). assert (B : IZR (z - i_low i) <= IZR (i_high i - i_low i) - 1) by (rewrite <- minus_IZR; apply IZR_le; lia).
  set (w := IZR (i_high i - i_low i)) in *. assert (Hw0 : 0 < w) by lra.
  assert (U1 : IZR (z - i_low i) - / 2 < u * w < IZR (z - i_low i) + / 2).
  { destruct U as [U1 U2]. apply Rmult_lt_compat_r with (r := w) in U1, U2; try easy. unfold Rdiv in U1, U2. rewrite Rmult_assoc, Rinv_l, Rmult_1_r in U1, U2 by lra. lra. }
  assert (0 <= u < 1). { split; [apply Rmult_le_reg_r with w|apply Rmult_lt_reg_r with w]; lra. }
  apply (c66_share _ _ _ _ _ _ _ Hg); try easy; [lia|]. apply Znearest_imp. unfold w in U1. rewrite !minus_IZR in U1. apply Rabs_def1; lra.
Qed.

(** A space with one dimension of each kind. *)
Definition case_int : int_dim R := mkInt 0 2 PUniform 10 KNormalize None int64.
Definition case_dims : list (dim R) :=
  [DReal (mkReal 1 100 PLogUniform 10 KNormalize None DT64); DInt case_int;
   DCat (mkCat [VStr "a"; VStr "b"; VStr "c"]%string (Some [/ 2; 0; / 2]) KOnehot None)].
Lemma case_int_ok : wf_int case_int.
Proof.
  split; [cbn; lia|]. split; [cbn; lia|]. split; [cbn; lia|]. split; [|now right].
  intros z Hz. cbn in Hz. assert (C : z = 0%Z \/ z = 1%Z \/ z = 2%Z) by lia. destruct C as [->|[->| ->]]; reflexivity.
Qed.
Lemma case_ok : Forall2 drawable case_dims [VFloat 10; VInt 2; VStr "c"%string].
Proof.
  constructor; [|constructor; [|constructor; [|constructor]]].
  - split; [|split].
    + split; [|split; [easy|now right]]. apply Rltb_spec. cbn. lra.
    + intros _. cbn. repeat split; lra.
    + exists 10. split; [easy|cbn; lra].
  - split; [exact case_int_ok|]. split; [discriminate|]. exists 2%Z. split; [easy|cbn; lia].
  - split; [|split; [cbn; lia|]].
    + split; [discriminate|]. split; [exists (type_of (N:=R) (VStr "a")); repeat constructor|].
      split; repeat constructor.
    + exists 2%nat. split; [easy|]. exists (/ 2). split; [easy|lra].
Qed.
