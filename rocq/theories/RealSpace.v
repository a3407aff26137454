(** Drawing from a space and mapping back into it over the reals never fail (C83). *)
From Coq Require Import String List ZArith Bool Lia Reals Lra Permutation.
From Flocq Require Import Core.Core.
From Verif Require Import Base BaseLemmas Num Values Transformers Dimension Space NumLaws NormLaws SpaceSpec
  DimLemmas CatLemmas RoundTrip SpaceLemmas RealLemmas MetricLemmas ReachLemmas CampaignSpec.
Import ListNotations.
Open Scope list_scope.
Set Implicit Arguments.
Local Arguments Z.pow : simpl never.
Local Open Scope R_scope.

Lemma num_R x : nisnan Rops x = false.
Proof. unfold nisnan. cbn. unfold Rleb'. destruct (Rle_dec x x); [easy|]. exfalso. lra. Qed.
Lemma unit_R z : 0 <= z <= 1 -> unit_range (O:=Rops) z = true.
Proof.
  intros H. unfold unit_range. cbn. unfold Rltb. assert (0 < / 100000000) by (apply Rinv_0_lt_compat; lra).
  destruct (Rlt_dec _ _); [exfalso; lra|]. destruct (Rlt_dec _ _); [exfalso; lra|]. reflexivity.
Qed.
Lemma le_R a b : nleb Rops a b = true <-> a <= b.
Proof. cbn. unfold Rleb'. destruct (Rle_dec a b); split; easy. Qed.

(** A number of the right range is mapped into the dimension. *)
Lemma real_back r l zs : wf_real Rops r -> nums Rops l = Ok zs -> (r_kind r = KNormalize -> Forall (fun z => 0 <= z <= 1) zs) ->
  exists vs, dim_inverse Rops (DReal r) (A1 l) = Ok vs /\ length vs = length zs /\ Forall (in_dim Rops (DReal r)) vs.
Proof.
  intros Hw Hl Hz. rewrite real_inverse_eq, Hl. cbn [bind].
  assert (B : implb (is_norm (r_kind r)) (forallb (unit_range (O:=Rops)) zs) = true).
  { destruct (r_kind r); try reflexivity. cbn. apply forallb_forall. intros z Z. apply unit_R. specialize (Hz eq_refl). rewrite Forall_forall in Hz. auto. }
  rewrite B. eexists. split; [reflexivity|]. split; [apply map_length|]. apply Forall_map, Forall_forall. intros z _.
  apply (@post_real_in _ Rops Rops_order (fun x => eq_refl)); [exact Hw|apply num_R].
Qed.
Lemma int_back i l zs : wf_int i -> nums Rops l = Ok zs -> (i_kind i = KNormalize -> Forall (fun z => 0 <= z <= 1) zs) ->
  exists vs, dim_inverse Rops (DInt i) (A1 l) = Ok vs /\ length vs = length zs /\ Forall (in_dim Rops (DInt i)) vs.
Proof.
  intros Hw Hl Hz. rewrite int_inverse_eq, Hl. cbn [bind].
  assert (B : implb (is_norm (i_kind i)) (forallb (unit_range (O:=Rops)) zs) = true).
  { destruct (i_kind i); try reflexivity. cbn. apply forallb_forall. intros z Z. apply unit_R. specialize (Hz eq_refl). rewrite Forall_forall in Hz. auto. }
  rewrite B. eexists. split; [reflexivity|]. split; [apply map_length|]. apply Forall_map, Forall_forall. intros z _.
  apply (@post_int_in _ Rops Rops_order Rops_int); [exact Hw|apply num_R].
Qed.

Lemma label_R c z : wf_cat Rops c -> 0 <= z <= 1 ->
  (0 <= ZnearestE (z * (IZR (Z.of_nat (length (c_cats c)) - 1) - 0) + 0) <= Z.of_nat (length (c_cats c)) - 1)%Z.
Proof.
  intros (Hn & _) H. set (m := (Z.of_nat (length (c_cats c)) - 1)%Z). assert (M : 0 <= IZR m). { apply IZR_le. unfold m. destruct (c_cats c); [easy|]. cbn [length]. lia. }
  assert (B : 0 <= z * (IZR m - 0) + 0 <= IZR m) by nra. split.
  - pose proof (@Zrnd_le ZnearestE _ _ _ (proj1 B)) as Q. rewrite (@Zrnd_IZR ZnearestE _ 0) in Q. exact Q.
  - pose proof (@Zrnd_le ZnearestE _ _ _ (proj2 B)) as Q. rewrite (@Zrnd_IZR ZnearestE _ m) in Q. exact Q.
Qed.
Lemma cat_norm_back c l zs : wf_cat Rops c -> (Z.of_nat (length (c_cats c)) <= 2 ^ 50)%Z -> c_kind c = KNormalize ->
  nums Rops l = Ok zs -> Forall (fun z => 0 <= z <= 1) zs ->
  exists vs, dim_inverse Rops (DCat c) (A1 l) = Ok vs /\ length vs = length zs /\ Forall (in_dim Rops (DCat c)) vs.
Proof.
  intros Hw Hb K Hl Hz. pose proof Hw as (Hn & Hh & Hd).
  assert (X : exists vs, dim_inverse Rops (DCat c) (A1 l) = Ok vs /\ length vs = length zs).
  2:{ destruct X as (vs & E & L). exists vs. split; [exact E|]. split; [exact L|]. apply (@cat_inverse_in _ Rops) with (A1 l); auto. }
  unfold dim_inverse, cat_transformer. rewrite K. cbn [inverse_transform as_A1 bind]. rewrite Hl. cbn [bind].
  rewrite normalize_inverse_eq.
  assert (B : forallb (unit_range (O:=Rops)) zs = true).
  { apply forallb_forall. intros z Z. apply unit_R. rewrite Forall_forall in Hz. auto. }
  rewrite B. cbn [bind as_A1 nofZ nadd nmul nsub ntoint nround Rops]. clear B Hl.
  set (f := fun x : R => VInt _).
  assert (Y : exists vs, mapM (label_inverse1 Rops (invert_mapping (label_mapping Rops (c_cats c)))) (map f zs) = Ok vs /\ length vs = length zs /\
     incl vs (c_cats c)).
  { induction Hz as [|z zs Z F (vs & E & L & I)]; [exists []; easy|]. cbn [map mapM].
    pose proof (label_R Hw Z) as Q. set (k := ZnearestE _) in *.
    assert (Ef : f z = VInt k) by (unfold f; rewrite Ztrunc_IZR; reflexivity). rewrite Ef.
    pose proof (label_order_perm (O:=Rops) Hh Hd) as Pm.
    destruct (nth_error (label_order (O:=Rops) (c_cats c)) (Z.to_nat k)) as [v|] eqn:Ev.
    2:{ apply nth_error_None in Ev. rewrite <- (Permutation_length Pm) in Ev. lia. }
    rewrite (@label_inverse_ok R Rops Rops_order Rops_int (c_cats c) (Z.to_nat k) v (VInt k) Hh Hd Ev); [| cbn; rewrite Z2Nat.id by lia; reflexivity |lia].
    cbn [bind]. rewrite E. cbn [bind]. exists (v :: vs). split; [reflexivity|]. split; [cbn; congruence|].
    intros w [<-|W]; [|auto]. apply nth_error_In in Ev. exact (Permutation_in _ (Permutation_sym Pm) Ev). }
  destruct Y as (vs & E & L & I). rewrite E. cbn [bind as_A1]. eexists. split; [reflexivity|]. rewrite (np_asarray_cats Hw I). exact L.
Qed.

(** One-hot columns. *)
Lemma hot_back c row zs : wf_cat Rops c -> c_kind c = KOnehot -> nums Rops row = Ok zs -> length zs = tsize (DCat c) ->
  forall a, rows_of a = [row] -> exists v, dim_inverse Rops (DCat c) a = Ok [v] /\ in_dim Rops (DCat c) v.
Proof.
  intros Hw K Hl Hz a Ha. pose proof Hw as (Hn & Hh & Hd).
  assert (X : exists v, dim_inverse Rops (DCat c) a = Ok [v]).
  2:{ destruct X as (v & E). exists v. split; [exact E|]. pose proof (@cat_inverse_in _ Rops c a [v] Hw (or_introl K) E) as F. now inversion F. }
  unfold dim_inverse, cat_transformer. rewrite K. cbn [inverse_transform]. rewrite cat_classes_distinct by exact Hd. cbn [bind]. rewrite Ha. cbn [mapM].
  assert (Y : exists k, lb_inverse1 Rops (seq 0 (length (c_cats c))) row = Ok k /\ (k < length (c_cats c))%nat).
  { unfold lb_inverse1. rewrite Hl. cbn [bind]. cbn [tsize] in Hz. rewrite K in Hz. destruct (c_cats c) as [|c0 [|c1 [|c2 cs]]]; [easy|..].
    - exists 0%nat. split; [reflexivity|cbn; lia].
    - cbn in Hz |- *. destruct zs as [|z [|z' zs]]; try discriminate. destruct (Rltb _ _); eexists; (split; [reflexivity|lia]).
    - cbn [length seq] in *. set (cl := seq 3 (length cs)).
      destruct (argmax Rops zs) as [k|] eqn:Ek; [|destruct zs; discriminate].
      assert (In_lt : forall j, In j (0 :: 1 :: 2 :: cl)%nat -> (j < S (S (S (length cs))))%nat).
      { intros j Hj. change (0 :: 1 :: 2 :: cl)%nat with (seq 0 (S (S (S (length cs))))) in Hj. apply in_seq in Hj. lia. }
      destruct (nth_error (0 :: 1 :: 2 :: cl)%nat k) as [j|] eqn:Ej.
      + exists j. split; [reflexivity|]. apply In_lt. now apply nth_error_In in Ej.
      + destruct (last (map Some (0 :: 1 :: 2 :: cl)%nat) None) as [j|] eqn:El.
        * exists j. split; [reflexivity|]. apply In_lt.
          assert (Hi : In (Some j) (map Some (0 :: 1 :: 2 :: cl)%nat)).
          { rewrite <- El. destruct (exists_last (l := map Some (0 :: 1 :: 2 :: cl)%nat)) as (l' & b & E); [discriminate|]. rewrite E, last_last. apply in_or_app. right. now left. }
          apply in_map_iff in Hi. destruct Hi as (x & Ex & Hx). now injection Ex as ->.
        * exfalso. destruct (exists_last (l := map Some (0 :: 1 :: 2 :: cl)%nat)) as (l' & b & E); [discriminate|]. rewrite E, last_last in El. subst b.
          assert (Hi : In None (map Some (0 :: 1 :: 2 :: cl)%nat)) by (rewrite E; apply in_or_app; right; now left).
          apply in_map_iff in Hi. destruct Hi as (x & Ex & _). discriminate. }
  destruct Y as (k & -> & Lk). cbn [bind mapM].
  destruct (nth_error (c_cats c) k) as [v|] eqn:Ev; [|apply nth_error_None in Ev; lia].
  unfold cat_mapping. fold (keyed (c_cats c)). rewrite keyed_mapping by exact Hd. rewrite invert_keyed. rewrite (inv_lookup_enum _ _ Ev). cbn [bind as_A1].
  exists v. f_equal. apply (@np_asarray_homog R Rops). exists (type_of v). constructor; [reflexivity|constructor].
Qed.

(** *** Mapping a row within the declared bounds back *)
Definition back (d : dim R) (row : list (pyval R)) : res (list (pyval R)) :=
  if Nat.eqb (tsize d) 1 then match row with [v] => dim_inverse Rops d (A1 [v]) | _ => Raise IndexError end
  else dim_inverse Rops d (A2 [row]).

Lemma within_nums bs row : within (O:=Rops) bs row -> exists zs, nums Rops row = Ok zs /\ Forall2 (fun b z => fst b <= z <= snd b) bs zs.
Proof.
  induction 1 as [|b v bs row (z & E & A & B) F (zs & Ez & Fz)]; [exists []; split; [reflexivity|constructor]|].
  exists (z :: zs). split.
  - unfold nums in *. cbn [mapM]. unfold num. rewrite E. cbn [bind]. unfold num in Ez. rewrite Ez. reflexivity.
  - constructor; [|exact Fz]. split; now apply le_R.
Qed.
Lemma tbounds_size d : length (tbounds Rops d) = tsize d.
Proof. destruct d as [r|i|c]; cbn; [destruct (r_kind r), (r_prior r)|destruct (i_kind i)|destruct (c_kind c); [..|reflexivity]]; try reflexivity; try apply repeat_length. Qed.

Lemma unit_one zs : Forall2 (fun (b : R * R) z => fst b <= z <= snd b) [(0, 1)] zs -> Forall (fun z => 0 <= z <= 1) zs.
Proof. intros F. inversion F as [|b z bs zs' Q F' E1 E2]; subst. inversion F'; subst. constructor; [exact Q|constructor]. Qed.

Lemma dim_back d row : boundedR d -> within (O:=Rops) (tbounds Rops d) row -> exists v, back d row = Ok [v] /\ in_dim Rops d v.
Proof.
  intros (I & B) W. destruct (within_nums W) as (zs & Ez & Fz). pose proof (Forall2_len Fz) as Lz. rewrite tbounds_size in Lz.
  pose proof (Forall2_len W) as Lr. rewrite tbounds_size in Lr. unfold back.
  assert (One : forall vs, (exists ws, vs = Ok ws /\ length ws = length zs /\ Forall (in_dim Rops d) ws) -> length zs = 1%nat ->
     exists v, vs = Ok [v] /\ in_dim Rops d v).
  { intros vs (ws & -> & Lw & F) L1. rewrite L1 in Lw. destruct ws as [|v [|]]; try discriminate. exists v. split; [reflexivity|now inversion F]. }
  destruct d as [r|i|c].
  - cbn [tsize] in *. rewrite Nat.eqb_refl. destruct row as [|v [|]]; try discriminate. apply One; [|congruence]. destruct I as (Hw & _).
    apply real_back; [exact Hw|exact Ez|]. intros K. cbn in Fz. rewrite K in Fz. exact (unit_one Fz).
  - cbn [tsize] in *. rewrite Nat.eqb_refl. destruct row as [|v [|]]; try discriminate. apply One; [|congruence]. destruct I as (_ & Hw & _).
    apply int_back; [exact Hw|exact Ez|]. intros K. cbn in Fz. rewrite K in Fz. exact (unit_one Fz).
  - destruct I as (Hw & Hk & Hb). destruct Hk as [K|[K|K]]; [|now elim B|].
    + destruct (Nat.eqb (tsize (DCat c)) 1) eqn:E1.
      * apply Nat.eqb_eq in E1. rewrite E1 in Lr. destruct row as [|v [|]]; try discriminate. apply hot_back with [v] zs; auto.
      * apply hot_back with row zs; auto.
    + assert (T : tsize (DCat c) = 1%nat) by (cbn; rewrite K; reflexivity). rewrite T in *. cbn [Nat.eqb]. destruct row as [|v [|]]; try discriminate.
      apply One; [|congruence]. apply cat_norm_back; auto. cbn in Fz. rewrite K in Fz. exact (unit_one Fz).
Qed.

Lemma column_one start (row : list (pyval R)) : column start [row] = match nth_error row start with Some v => Ok [v] | None => Raise IndexError end.
Proof. unfold column. cbn. destruct (nth_error row start); reflexivity. Qed.
Lemma inverse_back : forall dims pre row start, Forall boundedR dims -> length pre = start -> within (O:=Rops) (space_tbounds Rops dims) row ->
  exists p, inverse_columns Rops dims start [pre ++ row] = Ok (map (fun v => [v]) p) /\ in_space Rops dims p.
Proof.
  induction dims as [|d dims IH]; intros pre row start F Lp W; [exists []; split; [reflexivity|constructor]|].
  inversion F as [|? ? Hd F']; subst. cbn [space_tbounds flat_map] in W. apply Forall2_app_inv_l in W. destruct W as (r1 & r2 & W1 & W2 & ->).
  pose proof (Forall2_len W1) as L1. rewrite tbounds_size in L1. destruct (dim_back Hd W1) as (v & Ev & Iv).
  destruct (IH (pre ++ r1) r2 (length pre + tsize d)%nat F') as (p & Ep & Ip); [rewrite app_length; lia|exact W2|].
  rewrite <- app_assoc in Ep. exists (v :: p). cbn [inverse_columns]. split; [|constructor; assumption].
  unfold back in Ev. destruct (Nat.eqb (tsize d) 1) eqn:E1.
  - apply Nat.eqb_eq in E1. rewrite E1 in L1. destruct r1 as [|w [|]]; try discriminate.
    rewrite column_one, nth_error_app2, Nat.sub_diag by lia. cbn [nth_error app bind]. cbn [app] in Ep. rewrite Ev. cbn [bind]. rewrite Ep. reflexivity.
  - unfold block. cbn [map]. rewrite skipn_app, skipn_all, Nat.sub_diag. cbn [skipn app].
    assert (Ef : firstn (tsize d) (r1 ++ r2) = r1) by (rewrite L1, firstn_app, firstn_all, Nat.sub_diag; cbn [firstn]; apply app_nil_r).
    rewrite Ef, Ev. cbn [bind]. rewrite Ep. reflexivity.
Qed.
(** A row within the declared bounds is mapped to a point of the space. *)
Lemma space_back dims row : dims <> [] -> Forall boundedR dims -> within (O:=Rops) (space_tbounds Rops dims) row ->
  exists p, space_inverse Rops dims [row] = Ok [p] /\ in_space Rops dims p.
Proof.
  intros Hn F W. destruct (@inverse_back dims [] row 0%nat F eq_refl W) as (p & E & I). exists p. split; [|exact I].
  unfold space_inverse. cbn [app] in E. rewrite E. cbn [bind]. apply transpose_one. intros ->. inversion I; subst. now elim Hn.
Qed.

(** *** Sampling *)
Section Draw.
  Context {RNG : Type} (G : rng_ops R RNG) (Gok : rng_ok Rops G).
  Lemma draws_all' {A} (P : A -> Prop) f n : forall g, (forall g, P (fst (f g))) ->
    length (fst (draws (RNG:=RNG) f n g)) = n /\ Forall P (fst (draws f n g)).
  Proof.
    induction n as [|n IH]; intros g H; simpl; [easy|].
    destruct (f g) as [x g1] eqn:E. destruct (IH g1 H) as [Hl Hf].
    destruct (draws f n g1) as [xs g2]. simpl in *. split; [lia|]. constructor; [|easy].
    specialize (H g). now rewrite E in H.
  Qed.
  Lemma unit_drawn g : 0 <= fst (uniform_draw Rops G (nofZ Rops 0) (nofZ Rops 1) g) <= 1.
  Proof.
    unfold uniform_draw. destruct Gok as (U & _). specialize (U g). destruct (rg_random G g) as [u g']. cbn in *. unfold Rleb', Rltb in U.
    destruct (Rle_dec 0 u), (Rlt_dec u 1); destruct U; try discriminate. lra.
  Qed.
  Lemma dim_drawn d n g : workable d -> exists vs g', dim_rvs Rops G d n g = (Ok vs, g') /\ length vs = n /\ Forall (in_dim Rops d) vs.
  Proof.
    intros ((I & B) & Wp).
    destruct d as [r|i|c].
    - destruct I as (Hw & _). unfold dim_rvs.
      assert (K : exists lo sc, dim_rvs_spec Rops (DReal r) = RVUniform lo sc /\ (r_kind r = KNormalize -> lo = nofZ Rops 0 /\ sc = nofZ Rops 1)).
      { cbn. destruct (r_kind r); try destruct (r_prior r); do 2 eexists; (split; [reflexivity|]); intros Kx; try discriminate Kx; easy. }
      destruct K as (lo & sc & -> & Kn).
      destruct (@draws_all' R (fun z => r_kind r = KNormalize -> 0 <= z <= 1) (uniform_draw Rops G lo sc) n g) as [Hl Hf].
      { intros g1 K. destruct (Kn K) as (-> & ->). apply unit_drawn. }
      destruct (draws (uniform_draw Rops G lo sc) n g) as [us g']. cbn [fst] in Hl, Hf.
      destruct (@real_back r (map (@VFloat R) us) us Hw (@nums_VFloat R Rops us)) as (vs & E & L & F).
      { intros K. eapply Forall_impl; [|exact Hf]. auto. }
      exists vs, g'. rewrite E. split; [reflexivity|]. split; [congruence|exact F].
    - destruct I as (_ & Hw & _). unfold dim_rvs.
      assert (K : (exists lo sc, dim_rvs_spec Rops (DInt i) = RVUniform lo sc /\ (i_kind i = KNormalize -> lo = nofZ Rops 0 /\ sc = nofZ Rops 1)) \/
                  (exists lo hi, dim_rvs_spec Rops (DInt i) = RVRandint lo hi) /\ i_kind i <> KNormalize).
      { cbn. destruct (i_kind i); try destruct (i_prior i); first [left; do 2 eexists; (split; [reflexivity|]); intros Kx; first [discriminate Kx|split; reflexivity]
         | right; split; [eauto|discriminate]]. }
      destruct K as [(lo & sc & -> & Kn)|((lo & hi & ->) & Kn)].
      + destruct (@draws_all' R (fun z => i_kind i = KNormalize -> 0 <= z <= 1) (uniform_draw Rops G lo sc) n g) as [Hl Hf].
        { intros g1 K. destruct (Kn K) as (-> & ->). apply unit_drawn. }
        destruct (draws (uniform_draw Rops G lo sc) n g) as [us g']. cbn [fst] in Hl, Hf.
        destruct (@int_back i (map (@VFloat R) us) us Hw (@nums_VFloat R Rops us)) as (vs & E & L & F).
        { intros K. eapply Forall_impl; [|exact Hf]. auto. }
        exists vs, g'. rewrite E. split; [reflexivity|]. split; [congruence|exact F].
      + destruct (@draws_all' Z (fun z => True) (fun g => rg_randint G g lo hi) n g ltac:(easy)) as [Hl _].
        destruct (draws (fun g => rg_randint G g lo hi) n g) as [us g']. cbn [fst] in Hl.
        assert (Q : nums Rops (map (@VInt R) us) = Ok (map IZR us)).
        { clear. induction us as [|u us IH]; [reflexivity|]. unfold nums in *. cbn [map mapM]. rewrite IH. reflexivity. }
        destruct (@int_back i _ _ Hw Q) as (vs & E & L & F); [intros K; now elim Kn|].
        exists vs, g'. rewrite E. split; [reflexivity|]. split; [rewrite map_length in L; congruence|exact F].
    - destruct I as (Hw & Hk & Hb). unfold dim_rvs. destruct Hk as [K|[K|K]]; [|now elim B|].
      + cbn [dim_rvs_spec]. rewrite K.
        assert (Pl : length (cat_prior Rops c) = length (c_cats c)).
        { unfold cat_prior. destruct (c_prior c); [easy|apply repeat_length]. }
        destruct Gok as (_ & _ & GC & _). destruct Hw as (Hne & _).
        destruct (@draws_all' nat (fun i => (i < length (c_cats c))%nat) (fun g => rg_choice G g (cat_prior Rops c)) n g) as [Hl Hf].
        { intros g1. rewrite <- Pl. apply GC. intros E0. rewrite E0 in Pl. destruct (c_cats c); easy. }
        destruct (draws _ n g) as [is g']. cbn [fst] in Hl, Hf.
        assert (X : exists vs, mapM (fun i => match nth_error (c_cats c) i with Some v => Ok v | None => Raise IndexError end) is = Ok vs
                     /\ length vs = length is /\ incl vs (c_cats c)).
        { clear Hl. induction Hf as [|i is Hi Hf IH]; [exists []; easy|].
          destruct IH as (vs & Ev & Ll & Hin). simpl.
          destruct (nth_error (c_cats c) i) as [v|] eqn:E; [|apply nth_error_None in E; lia].
          cbn [bind]. rewrite Ev. cbn [bind]. exists (v :: vs). split; [easy|]. split; [simpl; lia|].
          intros w [<-|Hw']; auto. now apply nth_error_In in E. }
        destruct X as (vs & Ev & Ll & Hin). rewrite Ev. exists vs, g'. split; [reflexivity|]. split; [lia|].
        apply Forall_forall. intros v Hv. constructor. now apply Hin.
      + cbn [dim_rvs_spec]. rewrite K.
        destruct (@draws_all' R (fun z => 0 <= z <= 1) (uniform_draw Rops G (nofZ Rops 0) (nofZ Rops 1)) n g unit_drawn) as [Hl Hf].
        destruct (draws (uniform_draw Rops G (nofZ Rops 0) (nofZ Rops 1)) n g) as [us g']. cbn [fst] in Hl, Hf.
        destruct (@cat_norm_back c (map (@VFloat R) us) us Hw Hb K (@nums_VFloat R Rops us) Hf) as (vs & E & L & F).
        exists vs, g'. rewrite E. split; [reflexivity|]. split; [congruence|exact F].
  Qed.
  Lemma columns_drawn dims n g : Forall workable dims ->
    exists P g', rvs_columns Rops G dims n g = (Ok (columns (length dims) P), g') /\ length P = n /\ Forall (in_space Rops dims) P.
  Proof.
    intros F. revert g. induction F as [|d dims Hd F IH]; intros g.
    - exists (repeat [] n), g. split; [reflexivity|]. split; [apply repeat_length|].
      apply Forall_forall. intros p Hp. apply repeat_spec in Hp as ->. constructor.
    - simpl. destruct (dim_drawn n g Hd) as (vs & g1 & E & Hl & Hv). rewrite E.
      destruct (IH g1) as (P & g2 & E2 & HP & HS). rewrite E2.
      exists (map (fun vp => fst vp :: snd vp) (combine vs P)), g2.
      assert (M1 : map (fun p => hd VNone p) (map (fun vp : _ * _ => fst vp :: snd vp) (combine vs P)) = vs).
      { rewrite map_map. simpl. clear -Hl HP. subst n. revert P HP. induction vs as [|v vs IH]; intros [|p P] H; simpl in *; try easy.
        f_equal. apply IH. lia. }
      assert (M2 : map (fun p : list _ => tl p) (map (fun vp : pyval R * _ => fst vp :: snd vp) (combine vs P)) = P).
      { rewrite map_map. simpl. clear -Hl HP. subst n. revert P HP. induction vs as [|v vs IH]; intros [|p P] H; simpl in *; try easy.
        f_equal. apply IH. lia. }
      split; [|split].
      + cbn [columns length]. f_equal. f_equal. f_equal; [now symmetry|]. f_equal. now symmetry.
      + rewrite map_length, combine_length. lia.
      + apply Forall_map. apply Forall_forall. intros [v p] Hin. simpl. constructor.
        * apply in_combine_l in Hin. rewrite Forall_forall in Hv. auto.
        * apply in_combine_r in Hin. rewrite Forall_forall in HS. exact (HS _ Hin).
  Qed.
  Lemma space_drawn dims n g : dims <> [] -> Forall workable dims ->
    exists P g', space_rvs Rops G dims n g = (Ok P, g') /\ length P = n /\ Forall (in_space Rops dims) P.
  Proof.
    intros Hne F. destruct (columns_drawn n g F) as (P & g' & E & HP & HS). exists P, g'.
    unfold space_rvs. rewrite E. cbn [bind]. split; [|easy]. apply (f_equal (fun x => (x, g'))).
    apply transpose_columns; [now destruct dims|].
    eapply Forall_impl; [|exact HS]. intros p. apply in_space_length.
  Qed.
End Draw.

(** *** Distances *)
Lemma bounded_wf d : boundedR d -> wf_dim Rops d.
Proof. intros (I & _). destruct d as [r|i|c]; cbn in *; [apply I|apply I|destruct I as (H & _); exact H]. Qed.
Lemma distance_total : forall dims p q acc, Forall boundedR dims -> in_space Rops dims p -> in_space Rops dims q ->
  exists z, distance_from Rops acc dims p q = Ok z.
Proof.
  induction dims as [|d dims IH]; intros p q acc F Hp Hq; inversion Hp; subst; inversion Hq; subst; cbn [distance_from]; [eauto|].
  inversion F; subst. destruct (@gap_ex d y y0) as (z & E & _); auto using bounded_wf. rewrite E. cbn [bind]. apply IH; auto.
Qed.
Lemma in_member dims p : Forall boundedR dims -> in_space Rops dims p -> Forall2 (accepts Rops) dims p.
Proof.
  intros F H. revert F. induction H as [|d v dims p Hd H IH]; intros F; constructor; inversion F; subst; auto.
  apply contains_accepts, in_contains; auto using bounded_wf.
Qed.
