(** The initial point generators in float64. *)
From Coq Require Import String List ZArith Bool Reals Lra Lia Permutation Psatz.
From Flocq Require Import Core.Core IEEE754.BinarySingleNaN.
From Verif Require Import Base BaseLemmas Num NumLaws NormLaws Values Transformers Dimension Space SpaceSpec DimLemmas
  F64Arith F64Dim SampleLemmas Sampler SamplerSpec VdcLemmas PrimeLemmas HaltonLemmas WarpLemmas DesignLemmas GridLemmas.
Import ListNotations.
Open Scope nat_scope.
Open Scope list_scope.
Set Implicit Arguments.
Local Arguments Z.pow : simpl never.

(** Up to one unit in the last place above 1. *)
Definition unitF (z : float) : Prop := is_finite z = true /\ (0 <= B2R z <= 1 + / IZR (2 ^ 52))%R.
Lemma unit1 z : is_finite z = true -> (0 <= B2R z <= 1)%R -> unitF z.
Proof.
  intros F [A B]. split; [exact F|]. assert (0 < / IZR (2 ^ 52))%R by (apply Rinv_0_lt_compat, IZR_lt; now vm_compute). lra.
Qed.

Section Float.
  Context (L : libm) (Pow : pow_ok L).
  Notation O := (F64 L).

  Lemma unit_range_F z : unitF z -> unit_range (O:=O) z = true.
  Proof.
    intros [F [A B]]. unfold unit_range. apply andb_true_iff. cbn [nltb nadd nsub nofZ neps F64].
    destruct (fofZ_exact 0 ltac:(now vm_compute)) as [F0 E0]. destruct fone'_val as [F1 E1].
    assert (H0 : fleb (fofZ 0) z = true) by (apply fleb_finite; auto; now rewrite E0).
    assert (H1 : fleb z fone' = true) by (apply fleb_finite; auto; now rewrite E1).
    pose proof (F64_order L) as OL. split; apply negb_true_iff.
    - rewrite (le_nlt OL); [reflexivity|]. apply (ol_trans OL _ fone'); [exact H1|now vm_compute].
    - rewrite (le_nlt OL); [reflexivity|]. apply (ol_trans OL _ (fofZ 0)); [now vm_compute|exact H0].
  Qed.
  Lemma label_F m z : (0 <= m <= 2 ^ 50 - 1)%Z -> unitF z ->
    (0 <= ntoint O (nround O (nadd O (nmul O z (nsub O (nofZ O m) (nofZ O 0))) (nofZ O 0))) <= m)%Z.
  Proof.
    intros Hm [F B]. apply label_range; [lia|exact F|exact B].
  Qed.
  Lemma samplable_warpable d : samplable L d -> warpable (O:=O) unitF (2 ^ 50 - 1) d.
  Proof.
    intros [Hw Hd]. split; [exact Hw|]. destruct d as [r|i|c].
    - destruct Hd as [Hi Hb]. intros z [F _]. rewrite nisnan_F64. apply unwarp_num; auto using finite_not_nan.
    - destruct Hd as [Hi Hb]. intros z [F _]. rewrite nisnan_F64. apply unwarp_num; auto using finite_not_nan.
    - destruct Hd. lia.
  Qed.
  Lemma generatedF dims n h : dims <> [] -> Forall (samplable L) dims -> shaped unitF (length dims) n h ->
    exists pts, warp_design O dims (Ok h) = (dims, Ok pts) /\ length pts = n /\ Forall (in_space O dims) pts.
  Proof.
    intros Hne Hp (L1 & L2 & L3).
    destruct (@warp_design_ok float O (F64_order L) (F64_int L) (fun x => eq_refl) unitF (2 ^ 50 - 1) ltac:(lia) unit_range_F label_F dims h Hne) as (pts & E & L4 & F);
      [eapply Forall_impl; [|exact Hp]; apply samplable_warpable|exact L2|exact L3|].
    exists pts. split; [exact E|]. split; [congruence|exact F].
  Qed.

  (** ** Van der Corput *)
  Definition e51 : R := / IZR (2 ^ 51).
  Lemma e51_pos : (0 < e51)%R. Proof. apply Rinv_0_lt_compat, IZR_lt. now vm_compute. Qed.
  Lemma err_small x : (0 <= x <= 1)%R -> (0 <= rnd x <= x + e51 / 2)%R.
  Proof.
    intros [A B]. split; [rewrite <- rnd_0; now apply rnd_mono|].
    pose proof (rnd_err x) as H. rewrite (Rabs_pos_eq x A) in H. apply Rabs_le_inv in H.
    assert (E1 : (/ IZR (2 ^ 53) = e51 / 4)%R).
    { unfold e51. replace (IZR (2 ^ 53)) with (4 * IZR (2 ^ 51))%R by (rewrite <- mult_IZR; f_equal).
      field. apply not_0_IZR. easy. }
    assert (E2 : (/ IZR (2 ^ 100) <= e51 / 4)%R).
    { rewrite <- E1. apply Rinv_le_contravar; [apply IZR_lt; now vm_compute|apply IZR_le; now vm_compute]. }
    rewrite E1 in H. pose proof e51_pos. nra.
  Qed.

  Lemma vdc_from_F b : (2 <= b)%Z -> forall fuel idx T base out j,
    (0 <= idx)%Z -> (idx < b \/ idx < 2 ^ Z.of_nat (S fuel))%Z -> (b <= T)%Z -> (T <= 2 ^ 45)%Z -> (idx < b \/ T * idx <= 2 ^ 45)%Z ->
    (0 <= j)%Z -> (2 ^ (j + 1) <= T)%Z ->
    is_finite base = true -> B2R base = IZR T ->
    is_finite out = true -> (0 <= B2R out <= 1 - IZR b / IZR T + IZR j * e51)%R ->
    exists x, vdc_from O (S fuel) b idx base out = Ok x /\ unitF x.
  Proof.
    intro Hb. induction fuel as [|fuel IH]; intros idx T base out j Hi0 Hi HbT HT HTi Hj HjT Fb Eb Fo Bo.
    all: assert (P45 : (2 ^ 45 <= 2 ^ 53)%Z) by now vm_compute.
    all: assert (J : (j + 1 <= 45)%Z) by (destruct (Z_le_gt_dec (j + 1) 45); [assumption|]; assert (2 ^ 46 <= 2 ^ (j + 1))%Z by (apply Z.pow_le_mono_r; lia); assert (2 ^ 45 < 2 ^ 46)%Z by (now vm_compute); lia).
    all: pose proof (Z.mod_pos_bound idx b ltac:(lia)) as M.
    all: destruct (fofZ_exact (idx mod b) ltac:(lia)) as [Fd Ed].
    all: assert (TP : (0 < IZR T)%R) by (apply IZR_lt; lia).
    all: assert (TI : (0 < / IZR T)%R) by now apply Rinv_0_lt_compat.
    all: assert (Tt : (IZR T * / IZR T = 1)%R) by (apply Rinv_r; lra).
    all: assert (Md : (0 <= IZR (idx mod b) <= IZR b - 1)%R) by (rewrite <- minus_IZR; split; apply IZR_le; lia).
    all: assert (bT : (IZR b <= IZR T)%R) by now apply IZR_le.
    all: set (q := (IZR (idx mod b) / IZR T)%R).
    all: assert (Hq : (0 <= q <= IZR b / IZR T - / IZR T)%R) by (unfold q, Rdiv; split; nra).
    all: assert (HbT1 : (IZR b / IZR T <= 1)%R) by (unfold Rdiv; nra).
    all: pose proof e51_pos as Ep.
    all: assert (He : ((IZR j + 1) * e51 <= / IZR T)%R).
    1,3: unfold e51; apply Rmult_le_reg_r with (IZR T * IZR (2 ^ 51))%R; [apply Rmult_lt_0_compat; [lra|apply IZR_lt; now vm_compute]|];
         replace ((IZR j + 1) * / IZR (2 ^ 51) * (IZR T * IZR (2 ^ 51)))%R with ((IZR j + 1) * IZR T)%R by (field; apply not_0_IZR; easy);
         replace (/ IZR T * (IZR T * IZR (2 ^ 51)))%R with (IZR (2 ^ 51)) by (field; lra);
         rewrite <- plus_IZR, <- mult_IZR; apply IZR_le; transitivity (45 * 2 ^ 45)%Z; [nia|now vm_compute].
    all: assert (Q : is_finite (fdiv (fofZ (idx mod b)) base) = true /\ B2R (fdiv (fofZ (idx mod b)) base) = rnd q).
    1,3: destruct (@fdiv_ok (fofZ (idx mod b)) base Fd) as [A B]; [lra| |split; [exact A|rewrite B, Ed, Eb; reflexivity]];
         rewrite Ed, Eb; fold q; rewrite Rabs_pos_eq by lra; apply Rle_trans with (Rabs (IZR 1)); [rewrite Rabs_pos_eq; lra|apply big_Z; now vm_compute].
    all: destruct Q as [FQ EQ].
    all: assert (Rq : (0 <= rnd q <= q + e51 / 2)%R) by (apply err_small; lra).
    all: assert (Ssum : (0 <= B2R out + rnd q <= 1 - / IZR T + IZR j * e51 + e51 / 2)%R) by lra.
    all: assert (S1 : (B2R out + rnd q <= 1)%R) by nra.
    all: assert (A : is_finite (fadd out (fdiv (fofZ (idx mod b)) base)) = true /\
           B2R (fadd out (fdiv (fofZ (idx mod b)) base)) = rnd (B2R out + rnd q)).
    1,3: rewrite <- EQ; apply fadd_ok; auto; rewrite EQ, Rabs_pos_eq by lra; apply Rle_trans with (Rabs (IZR 1)); [rewrite Rabs_pos_eq; lra|apply big_Z; now vm_compute].
    all: destruct A as [FA EA].
    all: assert (RA : (0 <= rnd (B2R out + rnd q) <= B2R out + rnd q + e51 / 2)%R) by (apply err_small; lra).
    all: assert (R1 : (rnd (B2R out + rnd q) <= 1)%R) by (apply (@rnd_le_Z _ 1); [now vm_compute|exact S1]).
    all: cbn [vdc_from nadd ndiv nofZ nmul F64].
    - destruct (Z.ltb_spec 0 (idx / b)) as [K|K].
      + change (2 ^ Z.of_nat 1)%Z with 2%Z in Hi. rewrite Z.div_small in K; lia.
      + eexists. split; [reflexivity|]. apply unit1; [exact FA|]. rewrite EA. lra.
    - destruct (Z.ltb_spec 0 (idx / b)) as [K|K].
      + assert (Di : (b * (idx / b) <= idx)%Z) by (apply Z.mul_div_le; lia).
        assert (Hib : (b <= idx)%Z) by (destruct (Z_le_gt_dec b idx); [assumption|rewrite Z.div_small in K; lia]).
        destruct HTi as [HTi|HTi]; [lia|].
        assert (HT' : (0 <= T * b <= 2 ^ 45)%Z) by nia.
        destruct (fofZ_exact b ltac:(lia)) as [Fbb Ebb].
        assert (MM : is_finite (fmul base (fofZ b)) = true /\ B2R (fmul base (fofZ b)) = IZR (T * b)).
        { destruct (@fmul_ok base (fofZ b) Fb Fbb) as [A B]; rewrite Eb, Ebb, <- mult_IZR in *; [apply big_Z; lia|].
          split; [exact A|]. rewrite B. apply rnd_Z. lia. }
        destruct MM as [FM EM].
        apply (IH (idx / b)%Z (T * b)%Z _ _ (j + 1)%Z); auto; try lia.
        * right. apply (@div_fuel b ltac:(lia) (S fuel) idx). lia.
        * nia.
        * right. nia.
        * replace (j + 1 + 1)%Z with (Z.succ (j + 1)) by lia. rewrite Z.pow_succ_r by lia. nia.
        * rewrite EA. split; [lra|]. rewrite plus_IZR, mult_IZR.
          replace (IZR b / (IZR T * IZR b))%R with (/ IZR T)%R by (field; split; [apply not_0_IZR; lia|lra]). lra.
      + eexists. split; [reflexivity|]. apply unit1; [exact FA|]. rewrite EA. lra.
  Qed.

  (** Values of the sequence lie in [0, 1], all rounding included, as long as base times index is at most 2^45. *)
  Lemma vdc_unitF b n : (2 <= b <= 2 ^ 45)%Z -> (b * n <= 2 ^ 45)%Z -> exists x, vdc O b n = Ok x /\ unitF x.
  Proof.
    intros Hb Hn. assert (P45 : (2 ^ 45 <= 2 ^ 53)%Z) by now vm_compute.
    destruct (fofZ_exact b ltac:(lia)) as [Fb Eb]. destruct (fofZ_exact 0 ltac:(now vm_compute)) as [F0 E0].
    unfold vdc. replace (1 <? b)%Z with true by (symmetry; apply Z.ltb_lt; lia).
    assert (Z0 : (0 <= B2R (fofZ 0) <= 1 - IZR b / IZR b + IZR 0 * e51)%R).
    { rewrite E0. replace (IZR b / IZR b)%R with 1%R by (field; apply not_0_IZR; lia). lra. }
    destruct (Z_le_gt_dec 0 n) as [H0|H0].
    - apply vdc_from_F with (T := b) (j := 0%Z); auto; try lia. rewrite Nat2Z.inj_succ.
      destruct (Z.eq_dec n 0) as [->|NZ]; [cbn; lia|]. rewrite Z2Nat.id by apply Z.log2_nonneg.
      right. apply Z.log2_spec. lia.
    - (* a negative index: one round, as for its last digit *)
      assert (D : (n / b < 0)%Z) by (apply Z.div_lt_upper_bound; lia).
      replace (Z.log2 n) with 0%Z by (symmetry; apply Z.log2_nonpos; lia). cbn [Z.to_nat].
      pose proof (Z.mod_pos_bound n b ltac:(lia)) as M.
      destruct (@vdc_from_F b ltac:(lia) 0 (n mod b) b (fofZ b) (fofZ 0) 0) as (x & E & Hx); auto; try lia.
      exists x. split; [|exact Hx]. rewrite <- E. cbn [vdc_from]. rewrite Z.mod_mod, (Z.div_small (n mod b)) by lia.
      destruct (Z.ltb_spec 0 (n / b)); [lia|]. reflexivity.
  Qed.

  (** ** np.linspace *)
  Lemma lin_F n i : i <= n -> 0 < n -> (Z.of_nat n <= 2 ^ 45)%Z ->
    is_finite (lin O n i) = true /\ (0 <= B2R (lin O n i) <= 1)%R.
  Proof.
    intros Hi Hn Hb. assert (P : (2 ^ 45 <= 2 ^ 53)%Z) by now vm_compute. unfold lin.
    destruct (Nat.eqb_spec i n) as [->|Ne].
    - destruct (Nat.eqb_spec n 0); [lia|]. cbn [nofZ F64]. destruct (fofZ_exact 1 ltac:(now vm_compute)) as [F1 E1].
      rewrite E1. split; [exact F1|lra].
    - cbn [nofZ nmul ndiv F64]. destruct (fofZ_exact 1 ltac:(now vm_compute)) as [F1 E1].
      destruct (fofZ_exact (Z.of_nat n) ltac:(lia)) as [Fn En]. destruct (fofZ_exact (Z.of_nat i) ltac:(lia)) as [Fi Ei].
      assert (Pn : (1 <= IZR (Z.of_nat n))%R) by (apply IZR_le; lia).
      assert (In : (0 < / IZR (Z.of_nat n) <= 1)%R).
      { split; [apply Rinv_0_lt_compat; lra|]. rewrite <- Rinv_1. apply Rinv_le_contravar; lra. }
      assert (B1 : forall x, (0 <= x <= 1)%R -> (Rabs x <= big)%R).
      { intros x Hx. apply Rle_trans with (Rabs (IZR 1)); [rewrite !Rabs_pos_eq; lra|apply big_Z; now vm_compute]. }
      destruct (@fdiv_ok (fofZ 1) (fofZ (Z.of_nat n)) F1) as [Fd Ed]; rewrite ?E1, ?En in *; [lra|apply B1; unfold Rdiv; lra|].
      set (s := fdiv (fofZ 1) (fofZ (Z.of_nat n))) in *.
      assert (Rs : (0 <= B2R s <= / IZR (Z.of_nat n) * (1 + / IZR (2 ^ 53)) + / IZR (2 ^ 100))%R).
      { rewrite Ed. replace (1 / IZR (Z.of_nat n))%R with (/ IZR (Z.of_nat n))%R by (unfold Rdiv; ring). split.
        - rewrite <- rnd_0. apply rnd_mono. lra.
        - pose proof (rnd_err (/ IZR (Z.of_nat n))) as H. rewrite (Rabs_pos_eq (/ _)) in H by lra. apply Rabs_le_inv in H. lra. }
      assert (Hin : (0 <= IZR (Z.of_nat i) <= IZR (Z.of_nat n) - 1)%R) by (rewrite <- minus_IZR; split; apply IZR_le; lia).
      assert (Hn50 : (IZR (Z.of_nat n) <= IZR (2 ^ 45))%R) by now apply IZR_le.
      assert (M : (0 <= IZR (Z.of_nat i) * B2R s <= 1)%R).
      { split; [apply Rmult_le_pos; lra|].
        assert (E8 : (/ IZR (2 ^ 53) = / IZR (2 ^ 50) / 8)%R).
        { replace (IZR (2 ^ 53)) with (8 * IZR (2 ^ 50))%R by (rewrite <- mult_IZR; f_equal). field. apply not_0_IZR. easy. }
        assert (Eq : (/ IZR (2 ^ 100) = / IZR (2 ^ 50) * / IZR (2 ^ 50))%R).
        { replace (IZR (2 ^ 100)) with (IZR (2 ^ 50) * IZR (2 ^ 50))%R by (rewrite <- mult_IZR; f_equal). field. apply not_0_IZR. easy. }
        assert (T0 : (0 < / IZR (2 ^ 50))%R) by (apply Rinv_0_lt_compat, IZR_lt; now vm_compute).
        assert (T1 : (/ IZR (2 ^ 50) <= / IZR (Z.of_nat n) / 32)%R).
        { replace (IZR (2 ^ 50)) with (32 * IZR (2 ^ 45))%R by (rewrite <- mult_IZR; f_equal).
          rewrite Rinv_mult.
          assert (/ IZR (2 ^ 45) <= / IZR (Z.of_nat n))%R by (apply Rinv_le_contravar; lra). lra. }
        assert (T2 : (/ IZR (2 ^ 50) <= / 8)%R) by (apply Rinv_le_contravar; [lra|apply IZR_le; now vm_compute]).
        assert (Ee : (IZR (Z.of_nat n) * / IZR (Z.of_nat n) = 1)%R) by (apply Rinv_r; lra).
        rewrite E8, Eq in Rs. set (x := (/ IZR (Z.of_nat n))%R) in *. set (t := (/ IZR (2 ^ 50))%R) in *.
        set (m := IZR (Z.of_nat n)) in *. 
        assert (Bs : (B2R s <= x * (1 + t / 4))%R) by nra.
        apply Rle_trans with ((m - 1) * (x * (1 + t / 4)))%R; [apply Rmult_le_compat; lra|].
        replace ((m - 1) * (x * (1 + t / 4)))%R with ((m * x) * (1 + t / 4) - x * (1 + t / 4))%R by ring. rewrite Ee. nra. }
      destruct (@fmul_ok (fofZ (Z.of_nat i)) s Fi Fd) as [Fm Em]; rewrite ?Ei in *; [now apply B1|].
      split; [exact Fm|]. rewrite Em. split; [rewrite <- rnd_0; now apply rnd_mono|].
      apply (@rnd_le_Z _ 1); [now vm_compute|lra].
  Qed.
  Lemma lin_mono n k : k < n -> (Z.of_nat n <= 2 ^ 45)%Z -> (B2R (lin O n k) <= B2R (lin O n (S k)))%R.
  Proof.
    intros Hk Hb. assert (P : (2 ^ 45 <= 2 ^ 53)%Z) by now vm_compute.
    destruct (@lin_F n k ltac:(lia) ltac:(lia) Hb) as [F1 B1]. destruct (@lin_F n (S k) ltac:(lia) ltac:(lia) Hb) as [F2 B2].
    destruct (Nat.eqb_spec (S k) n) as [E|E].
    - replace (lin O n (S k)) with (fofZ 1); [destruct (fofZ_exact 1 ltac:(now vm_compute)) as [_ ->]; lra|].
      unfold lin. rewrite E, Nat.eqb_refl. destruct (Nat.eqb_spec n 0); [lia|reflexivity].
    - revert F1 B1 F2 B2. unfold lin. rewrite (proj2 (Nat.eqb_neq k n)), (proj2 (Nat.eqb_neq (S k) n)) by lia.
      cbn [nofZ nmul ndiv F64]. set (s := fdiv (fofZ 1) (fofZ (Z.of_nat n))).
      destruct (fofZ_exact (Z.of_nat k) ltac:(lia)) as [Fk Ek]. destruct (fofZ_exact (Z.of_nat (S k)) ltac:(lia)) as [Fk' Ek'].
      destruct (fofZ_exact (Z.of_nat n) ltac:(lia)) as [Fn En]. destruct (fofZ_exact 1 ltac:(now vm_compute)) as [F1 E1].
      intros _ _ _ _.
      assert (Pn : (1 <= IZR (Z.of_nat n))%R) by (apply IZR_le; lia).
      assert (In : (0 < / IZR (Z.of_nat n) <= 1)%R).
      { split; [apply Rinv_0_lt_compat; lra|]. rewrite <- Rinv_1. apply Rinv_le_contravar; lra. }
      destruct (@fdiv_ok (fofZ 1) (fofZ (Z.of_nat n)) F1) as [Fs Es]; rewrite ?E1, ?En in *; [lra| |].
      { unfold Rdiv. rewrite Rmult_1_l. apply Rle_trans with (Rabs (IZR 1)); [rewrite !Rabs_pos_eq; lra|apply big_Z; now vm_compute]. }
      fold s in Fs, Es.
      assert (S0 : (0 <= B2R s <= 1)%R).
      { rewrite Es. unfold Rdiv. rewrite Rmult_1_l. split; [rewrite <- rnd_0; apply rnd_mono; lra|apply (@rnd_le_Z _ 1); [now vm_compute|lra]]. }
      assert (Hs : forall i, (0 <= i <= 2 ^ 45)%Z -> (Rabs (IZR i * B2R s) <= big)%R).
      { intros i Hi. assert (0 <= IZR i)%R by (apply IZR_le; lia). apply Rle_trans with (Rabs (IZR i)); [|apply big_Z; lia].
        rewrite !Rabs_pos_eq; nra. }
      destruct (@fmul_ok (fofZ (Z.of_nat k)) s Fk Fs) as [_ M1]; [rewrite Ek; apply Hs; lia|].
      destruct (@fmul_ok (fofZ (Z.of_nat (S k))) s Fk' Fs) as [_ M2]; [rewrite Ek'; apply Hs; lia|].
      rewrite M1, M2, Ek, Ek'. apply rnd_mono. assert (IZR (Z.of_nat k) <= IZR (Z.of_nat (S k)))%R by (apply IZR_le; lia). nra.
  Qed.

  (** ** Halton and Hammersly *)
  (** The bases times the indices stay within 2^45. *)
  Definition in_reach (a : halton_args) (d n : nat) : Prop :=
    forall ps, halton_primes (h_primes a) d = Ok ps -> forall p q, In p ps -> In q ps ->
      (Z.of_nat p * (Z.of_nat n + Z.max 1 (Z.max (Z.of_nat q) (Z.max (h_min a) (h_max a)))) <= 2 ^ 45)%Z.
  Lemma fold_max_in ps : forall p, In (fold_left Nat.max ps p) (p :: ps).
  Proof.
    induction ps as [|q ps IH]; intro p; cbn [fold_left]; [now left|]. destruct (IH (Nat.max p q)) as [E|E]; [|now do 2 right].
    rewrite <- E. destruct (Nat.max_spec p q) as [[_ ->] | [_ ->]]; [right; now left|now left].
  Qed.

  Context {RNG : Type} (G : rng_ops float RNG) (Gok : rng_ok O G).

  Lemma halton_unitF a d n g : 0 < d -> bases_ok a d -> skips_ok a -> in_reach a d n ->
    exists h g', halton_design O G a d n g = (Ok h, g') /\ shaped unitF d n h.
  Proof.
    intros Hd Hb Hs Hr. destruct (halton_primes_ok _ _ Hb) as (ps & E & L1 & P). unfold halton_design. rewrite E.
    assert (Hps : ps <> []) by (intros ->; simpl in L1; lia).
    assert (X : exists s g', halton_skip G (h_min a) (h_max a) ps g = (Ok s, g') /\
       exists q, In q ps /\ (s <= Z.max (Z.of_nat q) (Z.max (h_min a) (h_max a)))%Z).
    { unfold halton_skip. destruct ps as [|p0 ps]; [contradiction|].
      destruct (Z.eqb_spec (h_min a) (h_max a)) as [Eq|NE].
      - do 2 eexists. split; [reflexivity|]. exists p0. split; [now left|lia].
      - destruct (Z.ltb_spec (h_min a) 0) as [L2|L2], (Z.ltb_spec (h_max a) 0) as [L3|L3]; cbn [andb orb].
        + do 2 eexists. split; [reflexivity|]. exists (fold_left Nat.max ps p0). split; [apply fold_max_in|lia].
        + destruct Hs; lia.
        + destruct Hs; lia.
        + destruct (Z.leb_spec (h_max a) (h_min a)) as [L4|L4]; [destruct Hs; lia|].
          destruct (rg_randint G g (h_min a) (h_max a)) as [s g'] eqn:Eg. do 2 eexists. split; [reflexivity|]. exists p0. split; [now left|].
          destruct Gok as (_ & HG & _). pose proof (HG g (h_min a) (h_max a) L4) as B. rewrite Eg in B. simpl in B. lia. }
    destruct X as (s & g' & E2 & q & Hq & Hsq). rewrite E2. cbn [bind].
    destruct (@shaped_rows float unitF nat (fun j => mapM (fun p => vdc O (Z.of_nat p) (Z.of_nat j + s)) ps) (seq 0 n) d n) as (h & Eh & Sh).
    - apply seq_length.
    - intros j Hj. apply in_seq in Hj.
      destruct (@mapM_all _ _ (fun p => vdc O (Z.of_nat p) (Z.of_nat j + s)) unitF ps) as (r & Er & Lr & Fr).
      + intros p Hp. pose proof (Hr ps E p q Hp Hq) as H. specialize (P p Hp).
        apply vdc_unitF; [nia|]. transitivity (Z.of_nat p * (Z.of_nat n + Z.max 1 (Z.max (Z.of_nat q) (Z.max (h_min a) (h_max a)))))%Z; [|exact H].
        apply Z.mul_le_mono_nonneg_l; lia.
      + exists r. split; [exact Er|]. split; [congruence|exact Fr].
    - exists h, g'. split; [|exact Sh]. f_equal. exact Eh.
  Qed.

  Lemma halton_float a dims n g : dims <> [] -> Forall (samplable L) dims -> bases_ok a (length dims) -> skips_ok a ->
    in_reach a (length dims) n ->
    exists pts, halton_generate O G a dims n g = (dims, Ok pts) /\ length pts = n /\ Forall (in_space O dims) pts.
  Proof.
    intros Hne Hp Hb Hs Hr. unfold halton_generate.
    destruct (@halton_unitF a (length dims) n g) as (h & g' & E & Sh); auto; [destruct dims; [contradiction|simpl; lia]|].
    rewrite E. cbn [fst]. now apply generatedF.
  Qed.

  Lemma hammersly_float a dims n g : dims <> [] -> Forall (samplable L) dims ->
    let d := if Nat.eqb (length dims) 1 then 1 else length dims - 1 in
    bases_ok a d -> skips_ok a -> in_reach a d n ->
    exists pts, hammersly_generate O G a dims n g = (dims, Ok pts) /\ length pts = n /\ Forall (in_space O dims) pts.
  Proof.
    intros Hne Hp d Hb Hs Hr. unfold hammersly_generate, hammersly_design. unfold d in *. clear d.
    assert (Hl : 0 < length dims) by (destruct dims; [contradiction|simpl; lia]).
    destruct (Nat.eqb_spec (length dims) 1) as [E1|E1].
    - destruct (@halton_unitF a 1 n g) as (h & g' & E & Sh); auto. rewrite E. cbn [fst]. rewrite <- E1 in Sh. now apply generatedF.
    - destruct (@halton_unitF a (length dims - 1) n g) as (h & g' & E & L1 & L2 & L3); auto; [lia|]. rewrite E. cbn [fst bind].
      assert (Hn : (Z.of_nat n <= 2 ^ 45)%Z).
      { destruct (halton_primes_ok _ _ Hb) as (ps & Ep & Lp & P). destruct ps as [|p ps]; [simpl in Lp; lia|].
        specialize (Hr _ Ep p p (or_introl eq_refl) (or_introl eq_refl)). specialize (P p (or_introl eq_refl)). nia. }
      apply generatedF; auto. rewrite linspace01_init. split; [|split].
      + rewrite map_length, combine_length, map_length, seq_length. lia.
      + apply Forall_map, Forall_forall. intros [r x] Hin. apply in_combine_l in Hin. cbn [fst snd]. rewrite app_length. simpl length.
        rewrite Forall_forall in L2. specialize (L2 r Hin). lia.
      + apply Forall_map, Forall_forall. intros [r x] Hin. cbn [fst snd]. apply Forall_app. split.
        * apply in_combine_l in Hin. rewrite Forall_forall in L3. now apply L3.
        * constructor; [|constructor]. apply in_combine_r in Hin. apply in_map_iff in Hin. destruct Hin as (i & <- & Hi).
          apply in_seq in Hi. destruct (@lin_F n i ltac:(lia) ltac:(lia) Hn). now apply unit1.
  Qed.

  (** ** Latin hypercube *)
  Lemma lhs_cell_F t n k u : t <> LOtherType -> k < n -> (Z.of_nat n <= 2 ^ 45)%Z -> DesignLemmas.unit_draw O u ->
    exists v, lhs_cell O t (lin O n k) (lin O n (S k)) u = Ok v /\ unitF v.
  Proof.
    intros Ht Hk Hn [U0 U1]. cbn [nleb nltb nofZ F64] in U0, U1.
    destruct (@lin_F n k ltac:(lia) ltac:(lia) Hn) as [Fl Bl]. destruct (@lin_F n (S k) ltac:(lia) ltac:(lia) Hn) as [Fh Bh].
    pose proof (@lin_mono n k Hk Hn) as M. set (lo := lin O n k) in *. set (hi := lin O n (S k)) in *. clearbody lo hi.
    assert (B1 : forall x, (0 <= x <= 1)%R -> (Rabs x <= big)%R).
    { intros x Hx. apply Rle_trans with (Rabs (IZR 1)); [rewrite !Rabs_pos_eq; lra|apply big_Z; now vm_compute]. }
    destruct (@fsub_ok hi lo Fh Fl) as [FD ED]; [apply B1; lra|].
    assert (E52 : (/ IZR (2 ^ 53) + / IZR (2 ^ 100) <= / IZR (2 ^ 52))%R).
    { replace (IZR (2 ^ 53)) with (2 * IZR (2 ^ 52))%R by (rewrite <- mult_IZR; f_equal).
      assert (P : (0 < IZR (2 ^ 52))%R) by (apply IZR_lt; now vm_compute).
      assert (/ IZR (2 ^ 100) <= / (2 * IZR (2 ^ 52)))%R.
      { apply Rinv_le_contravar; [lra|]. rewrite <- mult_IZR. apply IZR_le. now vm_compute. }
      replace (/ IZR (2 ^ 52))%R with (/ (2 * IZR (2 ^ 52)) + / (2 * IZR (2 ^ 52)))%R by (field; lra). lra. }
    assert (T0 : (0 < / IZR (2 ^ 53))%R) by (apply Rinv_0_lt_compat, IZR_lt; now vm_compute).
    assert (BD : (0 <= B2R (fsub hi lo))%R /\ (B2R (fsub hi lo) + B2R lo <= 1 + / IZR (2 ^ 52))%R /\ (B2R (fsub hi lo) <= 1)%R).
    { rewrite ED. split; [rewrite <- rnd_0; apply rnd_mono; lra|]. split; [|apply (@rnd_le_Z _ 1); [now vm_compute|lra]].
      pose proof (rnd_err (B2R hi - B2R lo)) as H. rewrite (Rabs_pos_eq (B2R hi - B2R lo)) in H by lra. apply Rabs_le_inv in H.
      assert (/ IZR (2 ^ 53) * (B2R hi - B2R lo) <= / IZR (2 ^ 53) * 1)%R by (apply Rmult_le_compat_l; lra). lra. }
    set (D := fsub hi lo) in *. destruct BD as (D0 & D1 & D2).
    assert (Fin : forall y, is_finite y = true -> (0 <= B2R y <= B2R D)%R -> unitF (fadd y lo)).
    { intros y Fy By. destruct (@fadd_ok y lo Fy Fl) as [Fa Ea].
      { apply Rle_trans with (Rabs (IZR 2)); [|apply big_Z; now vm_compute]. rewrite !Rabs_pos_eq; lra. }
      split; [exact Fa|]. rewrite Ea. split; [rewrite <- rnd_0; apply rnd_mono; lra|].
      destruct fone'_val as [_ E1']. rewrite <- E1'.
      assert (R1 : rnd (B2R fone') = B2R fone') by (apply round_generic; [apply valid_rnd_N|apply generic_format_B2R]).
      rewrite <- R1. apply rnd_mono. rewrite E1'. lra. }
    destruct t; [| |now elim Ht]; eexists; (split; [reflexivity|]); cbn [nadd nmul ndiv nsub nofZ F64]; apply Fin; fold D.
    - now apply F64Dim.unit_draw.
    - now apply F64Dim.unit_draw.
    - destruct (fofZ_exact 2 ltac:(now vm_compute)) as [F2 E2]. apply (@fdiv_ok D (fofZ 2) FD); rewrite E2; [lra|apply B1; lra].
    - destruct (fofZ_exact 2 ltac:(now vm_compute)) as [F2 E2].
      destruct (@fdiv_ok D (fofZ 2) FD) as [Fq Eq]; rewrite E2 in *; [lra|apply B1; lra|]. rewrite Eq.
      assert (RD : rnd (B2R D) = B2R D) by (apply round_generic; [apply valid_rnd_N|apply generic_format_B2R]).
      split; [rewrite <- rnd_0; apply rnd_mono; lra|]. rewrite <- RD at 2. apply rnd_mono. lra.
  Qed.

  (** Candidates can be compared: what pdist and corrcoef give for two or more points. *)
  Definition stats_okF (n : nat) (S : @lhs_stats float) : Prop :=
    forall h, length h = n -> (exists x, st_corr S h = Ok x) /\ (exists x, st_min S h = Ok x) /\ (exists x, st_ratio S h = Ok x).
  Lemma lhs_search_totalF S t c d n : t <> LOtherType -> (Z.of_nat n <= 2 ^ 45)%Z -> stats_okF n S -> c <> CNone -> c <> COther ->
    forall its best h0 g, (c = CMaximin -> best <> None) ->
    exists h g', lhs_search O G S t c d n its best h0 g = (Ok h, g').
  Proof.
    intros Ht Hn HS Hc Hc'. induction its as [|its IH]; intros best h0 g Hb; cbn [lhs_search]; [now exists h0, g|].
    destruct (@lhs_normalized_latin float RNG O G Gok t d n g (fun _ => unitF)) as (h1 & g1 & E1 & L1).
    { intros k u Hk Hu. now apply lhs_cell_F. }
    rewrite E1. destruct (HS h1 (proj1 L1)) as ((x1 & S1) & (x2 & S2) & (x3 & S3)).
    assert (X : exists o, lhs_better O S c best h1 = Ok o).
    { unfold lhs_better. destruct c; try (now elim Hc); try (now elim Hc').
      - rewrite S1. cbn [bind]. destruct x1 as [[m|] m2]; eexists; reflexivity.
      - rewrite S2. cbn [bind]. destruct best as [b|]; [|now elim (Hb eq_refl)]. eexists. reflexivity.
      - rewrite S3. cbn [bind]. eexists. reflexivity. }
    destruct X as (o & Eo). rewrite Eo. destruct o as [b|]; apply IH; [discriminate|exact Hb].
  Qed.
  Lemma lhs_design_totalF S t c its d n g : t <> LOtherType -> (Z.of_nat n <= 2 ^ 45)%Z -> (c = CNone \/ n = 1 \/ stats_okF n S /\ c <> COther) ->
    exists h g', lhs_design O G S t c its d n g = (Ok h, g').
  Proof.
    intros Ht Hn Hs. unfold lhs_design.
    destruct (@lhs_normalized_latin float RNG O G Gok t d n g (fun _ => unitF)) as (h1 & g1 & E1 & L1).
    { intros k u Hk Hu. now apply lhs_cell_F. }
    rewrite E1. destruct c; try (now exists h1, g1); (destruct (Nat.eqb_spec n 1); [now exists h1, g1|]);
      destruct Hs as [Hs|[Hs|[Hs Hc]]]; try discriminate Hs; try contradiction;
      try (apply lhs_search_totalF; auto; discriminate).
  Qed.
  Lemma lhs_float S t c its dims n g : dims <> [] -> Forall (samplable L) dims -> t <> LOtherType -> (Z.of_nat n <= 2 ^ 45)%Z ->
    (c = CNone \/ n = 1 \/ stats_okF n S /\ c <> COther) ->
    exists pts, lhs_generate O G S t c its dims n g = (dims, Ok pts) /\ length pts = n /\ Forall (in_space O dims) pts.
  Proof.
    intros Hne Hp Ht Hn Hs. unfold lhs_generate.
    destruct (@lhs_design_totalF S t c its (length dims) n g Ht Hn Hs) as (h & g' & E). rewrite E. cbn [fst].
    apply generatedF; [exact Hne|exact Hp|].
    apply latin_shaped with (cellok := fun (_ : nat) v => unitF v).
    - intros k v Hk Hv. exact Hv.
    - eapply lhs_design_latin; [exact Gok| |exact E]. intros k u Hk Hu. now apply lhs_cell_F.
  Qed.

  (** ** Grid *)
  Lemma ticks_F a c den v : (0 <= a)%Z -> (a + c <= den + 1)%Z -> (0 < den)%Z -> (den <= 2 ^ 53)%Z -> In v (ticks O a c den) -> unitF v.
  Proof.
    intros Ha Hc Hd Hb H. unfold ticks in H. apply in_map_iff in H. destruct H as (i & <- & Hi). apply in_seq in Hi.
    cbn [ndiv nofZ F64]. destruct (fofZ_exact den ltac:(lia)) as [Fd Ed]. destruct (fofZ_exact (a + Z.of_nat i) ltac:(lia)) as [Fz Ez].
    assert (P : (0 < IZR den)%R) by (apply IZR_lt; lia). assert (I := Rinv_0_lt_compat _ P).
    assert (Z1 : (0 <= IZR (a + Z.of_nat i) <= IZR den)%R) by (split; apply IZR_le; lia).
    assert (Q : (0 <= IZR (a + Z.of_nat i) / IZR den <= 1)%R).
    { unfold Rdiv. split; [nra|]. apply Rmult_le_reg_r with (IZR den); [exact P|]. rewrite Rmult_assoc, Rinv_l; lra. }
    destruct (@fdiv_ok (fofZ (a + Z.of_nat i)) (fofZ den) Fz) as [F E]; rewrite ?Ed, ?Ez in *; [lra| |].
    { apply Rle_trans with (Rabs (IZR 1)); [rewrite !Rabs_pos_eq; lra|apply big_Z; now vm_compute]. }
    apply unit1; [exact F|]. rewrite E. split; [rewrite <- rnd_0; apply rnd_mono; lra|apply (@rnd_le_Z _ 1); [now vm_compute|lra]].
  Qed.
  Lemma pow_ge q d : (1 <= q)%Z -> 1 <= d -> (q <= q ^ Z.of_nat d)%Z.
  Proof. intros Hq Hd. rewrite <- (Z.pow_1_r q) at 1. apply Z.pow_le_mono_r; lia. Qed.

  Lemma grid_float a dims n g : 2 <= length dims -> Forall (samplable L) dims ->
    valid_border (gr_border a) -> valid_border (gr_append a) -> grid_fits a (length dims) n ->
    exists pts, grid_generate O G a dims n g = (dims, Ok pts) /\ length pts = n /\ Forall (in_space O dims) pts.
  Proof.
    intros Hd Hp Hb Ha Hf. unfold grid_generate.
    destruct (@grid_design_spec float RNG O G Gok a (length dims) n g Hd Hb Ha Hf) as (h & E & L1 & I & _). rewrite E.
    apply generatedF; [destruct dims; [simpl in Hd; lia|discriminate]|exact Hp|]. split; [exact L1|].
    destruct Hf as [Hf1 Hf2]. unfold fits in Hf1, Hf2.
    assert (P53 : (10 ^ 9 + 1 <= 2 ^ 53)%Z) by now vm_compute.
    split; apply Forall_forall; intros row Hr; destruct (I row Hr) as [Lr Fr]; [exact Lr|].
    pose proof (first_order_pos a (Z.of_nat n)) as Hq.
    destruct Fr as [Fr|[Hm Fr]]; eapply Forall_impl; try exact Fr; intros v Hv; cbv beta in Hv.
    - assert (Q1 : (first_order a (Z.of_nat n) <= 10 ^ 9)%Z) by (pose proof (@pow_ge (first_order a (Z.of_nat n)) (length dims) ltac:(lia) ltac:(lia)); nia).
      unfold first_ticks in Hv. destruct (gr_border a) eqn:Eb; try (eapply ticks_F; [| | | |exact Hv]; lia).
      assert (2 <= first_order a (Z.of_nat n))%Z by (unfold first_order; rewrite Eb; lia). eapply ticks_F; [| | | |exact Hv]; lia.
    - specialize (Hf2 Hm). unfold more_ticks in Hv. unfold more_count in Hf2. set (q := more_order a (missing a (length dims) n)) in *.
      assert (Q : match gr_append a with BInclude | BOnly => (2 <= q)%Z | _ => (1 <= q)%Z end) by (unfold q, more_order; destruct (gr_append a); lia).
      assert (Q1 : (1 <= q)%Z) by (destruct (gr_append a); lia).
      assert (Q2 : (q <= 10 ^ 9)%Z).
      { pose proof (@pow_ge q (length dims) Q1 ltac:(lia)). destruct (gr_append a); nia. }
      destruct (fofZ_exact 0 ltac:(now vm_compute)) as [F0 E0]. destruct (fofZ_exact 1 ltac:(now vm_compute)) as [F1 E1].
      destruct (gr_append a).
      + eapply ticks_F; [| | | |exact Hv]; lia.
      + eapply ticks_F; [| | | |exact Hv]; lia.
      + destruct Hv as [<-|[<-|Hv]]; [apply unit1; [exact F0|cbn [nofZ F64]; rewrite E0; lra]|apply unit1; [exact F1|cbn [nofZ F64]; rewrite E1; lra]|].
        eapply ticks_F; [| | | |exact Hv]; lia.
      + eapply ticks_F; [| | | |exact Hv]; lia.
  Qed.
End Float.
