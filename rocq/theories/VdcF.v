(** The radical inverse in float64 (C44). *)
From Coq Require Import String List ZArith Bool Reals Lra Lia Permutation Psatz.
From Flocq Require Import Core.Core IEEE754.BinarySingleNaN.
From Verif Require Import Base BaseLemmas Num NumLaws Values Space SpaceSpec F64Arith F64Dim Sampler SamplerSpec VdcLemmas FloatDesign LatinF.
Import ListNotations.
Open Scope nat_scope.
Set Implicit Arguments.
Local Arguments Z.pow : simpl never.

Lemma near51 x : (0 <= x <= 1)%R -> (x - e51 / 2 <= rnd x <= x + e51 / 2)%R.
Proof.
  intros H. pose proof (rnd_near1 H) as N. assert (E : (e51 / 2 = / IZR (2 ^ 52))%R).
  { unfold e51. replace (IZR (2 ^ 52)) with (2 * IZR (2 ^ 51))%R by (rewrite <- mult_IZR; f_equal). field. apply not_0_IZR. easy. }
  rewrite E. exact N.
Qed.

Section Vdc.
  Context (L : libm).
  Notation O := (F64 L).
  Lemma vdc_from_near b : (2 <= b)%Z -> forall fuel idx T base out outR j,
    (0 <= idx)%Z -> (idx < b \/ idx < 2 ^ Z.of_nat (S fuel))%Z -> (b <= T)%Z -> (T <= 2 ^ 45)%Z -> (idx < b \/ T * idx <= 2 ^ 45)%Z ->
    (0 <= j)%Z -> (2 ^ (j + 1) <= T)%Z ->
    is_finite base = true -> B2R base = IZR T ->
    is_finite out = true -> (0 <= B2R out)%R -> (0 <= outR <= 1 - IZR b / IZR T)%R -> (outR - IZR j * e51 <= B2R out <= outR + IZR j * e51)%R ->
    exists x xr, vdc_from O (S fuel) b idx base out = Ok x /\ vdc_from Rops (S fuel) b idx (IZR T) outR = Ok xr /\ is_finite x = true /\ (0 <= B2R x < 1)%R /\
      (xr - 45 * e51 <= B2R x <= xr + 45 * e51)%R.
  Proof.
    intro Hb. induction fuel as [|fuel IH]; intros idx T base out outR j Hi0 Hi HbT HT HTi Hj HjT Fb Eb Fo Po BoR Bn.
    all: assert (P45 : (2 ^ 45 <= 2 ^ 53)%Z) by now vm_compute.
    all: assert (J : (j + 1 <= 45)%Z) by (destruct (Z_le_gt_dec (j + 1) 45); [assumption|]; assert (2 ^ 46 <= 2 ^ (j + 1))%Z by (apply Z.pow_le_mono_r; lia); assert (2 ^ 45 < 2 ^ 46)%Z by (now vm_compute); lia).
    all: assert (JR : (IZR j + 1 <= 45)%R) by (rewrite <- plus_IZR; now apply IZR_le).
    all: assert (J0 : (0 <= IZR j)%R) by now apply IZR_le.
    all: pose proof (Z.mod_pos_bound idx b ltac:(lia)) as M.
    all: destruct (fofZ_exact (idx mod b) ltac:(lia)) as [Fd Ed].
    all: assert (TP : (0 < IZR T)%R) by (apply IZR_lt; lia).
    all: assert (TI : (0 < / IZR T)%R) by now apply Rinv_0_lt_compat.
    all: assert (Tt : (IZR T * / IZR T = 1)%R) by (apply Rinv_r; lra).
    all: assert (Md : (0 <= IZR (idx mod b) <= IZR b - 1)%R) by (rewrite <- minus_IZR; split; apply IZR_le; lia).
    all: assert (bT : (IZR b <= IZR T)%R) by now apply IZR_le.
    all: set (q := (IZR (idx mod b) / IZR T)%R).
    all: assert (Hq : (0 <= q <= IZR b / IZR T - / IZR T)%R) by (unfold q, Rdiv; split; nra).
    all: assert (HbT1 : (IZR b / IZR T <= 1)%R) by (unfold Rdiv; nra).
    all: pose proof e51_pos as Ep.
    all: assert (He : ((IZR j + 1) * e51 < / IZR T)%R).
    1,3: unfold e51; apply Rmult_lt_reg_r with (IZR T * IZR (2 ^ 51))%R; [apply Rmult_lt_0_compat; [lra|apply IZR_lt; now vm_compute]|];
         replace ((IZR j + 1) * / IZR (2 ^ 51) * (IZR T * IZR (2 ^ 51)))%R with ((IZR j + 1) * IZR T)%R by (field; apply not_0_IZR; easy);
         replace (/ IZR T * (IZR T * IZR (2 ^ 51)))%R with (IZR (2 ^ 51)) by (field; lra);
         rewrite <- plus_IZR, <- mult_IZR; apply IZR_lt; apply Z.le_lt_trans with (45 * 2 ^ 45)%Z; [nia|now vm_compute].
    all: assert (Q : is_finite (fdiv (fofZ (idx mod b)) base) = true /\ B2R (fdiv (fofZ (idx mod b)) base) = rnd q).
    1,3: destruct (@fdiv_ok (fofZ (idx mod b)) base Fd) as [A B]; [lra| |split; [exact A|rewrite B, Ed, Eb; reflexivity]];
         rewrite Ed, Eb; fold q; rewrite Rabs_pos_eq by lra; apply Rle_trans with (Rabs (IZR 1)); [rewrite Rabs_pos_eq; lra|apply big_Z; now vm_compute].
    all: destruct Q as [FQ EQ].
    all: assert (Rq : (q - e51 / 2 <= rnd q <= q + e51 / 2)%R) by (apply near51; lra).
    all: assert (Rq0 : (0 <= rnd q)%R) by (rewrite <- rnd_0; apply rnd_mono; lra).
    all: assert (Ssum : (0 <= B2R out + rnd q <= 1 - / IZR T + IZR j * e51 + e51 / 2)%R) by lra.
    all: assert (S1 : (B2R out + rnd q <= 1)%R) by nra.
    all: assert (A : is_finite (fadd out (fdiv (fofZ (idx mod b)) base)) = true /\
           B2R (fadd out (fdiv (fofZ (idx mod b)) base)) = rnd (B2R out + rnd q)).
    1,3: rewrite <- EQ; apply fadd_ok; auto; rewrite EQ, Rabs_pos_eq by lra; apply Rle_trans with (Rabs (IZR 1)); [rewrite Rabs_pos_eq; lra|apply big_Z; now vm_compute].
    all: destruct A as [FA EA].
    all: assert (RA : (B2R out + rnd q - e51 / 2 <= rnd (B2R out + rnd q) <= B2R out + rnd q + e51 / 2)%R) by (apply near51; lra).
    all: assert (RA0 : (0 <= rnd (B2R out + rnd q))%R) by (rewrite <- rnd_0; apply rnd_mono; lra).
    all: assert (R1 : (rnd (B2R out + rnd q) < 1)%R) by lra.
    all: assert (JE : ((IZR j + 1) * e51 <= 45 * e51)%R) by (apply Rmult_le_compat_r; lra).
    all: cbn [vdc_from nadd ndiv nofZ nmul F64 Rops]; fold q.
    - destruct (Z.ltb_spec 0 (idx / b)) as [K|K].
      + change (2 ^ Z.of_nat 1)%Z with 2%Z in Hi. rewrite Z.div_small in K; lia.
      + do 2 eexists. split; [reflexivity|]. split; [reflexivity|]. split; [exact FA|]. rewrite EA. split; lra.
    - destruct (Z.ltb_spec 0 (idx / b)) as [K|K].
      + assert (Di : (b * (idx / b) <= idx)%Z) by (apply Z.mul_div_le; lia).
        assert (Hib : (b <= idx)%Z) by (destruct (Z_le_gt_dec b idx); [assumption|rewrite Z.div_small in K; lia]).
        destruct HTi as [HTi|HTi]; [lia|].
        assert (HT' : (0 <= T * b <= 2 ^ 45)%Z) by nia.
        destruct (fofZ_exact b ltac:(lia)) as [Fbb Ebb].
        assert (MM : is_finite (fmul base (fofZ b)) = true /\ B2R (fmul base (fofZ b)) = IZR (T * b)).
        { destruct (@fmul_ok base (fofZ b) Fb Fbb) as [A B]; rewrite Eb, Ebb, <- mult_IZR in *; [apply big_Z; lia|].
          split; [exact A|]. rewrite B. apply rnd_Z. lia. }
        destruct MM as [FM EM]. rewrite <- mult_IZR.
        apply (IH (idx / b)%Z (T * b)%Z _ _ (outR + q)%R (j + 1)%Z); auto; try lia.
        * right. apply (@div_fuel b ltac:(lia) (S fuel) idx). lia.
        * nia.
        * right. nia.
        * replace (j + 1 + 1)%Z with (Z.succ (j + 1)) by lia. rewrite Z.pow_succ_r by lia. nia.
        * rewrite EA. lra.
        * rewrite mult_IZR. replace (IZR b / (IZR T * IZR b))%R with (/ IZR T)%R by (field; split; [apply not_0_IZR; lia|lra]). lra.
        * rewrite EA, plus_IZR. lra.
      + do 2 eexists. split; [reflexivity|]. split; [reflexivity|]. split; [exact FA|]. rewrite EA. split; lra.
  Qed.

  Lemma vdc_near b n : (2 <= b <= 2 ^ 45)%Z -> (0 <= n)%Z -> (b * n <= 2 ^ 45)%Z ->
    exists x xr, vdc O b n = Ok x /\ vdc Rops b n = Ok xr /\ is_finite x = true /\ (0 <= B2R x < 1)%R /\ (xr - 45 * e51 <= B2R x <= xr + 45 * e51)%R.
  Proof.
    intros Hb H0 Hn. assert (P45 : (2 ^ 45 <= 2 ^ 53)%Z) by now vm_compute.
    destruct (fofZ_exact b ltac:(lia)) as [Fb Eb]. destruct (fofZ_exact 0 ltac:(now vm_compute)) as [F0 E0].
    unfold vdc. replace (1 <? b)%Z with true by (symmetry; apply Z.ltb_lt; lia).
    apply vdc_from_near with (T := b) (j := 0%Z); auto; try lia.
    - rewrite Nat2Z.inj_succ. destruct (Z.eq_dec n 0) as [->|NZ]; [cbn; lia|]. rewrite Z2Nat.id by apply Z.log2_nonneg. right. apply Z.log2_spec. lia.
    - change (0 <= B2R (fofZ 0))%R. rewrite E0. lra.
    - cbn. replace (IZR b / IZR b)%R with 1%R by (field; apply not_0_IZR; lia). lra.
    - change (0 - IZR 0 * e51 <= B2R (fofZ 0) <= 0 + IZR 0 * e51)%R. rewrite E0. pose proof e51_pos. lra.
  Qed.
End Vdc.
