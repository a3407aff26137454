(** C08 in float64. *)
From Coq Require Import String List ZArith Bool Lia Reals Lra Psatz.
From Flocq Require Import Core.Core Plus_error Relative IEEE754.BinarySingleNaN.
From Verif Require Import Base BaseLemmas Num Values Transformers Dimension Space SpaceSpec NumLaws F64Arith MetricSpec MetricLemmas.
Import ListNotations.
Open Scope R_scope.

Notation u := ulp2.
Lemma u_pos : 0 < u < 1.
Proof. unfold ulp2. split; [apply Rinv_0_lt_compat, IZR_lt; reflexivity|]. rewrite <- Rinv_1. apply Rinv_lt_contravar; [|apply IZR_lt; reflexivity]. rewrite Rmult_1_l. apply IZR_lt. reflexivity. Qed.
Lemma plus_rel x y : generic_format radix2 (SpecFloat.fexp 53 1024) x -> generic_format radix2 (SpecFloat.fexp 53 1024) y ->
  exists e, Rabs e <= u /\ rnd (x + y) = (x + y) * (1 + e).
Proof.
  intros Hx Hy. destruct (@FLT_plus_error_N_ex radix2 (-1074) 53 eq_refl (fun z => negb (Z.even z)) x y Hx Hy) as (e & He & E). exists e. split; [|exact E].
  apply Rle_trans with (1 := He). assert (U : u_ro radix2 53 = u).
  { unfold u_ro, ulp2. cbn [Z.opp Z.add bpow radix_val radix2 Z.pow_pos]. change (- (53) + 1)%Z with (-52)%Z. cbn [bpow]. change (Z.pow_pos radix2 52) with 4503599627370496%Z. change (2 ^ 53)%Z with 9007199254740992%Z.
    change 9007199254740992%Z with (2 * 4503599627370496)%Z. rewrite mult_IZR. rewrite Rinv_mult_distr; [reflexivity|lra|]. apply IZR_neq. discriminate. }
  rewrite U. pose proof u_pos. apply Rmult_le_reg_r with (1 + u); [lra|]. unfold Rdiv. rewrite Rmult_assoc, Rinv_l by lra. nra.
Qed.

Definition pos (x : float) : Prop := is_nan x = false /\ 0 <= fE x.
Lemma fE0 : fE (fofZ 0) = 0. Proof. rewrite fE_fofZ; [reflexivity|now vm_compute]. Qed.
Lemma pos_leb x : fleb (fofZ 0) x = true <-> pos x.
Proof. rewrite fleb_spec, fE0. unfold pos. pose proof (fofZ_not_nan 0). tauto. Qed.
Lemma zero_leb x : is_nan x = false -> (fleb x (fofZ 0) = true <-> fE x <= 0).
Proof. intro H. rewrite fleb_spec, fE0. pose proof (fofZ_not_nan 0). tauto. Qed.

Lemma overflow_inf (x : float) s : B2SF x = binary_overflow 53 1024 mode_NE s -> x = B754_infinity s.
Proof. cbn. destruct x as [s0|s0| |s0 m e H]; cbn; intro E; try discriminate. now injection E as ->. Qed.

(** |x - y| *)
Lemma abs_sub x y : is_finite x = true -> is_finite y = true ->
  fabs (fsub x y) = fabs (fsub y x) /\ pos (fabs (fsub x y)) /\ (fE (fabs (fsub x y)) <= 0 <-> B2R x = B2R y) /\
  (is_finite (fabs (fsub x y)) = true -> (1 - u) * Rabs (B2R x - B2R y) <= B2R (fabs (fsub x y)) <= (1 + u) * Rabs (B2R x - B2R y)).
Proof.
  intros Hx Hy. pose proof (Bminus_correct 53 1024 prec64 emax64 mode_NE x y Hx Hy) as H. pose proof (Bminus_correct 53 1024 prec64 emax64 mode_NE y x Hy Hx) as K.
  change (round_mode mode_NE) with ZnearestE in H, K. fold (fsub x y) in H. fold (fsub y x) in K.
  assert (O : rnd (B2R y - B2R x) = - rnd (B2R x - B2R y)) by (rewrite <- rnd_opp; f_equal; lra). rewrite O, Rabs_Ropp in K.
  destruct (plus_rel (B2R x) (- B2R y)) as (e & He & E); [apply generic_format_B2R|apply generic_format_opp, generic_format_B2R|]. fold (B2R x - B2R y) in E.
  pose proof u_pos. assert (He' : - u <= e <= u) by (apply Rabs_le_inv; exact He).
  assert (A : Rabs (rnd (B2R x - B2R y)) = Rabs (B2R x - B2R y) * (1 + e)) by (rewrite E, Rabs_mult, (Rabs_pos_eq (1 + e)); lra).
  destruct (Rlt_bool _ _) eqn:Eb in H; rewrite Eb in K.
  - destruct H as (H1 & H2 & _). destruct K as (K1 & K2 & _).
    assert (F : is_finite (fabs (fsub x y)) = true) by (unfold fabs; now rewrite is_finite_Babs).
    assert (B : B2R (fabs (fsub x y)) = Rabs (B2R x - B2R y) * (1 + e)) by (unfold fabs; rewrite B2R_Babs, H1; exact A).
    pose proof (Rabs_pos (B2R x - B2R y)). split; [|split; [|split]].
    + apply B2R_Bsign_inj; [exact F|unfold fabs; now rewrite is_finite_Babs| |].
      * unfold fabs. rewrite !B2R_Babs, H1, K1, Rabs_Ropp. reflexivity.
      * unfold fabs. destruct (fsub y x); try easy; destruct (fsub x y); easy.
    + split; [destruct (fabs (fsub x y)); easy|]. rewrite fE_finite, B by exact F. apply Rmult_le_pos; lra.
    + rewrite fE_finite, B by exact F. split.
      * intro Z. assert (Z' : Rabs (B2R x - B2R y) = 0) by nra. destruct (Req_dec (B2R x - B2R y) 0) as [D|D]; [lra|]. apply Rabs_no_R0 in D. contradiction.
      * intros ->. rewrite Rminus_diag_eq, Rabs_R0 by reflexivity. lra.
    + intros _. rewrite B. split; nra.
  - destruct H as [H _]. destruct K as [K _]. apply overflow_inf in H. apply overflow_inf in K. rewrite H, K. cbn [fabs Babs].
    split; [reflexivity|]. split; [split; [reflexivity|apply bpow_ge_0]|]. split; [|discriminate].
    split; [intro Z; pose proof (bpow_gt_0 radix2 1024); unfold fE in Z; lra|]. intros D. exfalso. rewrite D in Eb. rewrite Rminus_diag_eq, rnd_0, Rabs_R0 in Eb by reflexivity.
    rewrite Rlt_bool_true in Eb; [discriminate|apply bpow_gt_0].
Qed.
Lemma pos_sign (x : float) : pos x -> is_finite x = true -> Bsign x = true -> B2R x = 0.
Proof.
  intros [_ P] F S. rewrite fE_finite in P by exact F. destruct x as [s| | |s m e H]; try discriminate; [reflexivity|]. cbn in S. subst s.
  exfalso. revert P. cbn -[F2R bpow]. pose proof (F2R_lt_0 radix2 (Float radix2 (Z.neg m) e) eq_refl). lra.
Qed.
Lemma add_pos x y : pos x -> pos y ->
  pos (fadd x y) /\ (fE (fadd x y) <= 0 <-> fE x <= 0 /\ fE y <= 0) /\
  (is_finite (fadd x y) = true -> is_finite x = true /\ is_finite y = true /\ (1 - u) * (B2R x + B2R y) <= B2R (fadd x y) <= (1 + u) * (B2R x + B2R y)).
Proof.
  intros Px Py. assert (I : forall z : float, pos z -> is_finite z = false -> z = B754_infinity false).
  { intros z [N P] F. destruct z as [|s| |]; try discriminate. destruct s; [|reflexivity]. cbn in P. pose proof (bpow_gt_0 radix2 1024). lra. }
  pose proof (bpow_gt_0 radix2 1024) as BP.
  destruct (is_finite x) eqn:Fx.
  - destruct (is_finite y) eqn:Fy.
    + pose proof (Bplus_correct 53 1024 prec64 emax64 mode_NE x y Fx Fy) as H. change (round_mode mode_NE) with ZnearestE in H. fold (fadd x y) in H.
      pose proof Px as [_ Nx]. pose proof Py as [_ Ny]. rewrite (fE_finite x) in * by exact Fx. rewrite (fE_finite y) in * by exact Fy.
      destruct (plus_rel (B2R x) (B2R y)) as (e & He & E); [apply generic_format_B2R..|]. pose proof u_pos. assert (He' : - u <= e <= u) by (apply Rabs_le_inv; exact He).
      destruct (Rlt_bool _ _) eqn:Eb in H.
      * destruct H as (H1 & H2 & _). rewrite E in H1. rewrite (fE_finite _ H2), H1. split; [split; [destruct (fadd x y); easy|]|split].
        -- rewrite (fE_finite _ H2), H1. apply Rmult_le_pos; lra.
        -- split; [intro Z|intros [Z1 Z2]; replace (B2R x) with 0 by lra; replace (B2R y) with 0 by lra; lra].
           assert (B2R x + B2R y = 0) by nra. lra.
        -- intros _. split; [reflexivity|]. split; [reflexivity|]. split; nra.
      * destruct H as [H S]. apply overflow_inf in H. assert (Sx : Bsign x = false).
        { destruct (Bsign x) eqn:Sx; [|reflexivity]. exfalso. rewrite (pos_sign x Px Fx Sx), (pos_sign y Py Fy (eq_sym S)) in Eb. rewrite Rplus_0_l, rnd_0, Rabs_R0, Rlt_bool_true in Eb; [discriminate|exact BP]. }
        rewrite Sx in H. rewrite H. split; [split; [reflexivity|cbn; lra]|]. split; [|discriminate]. cbn [fE]. split; [lra|]. intros [Z1 Z2]. exfalso.
        replace (B2R x) with 0 in Eb by lra. replace (B2R y) with 0 in Eb by lra. rewrite Rplus_0_l, rnd_0, Rabs_R0, Rlt_bool_true in Eb; [discriminate|exact BP].
    + rewrite (I y Py Fy). assert (E : fadd x (B754_infinity false) = B754_infinity false) by (destruct x; easy). rewrite E.
      split; [split; [reflexivity|cbn; lra]|]. split; [|discriminate]. cbn [fE]. lra.
  - rewrite (I x Px Fx). assert (E : fadd (B754_infinity false) y = B754_infinity false).
    { destruct Py as [Ny Py]. destruct y as [|s| |]; try easy. destruct s; [|reflexivity]. cbn in Py. lra. }
    rewrite E. split; [split; [reflexivity|cbn; lra]|]. split; [|discriminate]. cbn [fE]. lra.
Qed.

Section FloatMetric.
  Context (L : libm).
  Notation O := (F64 L).
  Lemma in_contains_f d v : wf_dim O d -> in_dim O d v -> contains O d v = Ok true.
  Proof.
    intros Hw H. apply contains_accepts. inversion H as [r x H1 H2|i z H1|c v' H1]; subst.
    - econstructor; simpl; eauto.
    - now constructor.
    - econstructor; [exact H1|]. destruct Hw as [_ [_ [Hr _]]]. rewrite Forall_forall in Hr. auto.
  Qed.
  Lemma py_eqb_sym v w : py_eqb O v w = py_eqb O w v.
  Proof.
    destruct v, w; cbn -[neqb fofZ]; try reflexivity; try (unfold neqb; apply andb_comm); try apply Z.eqb_sym; try apply String.eqb_sym.
    now destruct b, b0.
  Qed.
  Lemma ofZ_gap x y : (Z.abs x <= 2 ^ 53)%Z -> (Z.abs y <= 2 ^ 53)%Z -> let g := fofZ (Z.abs (x - y)) in
    pos g /\ (fE g <= 0 <-> x = y) /\ is_finite g = true /\ (1 - u) * IZR (Z.abs (x - y)) <= B2R g <= (1 + u) * IZR (Z.abs (x - y)).
  Proof.
    intros Hx Hy g. assert (N : is_nan g = false) by apply fofZ_not_nan. assert (Hz : (Z.abs (x - y) <= 2 ^ 54)%Z) by lia.
    assert (P : 0 <= fE g) by (rewrite <- fE0; apply fofZ_mono; lia).
    assert (F : is_finite g = true /\ B2R g = rnd (IZR (Z.abs (x - y)))).
    { pose proof (binary_normalize_correct 53 1024 prec64 emax64 mode_NE (Z.abs (x - y)) 0 false) as H. change (round_mode mode_NE) with ZnearestE in H. fold (fofZ (Z.abs (x - y))) in H. fold g in H.
      unfold F2R in H. cbn [Fnum Fexp bpow] in H. rewrite Rmult_1_r in H. rewrite no_ovf in H; [tauto|].
      rewrite <- abs_IZR. unfold big. change (bpow radix2 1023) with (IZR (2 ^ 1023)). apply IZR_le. apply Z.le_trans with (2 ^ 54)%Z; [lia|]. now vm_compute. }
    destruct F as [F B]. split; [now split|]. split.
    - split; [|intros ->; unfold g; rewrite Z.sub_diag, Z.abs_0, fE0; lra]. intro H. destruct (Z.eq_dec x y) as [E|E]; [exact E|exfalso].
      assert (fE (fofZ 1) <= fE g) by (apply fofZ_mono; lia). rewrite fE_fofZ in H0; [lra|now vm_compute].
    - split; [exact F|]. rewrite B.
      assert (exists e, Rabs e <= u /\ rnd (IZR (Z.abs (x - y))) = IZR (Z.abs (x - y)) * (1 + e)) as (e & He & E).
      { destruct (Z.le_ge_cases y x).
        - rewrite Z.abs_eq by lia. rewrite minus_IZR. apply (plus_rel (IZR x) (- IZR y)); [now apply generic_Z|now apply generic_format_opp, generic_Z].
        - rewrite Z.abs_neq by lia. replace (- (x - y))%Z with (y - x)%Z by lia. rewrite minus_IZR. apply (plus_rel (IZR y) (- IZR x)); [now apply generic_Z|now apply generic_format_opp, generic_Z]. }
      rewrite E. assert (He' : - u <= e <= u) by (apply Rabs_le_inv; exact He). assert (0 <= IZR (Z.abs (x - y))) by (apply IZR_le; lia). split; nra.
  Qed.
  Definition gap_facts (d : dim float) v w (g : float) (e : R) : Prop :=
    dim_distance O d v w = Ok g /\ dim_distance O d w v = Ok g /\ pos g /\ (fE g <= 0 <-> same v w) /\ apart d v w e /\
    (is_finite g = true -> (1 - u) * e <= B2R g <= (1 + u) * e).
  Lemma gap_f d v w : wf_dim O d -> bounded d -> in_dim O d v -> in_dim O d w -> exists g e, gap_facts d v w g e.
  Proof.
    intros Hw Hf Hv Hw'. pose proof (in_contains_f _ _ Hw Hv) as Ca. pose proof (in_contains_f _ _ Hw Hw') as Cb.
    unfold gap_facts, dim_distance. rewrite Ca, Cb. cbn [bind]. pose proof u_pos.
    inversion Hv as [r x H1 H2|i z H1|c v' H1]; subst; inversion Hw' as [r' x' H1' H2'|i' z' H1'|c' v'' H1']; subst.
    - destruct Hf as [Fl Fh]. assert (Fin : forall y, fleb (r_low r) y = true -> fleb y (r_high r) = true -> is_finite y = true).
      { intros y A B. apply fleb_spec in A. apply fleb_spec in B. destruct A as (_ & Ny & A). destruct B as (_ & _ & B).
        pose proof (fE_abs_finite _ Fl) as Al. pose proof (fE_abs_finite _ Fh) as Ah. apply Rabs_def2 in Al. apply Rabs_def2 in Ah.
        destruct y as [|s| |]; try easy. cbn [fE] in A, B. destruct s; lra. }
      assert (Fx := Fin x H1 H2). assert (Fx' := Fin x' H1' H2'). destruct (abs_sub x x' Fx Fx') as (A1 & A2 & A3 & A4).
      exists (fabs (fsub x x')), (Rabs (B2R x - B2R x')). cbn [to_num nabs nsub F64]. split; [reflexivity|]. split; [now rewrite A1|]. split; [exact A2|].
      split; [|split; [constructor|exact A4]]. rewrite A3. cbn [same]. rewrite !fleb_spec, !fE_finite by assumption. destruct x, x'; try discriminate; cbn [is_nan]; intuition lra.
    - destruct Hw as (_ & Bl & Bh & _). destruct (ofZ_gap z z' ltac:(lia) ltac:(lia)) as (A1 & A2 & A3 & A4).
      exists (fofZ (Z.abs (z - z'))), (IZR (Z.abs (z - z'))). cbn [nofZ F64]. split; [reflexivity|]. split; [do 2 f_equal; lia|]. split; [exact A1|].
      split; [|split; [constructor|intros _; exact A4]]. rewrite A2. cbn [same]. split; congruence.
    - destruct Hw as [_ [_ [Hr Hp]]]. rewrite Forall_forall in Hr. destruct (fop_in Hp _ _ H1 H1') as [->|Hd].
      + exists (fofZ 0), 0. rewrite Hr by assumption. cbn [nofZ F64]. split; [reflexivity|]. split; [reflexivity|]. split; [split; [apply fofZ_not_nan|rewrite fE0; lra]|].
        split; [|split; [constructor|]].
        * rewrite fE0. split; [intros _|lra]. specialize (Hr _ H1). destruct w; try reflexivity. cbn -[fofZ] in Hr. unfold neqb in Hr. apply andb_true_iff in Hr. exact Hr.
        * intros _. destruct (fofZ_exact 0) as [_ ->]; [now vm_compute|]. lra.
      + assert (Q : py_eqb O v w = false) by (destruct Hd as [Hd|Hd]; [|rewrite py_eqb_sym]; exact Hd). assert (Q' : py_eqb O w v = false) by now rewrite py_eqb_sym.
        assert (D : v <> w) by (intros ->; rewrite Hr in Q by assumption; discriminate).
        exists (fofZ 1), 1. rewrite Q, Q'. cbn [nofZ F64]. split; [reflexivity|]. split; [reflexivity|]. destruct (fofZ_exact 1) as [F1 B1]; [now vm_compute|].
        assert (E1 : fE (fofZ 1) = 1) by (rewrite fE_finite, B1 by exact F1; reflexivity). split; [split; [apply fofZ_not_nan|rewrite E1; lra]|]. split; [|split; [now constructor|intros _; rewrite B1; lra]].
        rewrite E1. split; [lra|]. intro S. exfalso. destruct v, w; cbn [same] in S; try contradiction. cbn -[fofZ] in Q. unfold neqb in Q. destruct S as [S1 S2]. cbn [nleb F64] in Q. rewrite S1, S2 in Q. discriminate.
  Qed.
  Lemma distance_f dims : forall a b acc, Forall (wf_dim O) dims -> Forall bounded dims -> in_space O dims a -> in_space O dims b -> pos acc ->
    exists s e, distance_from O acc dims a b = Ok s /\ distance_from O acc dims b a = Ok s /\ exactly_apart dims a b e /\ 0 <= e /\ pos s /\
      (fE s <= 0 <-> fE acc <= 0 /\ Forall2 same a b) /\
      (is_finite s = true -> is_finite acc = true /\ (1 - u) ^ length dims * (B2R acc + (1 - u) * e) <= B2R s <= (1 + u) ^ length dims * (B2R acc + (1 + u) * e)).
  Proof.
    induction dims as [|d dims IH]; intros a b acc Hw Hf Ha Hb Hp; inversion Ha as [|d1 v l1 a' Hv Ha']; subst; inversion Hb as [|d2 w l2 b' Hv' Hb']; subst.
    - exists acc, 0. cbn [distance_from length pow]. split; [reflexivity|]. split; [reflexivity|]. split; [constructor|]. split; [lra|]. split; [exact Hp|].
      split; [split; [intro; split; [assumption|constructor]|tauto]|]. intro. split; [assumption|lra].
    - inversion Hw as [|? ? W1 W2]; subst. inversion Hf as [|? ? F1 F2]; subst. destruct (gap_f d v w W1 F1 Hv Hv') as (g & e & G1 & G2 & G3 & G4 & G5 & G6).
      destruct (add_pos acc g Hp G3) as (A1 & A2 & A3).
      destruct (IH a' b' (fadd acc g) W2 F2 Ha' Hb' A1) as (s & t & I1 & I2 & I3 & I4 & I5 & I6 & I7).
      assert (E0 : 0 <= e) by (inversion G5; subst; try lra; [apply Rabs_pos|apply IZR_le; lia]).
      exists s, (e + t). cbn [distance_from]. rewrite G1, G2. cbn [bind nadd F64]. split; [exact I1|]. split; [exact I2|]. split; [now constructor|]. split; [lra|]. split; [exact I5|]. split.
      + rewrite I6, A2, G4. split; [intros [[? ?] ?]; split; [assumption|now constructor]|intros [? H]; inversion H; subst; tauto].
      + intro Fs. destruct (I7 Fs) as [Fa B]. destruct (A3 Fa) as (C1 & C2 & C3). specialize (G6 C2). split; [exact C1|]. cbn [length pow]. pose proof u_pos as U.
        assert (P1 : 0 <= (1 - u) ^ length dims) by (apply pow_le; lra). assert (P2 : 0 <= (1 + u) ^ length dims) by (apply pow_le; lra).
        assert (Acc : 0 <= B2R acc) by (destruct Hp as [_ Hp]; rewrite fE_finite in Hp by exact C1; exact Hp).
        split.
        * apply Rle_trans with (2 := proj1 B). rewrite (Rmult_comm (1 - u)), Rmult_assoc. apply Rmult_le_compat_l; [exact P1|].
          apply Rle_trans with ((1 - u) * (B2R acc + B2R g) + (1 - u) * t); [|lra]. rewrite <- Rmult_plus_distr_l. apply Rmult_le_compat_l; [lra|]. assert (0 <= u * t) by (apply Rmult_le_pos; lra). lra.
        * apply Rle_trans with (1 := proj2 B). rewrite (Rmult_comm (1 + u) (_ ^ _)), Rmult_assoc. apply Rmult_le_compat_l; [exact P2|].
          apply Rle_trans with ((1 + u) * (B2R acc + B2R g) + (1 + u) * t); [lra|]. rewrite <- Rmult_plus_distr_l. apply Rmult_le_compat_l; [lra|]. assert (0 <= u * t) by (apply Rmult_le_pos; lra). lra.
  Qed.
  Lemma c08_float dims a b : Forall (wf_dim O) dims -> Forall bounded dims -> in_space O dims a -> in_space O dims b ->
    exists D E, space_distance O dims a b = Ok D /\ space_distance O dims b a = Ok D /\ fleb (fofZ 0) D = true /\ (fleb D (fofZ 0) = true <-> Forall2 same a b) /\
      exactly_apart dims a b E /\
      (is_finite D = true -> (1 - u) ^ S (length dims) * E <= B2R D <= (1 + u) ^ S (length dims) * E).
  Proof.
    intros Hw Hf Ha Hb. destruct (distance_f dims a b (fofZ 0) Hw Hf Ha Hb) as (s & e & I1 & I2 & I3 & I4 & I5 & I6 & I7).
    { split; [apply fofZ_not_nan|rewrite fE0; lra]. }
    exists s, e. split; [exact I1|]. split; [exact I2|]. split; [now apply pos_leb|]. split.
    { rewrite zero_leb by apply I5. rewrite I6, fE0. split; [tauto|]. intro. split; [lra|assumption]. }
    split; [exact I3|]. intro F. destruct (I7 F) as [_ B]. destruct (fofZ_exact 0) as [_ B0]; [now vm_compute|]. rewrite B0, !Rplus_0_l in B. cbn [pow]. rewrite !(Rmult_comm (1 + _)), !(Rmult_comm (1 - _)), !Rmult_assoc. exact B.
  Qed.
  Lemma exact_triangle dims : forall a b c x y z, exactly_apart dims a b x -> exactly_apart dims b c y -> exactly_apart dims a c z -> z <= x + y.
  Proof.
    induction dims as [|d dims IH]; intros a b c x y z Hx Hy Hz; inversion Hx; subst; inversion Hy; subst; inversion Hz; subst; [lra|].
    match goal with H1 : exactly_apart dims ?a ?b ?x, H2 : exactly_apart dims ?b ?c ?y, H3 : exactly_apart dims ?a ?c ?z |- _ => pose proof (IH _ _ _ _ _ _ H1 H2 H3) end.
    match goal with H1 : apart d ?v ?w ?x, H2 : apart d ?w ?v2 ?y, H3 : apart d ?v ?v2 ?z |- _ => assert (z <= x + y); [|lra]; clear - H1 H2 H3; inversion H1; subst; inversion H2; subst; inversion H3; subst; try lra; try contradiction end.
    - match goal with |- Rabs ?p <= Rabs ?q + Rabs ?r => replace p with (q + r) by lra; apply Rabs_triang end.
    - rewrite <- plus_IZR. apply IZR_le. lia.
  Qed.
  Lemma c08_triangle dims a b c ab bc ac : Forall (wf_dim O) dims -> Forall bounded dims -> in_space O dims a -> in_space O dims b -> in_space O dims c ->
    space_distance O dims a b = Ok ab -> space_distance O dims b c = Ok bc -> space_distance O dims a c = Ok ac ->
    is_finite ab = true -> is_finite bc = true -> is_finite ac = true ->
    (1 - u) ^ S (length dims) * B2R ac <= (1 + u) ^ S (length dims) * (B2R ab + B2R bc).
  Proof.
    intros Hw Hf Ha Hb Hc E1 E2 E3 F1 F2 F3.
    destruct (c08_float dims a b Hw Hf Ha Hb) as (D1 & X1 & A1 & _ & _ & _ & P1 & B1). destruct (c08_float dims b c Hw Hf Hb Hc) as (D2 & X2 & A2 & _ & _ & _ & P2 & B2).
    destruct (c08_float dims a c Hw Hf Ha Hc) as (D3 & X3 & A3 & _ & _ & _ & P3 & B3).
    assert (ab = D1) by congruence. assert (bc = D2) by congruence. assert (ac = D3) by congruence. subst D1 D2 D3. specialize (B1 F1). specialize (B2 F2). specialize (B3 F3).
    pose proof (exact_triangle _ _ _ _ _ _ _ P1 P2 P3) as T. set (n := S (length dims)) in *. pose proof u_pos as U.
    assert (L1 : 0 <= (1 - u) ^ n) by (apply pow_le; lra). assert (L2 : 0 <= (1 + u) ^ n) by (apply pow_le; lra).
    apply Rle_trans with ((1 - u) ^ n * ((1 + u) ^ n * X3)); [apply Rmult_le_compat_l; [exact L1|apply B3]|].
    rewrite <- Rmult_assoc, (Rmult_comm ((1 - u) ^ n)), Rmult_assoc. apply Rmult_le_compat_l; [exact L2|].
    apply Rle_trans with ((1 - u) ^ n * (X1 + X2)); [now apply Rmult_le_compat_l|]. rewrite Rmult_plus_distr_l. lra.
  Qed.
End FloatMetric.
