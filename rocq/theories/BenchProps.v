From Coq Require Import List Reals Lra Lia Psatz Ranalysis Machin.
From Coquelicot Require Import Coquelicot.
From Verif Require Import Base.
From Verif Require Import Benchmarks BenchSpec.
Import ListNotations.
Open Scope R_scope.

Lemma c80_bench1 :
  minimised bench1 (fun x => length x = 1%nat) 0 (fun x => x = [0]).
Proof.
  split; [exists [0]; auto|].
  intros [|a [|? ?]] Hx; try discriminate. exists (a ^ 2).
  split; [reflexivity|]. split; [nra|]. split; intros H.
  - f_equal. nra.
  - injection H as ->. ring.
Qed.

Lemma c80_time x y :
  bench1 x = Ok y <-> bench1_with_time x = Ok (y, 222 / 100).
Proof.
  unfold bench1, bench1_with_time, item. destruct x; cbn [nth_error bind].
  - split; discriminate.
  - split; intros H; injection H as H; subst; reflexivity.
Qed.

Lemma c80_bench2 :
  minimised bench2 (fun x => length x = 1%nat) (-5) (fun x => x = [5]).
Proof.
  split; [exists [5]; auto|].
  intros [|a [|? ?]] Hx; try discriminate.
  unfold bench2, item; cbn [nth_error bind].
  destruct (Rlt_dec a 0) as [Ha | Ha].
  - exists (a ^ 2). split; [reflexivity|]. split; [nra|]. split; intros H; [exfalso; nra|].
    injection H as Ha5. exfalso; lra.
  - exists ((a - 5) ^ 2 - 5). split; [reflexivity|].
    split; [pose proof (pow2_ge_0 (a - 5)); lra|]. split; intros H.
    + f_equal. assert (a - 5 = 0) by (apply Rsqr_0_uniq; unfold Rsqr; lra). lra.
    + injection H as ->. ring.
Qed.

Lemma c80_bench4 {A} (num : A -> res R) (zero : A) : num zero = Ok 0 ->
  minimised (bench4 num) (fun x => exists a v, x = [a] /\ num a = Ok v) 0
    (fun x => exists a, x = [a] /\ num a = Ok 0).
Proof.
  intros Hz. split. { exists [zero]. split; eauto. }
  intros x (a & v & -> & Hv). exists (v ^ 2).
  unfold bench4, item; cbn [nth_error bind]. rewrite Hv; cbn [bind].
  split; [reflexivity|]. split; [nra|]. split.
  - intros H. exists a. split; [reflexivity|]. rewrite Hv. f_equal. nra.
  - intros (a' & Ha & H). injection Ha as <-. rewrite Hv in H. injection H as ->. ring.
Qed.

Lemma c80_bench5 {A} (num : A -> res R) (zero : A) : num zero = Ok 0 ->
  minimised (bench5 num) (fun x => exists v, num (fst x) = Ok v) 0
    (fun x => num (fst x) = Ok 0 /\ snd x = 0).
Proof.
  intros Hz. split. { exists (zero, 0). cbn. eauto. }
  intros [a b] (v & Hv). cbn [fst] in Hv. exists (v ^ 2 + b ^ 2).
  unfold bench5; cbn [fst snd]. rewrite Hv; cbn [bind].
  split; [reflexivity|]. split; [nra|]. split.
  - intros H. assert (v = 0) by nra. assert (b = 0) by nra. subst. auto.
  - intros [H ->]. injection H as ->. ring.
Qed.

(** ** bench3 *)
Lemma PI_bounds : 3.141592 < PI < 3.141593.
Proof.
  pose proof (PI_2_3_7_ineq 3) as H.
  unfold PI_2_3_7_tg, tg_alt, Ratan_seq in H. simpl in H. lra.
Qed.

Lemma sin_cubic z : 0 <= z <= 4 -> z - z * z * z / 6 <= sin z.
Proof.
  intros Hz. destruct (pre_sin_bound z 0) as [H _]; [lra|lra|].
  unfold sin_approx, sin_term in H. simpl in H. lra.
Qed.

Lemma tanh_exp y : 1 - tanh y = 2 / (exp (2 * y) + 1).
Proof.
  unfold tanh, sinh, cosh.
  assert (He : exp (2 * y) = exp y * exp y) by (rewrite <- exp_plus; f_equal; ring).
  rewrite He, exp_Ropp. pose proof (exp_pos y). field. split; [nra|lra].
Qed.

Lemma damp_range y : 0 <= y -> 0 < 1 - tanh y <= 1.
Proof.
  intros Hy. rewrite tanh_exp. pose proof (exp_ineq1_le (2 * y)) as He.
  split.
  - apply Rdiv_lt_0_compat; lra.
  - apply (Rmult_le_reg_r (exp (2 * y) + 1)); [lra|].
    unfold Rdiv. rewrite Rmult_assoc, Rinv_l; lra.
Qed.

(** The damping factor is at least nine tenths only up to about a tenth. *)
Lemma damp_small y : 0 <= y -> 9 / 10 <= 1 - tanh y -> y <= 102 / 1000.
Proof.
  intros Hy Hd. rewrite tanh_exp in Hd. pose proof (exp_ineq1_le (2 * y)) as He.
  apply Rnot_lt_le. intros Hlt.
  (* exp z >= 1 + z + z^2/2 *)
  assert (Hq : 1 + 2 * y + (2 * y) ^ 2 / 2 <= exp (2 * y)).
  { pose proof (exp_ineq1_le y). replace (exp (2 * y)) with (exp y * exp y)
      by (rewrite <- exp_plus; f_equal; ring).
    assert (Hh : forall z, 0 <= z -> 1 + z + z ^ 2 / 2 <= exp z).
    { intros z Hz.
      destruct (MVT_gen (fun t => exp t - (1 + t + t ^ 2 / 2)) 0 z (fun t => exp t - (1 + t)))
        as (c & Hc & Heq).
      - intros t _. auto_derive; [exact I|]. field.
      - intros t _. apply derivable_continuous_pt. exists (exp t - (1 + t)).
        apply is_derive_Reals. auto_derive; [exact I|]. field.
      - rewrite Rmin_left, Rmax_right in Hc by lra. rewrite exp_0 in Heq.
        pose proof (exp_ineq1_le c).
        assert (0 <= (exp c - (1 + c)) * (z - 0)) by (apply Rmult_le_pos; lra). lra. }
    rewrite <- exp_plus. replace (y + y) with (2 * y) by ring. apply Hh. lra. }
  assert (Hb : (2 / (exp (2 * y) + 1)) * (exp (2 * y) + 1) = 2) by (field; lra).
  nra.
Qed.

Lemma tanh_le y : 0 <= y -> tanh y <= y.
Proof.
  intros Hy. pose proof (tanh_exp y) as Ht.
  pose proof (exp_ineq1_le (- (2 * y))) as H1. pose proof (exp_pos (2 * y)) as Hp.
  enough (1 - y <= 2 / (exp (2 * y) + 1)) by lra.
  (* (1 - y)(e + 1) <= 2 *)
  assert (Hg : forall z, 0 <= z -> (1 - z) * (exp (2 * z) + 1) <= 2).
  { intros z Hz.
    destruct (MVT_gen (fun t => (1 - t) * (exp (2 * t) + 1)) 0 z
                (fun t => exp (2 * t) * (1 - 2 * t) - 1)) as (c & Hc & Heq).
    - intros t _. auto_derive; [exact I|]. ring.
    - intros t _. apply derivable_continuous_pt. exists (exp (2 * t) * (1 - 2 * t) - 1).
      apply is_derive_Reals. auto_derive; [exact I|]. ring.
    - rewrite Rmin_left, Rmax_right in Hc by lra.
      rewrite Rmult_0_r, exp_0 in Heq.
      assert (exp (2 * c) * (1 - 2 * c) <= 1).
      { pose proof (exp_ineq1_le (- (2 * c))) as Hn.
        assert (Hi : exp (2 * c) * exp (- (2 * c)) = 1)
          by (rewrite <- exp_plus, Rplus_opp_r; apply exp_0).
        pose proof (exp_pos (2 * c)). nra. }
      assert (0 <= (1 - exp (2 * c) * (1 - 2 * c)) * (z - 0)) by (apply Rmult_le_pos; lra).
      nra. }
  apply (Rmult_le_reg_r (exp (2 * y) + 1)); [lra|].
  unfold Rdiv. rewrite Rmult_assoc, Rinv_l by lra. specialize (Hg y Hy). lra.
Qed.

Definition b3 (a : R) := sin (5 * a) * (1 - tanh (a ^ 2)).

Lemma b3_at : b3 (-3 / 10) <= - (9 / 10).
Proof.
  unfold b3. replace (5 * (-3 / 10)) with (- (15 / 10)) by lra. rewrite sin_neg.
  pose proof (tanh_le ((-3 / 10) ^ 2) ltac:(nra)) as Ht.
  assert (Hs : 99 / 100 <= sin (15 / 10)).
  { pose proof PI_bounds as Hp. replace (15 / 10) with (PI / 2 - 2 * (PI / 4 - 75 / 100)) by lra.
    rewrite sin_shift, cos_2a_sin.
    pose proof (sin_lt_x (PI / 4 - 75 / 100) ltac:(lra)).
    pose proof (sin_ge_0 (PI / 4 - 75 / 100) ltac:(lra) ltac:(lra)). nra. }
  nra.
Qed.

(** arcsine 0.9 > 1.1, so 5a < -1.1 *)
Lemma sin_11 : sin (11 / 10) < 9 / 10.
Proof.
  pose proof PI_bounds as Hp. set (z := PI / 4 - 55 / 100).
  replace (11 / 10) with (PI / 2 - 2 * z) by (unfold z; lra).
  rewrite sin_shift, cos_2a_sin.
  assert (Hz : 235 / 1000 < z < 236 / 1000) by (unfold z; lra).
  pose proof (sin_cubic z ltac:(lra)). assert (z * z * z < 14 / 1000) by nra. nra.
Qed.

Lemma b3_where a : b3 a <= - (9 / 10) -> - (32 / 100) < a < - (22 / 100).
Proof.
  unfold b3. intros H.
  assert (Ha2 : 0 <= a ^ 2) by nra.
  pose proof (damp_range (a ^ 2) Ha2) as Hd.
  pose proof (SIN_bound (5 * a)) as Hs.
  assert (Hd9 : 9 / 10 <= 1 - tanh (a ^ 2)) by nra.
  pose proof (damp_small (a ^ 2) Ha2 Hd9) as Hsm.
  assert (Habs : - (32 / 100) < a < 32 / 100) by nra.
  split; [lra|].
  assert (Hs9 : sin (5 * a) <= - (9 / 10)) by nra.
  apply Rnot_le_lt. intros Hge.
  (* 5a >= -1.1 *)
  pose proof PI2_3_2 as Hpi.
  destruct (Rle_lt_dec 0 a) as [Hp | Hn].
  - assert (0 <= sin (5 * a)) by (apply sin_ge_0; lra). lra.
  - pose proof sin_11. assert (sin (- (5 * a)) <= sin (11 / 10)).
    { destruct (Req_dec (- (5 * a)) (11 / 10)) as [-> | Hne]; [lra|].
      left. apply sin_increasing_1; lra. }
    rewrite sin_neg in H1. lra.
Qed.

Lemma b3_cont a : continuity_pt b3 a.
Proof.
  apply (continuity_pt_ext (fun a => sin (5 * a) * (2 / (exp (2 * a ^ 2) + 1)))).
  { intros t. unfold b3. now rewrite tanh_exp. }
  apply derivable_continuous_pt. eexists.
  apply is_derive_Reals. auto_derive; [|reflexivity].
  pose proof (exp_pos (2 * a ^ 2)) as Hp. repeat split; try exact I.
  simpl in Hp. lra.
Qed.

Lemma b3_min : exists a, - (32 / 100) < a < - (22 / 100) /\ forall x, b3 a <= b3 x.
Proof.
  destruct (continuity_ab_min b3 (- (32 / 100)) (- (22 / 100))) as (m & Hm & Hin);
    [lra| intros; apply b3_cont|].
  pose proof b3_at as H0. pose proof (Hm (-3 / 10) ltac:(lra)) as H1.
  assert (Hall : forall x, b3 m <= b3 x).
  { intros x. destruct (Rle_lt_dec (b3 x) (- (9 / 10))) as [Hx | Hx].
    - apply Hm. apply b3_where in Hx. lra.
    - lra. }
  exists m. split; [apply b3_where; lra | exact Hall].
Qed.

Lemma b3_bound a : -1 < b3 a < 1.
Proof.
  unfold b3. pose proof (damp_range (a ^ 2) ltac:(nra)) as Hd.
  pose proof (SIN_bound (5 * a)) as Hs.
  destruct (Req_dec a 0) as [-> | Hn].
  - rewrite Rmult_0_r, sin_0. lra.
  - assert (1 - tanh (a ^ 2) < 1); [|nra].
    rewrite tanh_exp. assert (0 < a ^ 2) by nra.
    pose proof (exp_ineq1_le (2 * a ^ 2)).
    apply (Rmult_lt_reg_r (exp (2 * a ^ 2) + 1)); [lra|].
    unfold Rdiv. rewrite Rmult_assoc, Rinv_l; lra.
Qed.

Lemma c80_bench3 :
  exists a v, bench3 [a] = Ok v /\
    (forall x y, bench3 [x] = Ok y ->
       -1 < v /\ v <= y /\ v <= - (9 / 10) /\
       (y <= - (9 / 10) -> - (32 / 100) < x < - (22 / 100))).
Proof.
  destruct b3_min as (a & Ha & Hmin). exists a, (b3 a). split; [reflexivity|].
  intros x y Hy. injection Hy as <-. fold (b3 x).
  split; [apply b3_bound|]. split; [apply Hmin|].
  split; [pose proof (Hmin (-3 / 10)); pose proof b3_at; lra|].
  apply b3_where.
Qed.

(** ** Branin-Hoo *)
Lemma cos_m1 u : -5 <= u <= 10 -> cos u = -1 -> u = - PI \/ u = PI \/ u = 3 * PI.
Proof.
  intros Hu Hc. pose proof PI_bounds as Hp.
  assert (Hs : sin u = 0).
  { pose proof (sin2_cos2 u) as H. unfold Rsqr in H. rewrite Hc in H. nra. }
  destruct (sin_eq_0_0 u Hs) as (k & Hk).
  assert (Hkl : -2 < IZR k < 4) by (split; nra).
  assert (-2 < k < 4)%Z by (split; apply lt_IZR; simpl; lra).
  assert (Hd : (k = -1 \/ k = 0 \/ k = 1 \/ k = 2 \/ k = 3)%Z) by lia.
  destruct Hd as [-> | [-> | [-> | [-> | ->]]]].
  - left. simpl in Hk. lra.
  - exfalso. rewrite Rmult_0_l in Hk. subst. rewrite cos_0 in Hc. lra.
  - right; left. lra.
  - exfalso. simpl in Hk. subst. rewrite cos_2PI in Hc. lra.
  - right; right. simpl in Hk. lra.
Qed.

Lemma cos_mPI : cos (- PI) = -1.
Proof. rewrite cos_neg. apply cos_PI. Qed.

Lemma cos_3PI : cos (3 * PI) = -1.
Proof.
  replace (3 * PI) with (PI + 2 * INR 1 * PI) by (simpl; ring).
  rewrite cos_period. apply cos_PI.
Qed.

Lemma c80_branin :
  minimised branin branin_square (10 / (8 * PI))
    (fun x => x = [- PI; 12.275] \/ x = [PI; 2.275] \/ x = [3 * PI; 2.475]).
Proof.
  pose proof PI_bounds as Hp. assert (Hp0 : PI <> 0) by lra.
  split.
  { exists [PI; 2.275]. split; [|auto]. exists PI, 2.275. split; [reflexivity|lra]. }
  intros x (u & v & -> & Hu & Hv). eexists. split; [reflexivity|].
  set (t := 1 / (8 * PI)).
  set (q := v - 51 / 10 / (4 * PI ^ 2) * u ^ 2 + 5 / PI * u - 6).
  assert (Ht : 0 < t < 1).
  { unfold t. split; [apply Rdiv_lt_0_compat; lra|].
    apply (Rmult_lt_reg_r (8 * PI)); [lra|]. unfold Rdiv. rewrite Rmult_assoc, Rinv_l; lra. }
  replace (10 / (8 * PI)) with (10 * t) by (unfold t; field; lra).
  pose proof (COS_bound u) as Hc.
  assert (Hq : 0 <= q ^ 2) by nra.
  split; [nra|]. split.
  - intros Heq.
    assert (Hcu : cos u = -1) by nra.
    assert (Hq0 : q = 0) by nra.
    destruct (cos_m1 u Hu Hcu) as [-> | [-> | ->]].
    + left. assert (q = v - 12275 / 1000) by (unfold q; field; lra). do 2 f_equal. lra.
    + right; left. assert (q = v - 2275 / 1000) by (unfold q; field; lra). do 2 f_equal. lra.
    + right; right. assert (q = v - 2475 / 1000) by (unfold q; field; lra). do 2 f_equal. lra.
  - assert (Hfin : q = 0 -> cos u = -1 ->
       1 * q ^ 2 + 10 * (1 - t) * cos u + 10 = 10 * t) by (intros -> ->; ring).
    intros [H | [H | H]]; injection H as -> ->; apply Hfin;
      try (unfold q;
           try replace 12.275 with (12275 / 1000) by lra;
           try replace 2.275 with (2275 / 1000) by lra;
           try replace 2.475 with (2475 / 1000) by lra; field; lra).
    + apply cos_mPI.
    + apply cos_PI.
    + apply cos_3PI.
Qed.

Lemma c80_branin_value : Rabs (10 / (8 * PI) - 0.397887) < 1 / 10 ^ 6 /\ Rabs (3 * PI - 9.42478) < 1 / 10 ^ 5.
Proof.
  pose proof PI_bounds as Hp. split; apply Rabs_def1; try lra.
  - apply (Rmult_lt_reg_r (8 * PI)); [lra|].
    set (k := 0.397887) in *. replace ((10 / (8 * PI) - k) * (8 * PI)) with (10 - k * (8 * PI)) by (field; lra). unfold k.
    lra.
  - apply (Rmult_lt_reg_r (8 * PI)); [lra|].
    set (k := 0.397887) in *. replace ((10 / (8 * PI) - k) * (8 * PI)) with (10 - k * (8 * PI)) by (field; lra). unfold k.
    lra.
Qed.

(** ** Hartmann *)
Lemma hart_row_nonneg A P x : List.Forall (fun a => 0 < a) A -> 0 <= hart_row A P x.
Proof.
  intros HA. revert P x. induction HA as [|a A Ha HA IH]; intros [|p P] [|v x]; cbn [hart_row]; try lra.
  specialize (IH P x). set (w := v - p / 10 ^ 4).
  pose proof (Rmult_le_pos a (w ^ 2) ltac:(lra) (pow2_ge_0 w)). lra.
Qed.

Lemma hart_terms_range alpha A P x :
  List.Forall (fun a => 0 < a) alpha -> List.Forall (List.Forall (fun a => 0 < a)) A ->
  length A = length alpha -> length P = length alpha ->
  0 <= sum (hart_terms alpha A P x) <= sum alpha /\
  (alpha <> [] -> 0 < sum (hart_terms alpha A P x)).
Proof.
  intros Ha. revert A P. induction Ha as [|al alpha Hal Ha IH]; intros [|a A] [|p P] HA; cbn [length];
    try discriminate; cbn [hart_terms sum]; intros H1 H2.
  { split; [lra|congruence]. }
  inversion HA as [|? ? Hrow HA']; subst. injection H1 as H1. injection H2 as H2.
  destruct (IH A P HA' H1 H2) as [IHr _].
  pose proof (hart_row_nonneg a p x Hrow) as Hr.
  pose proof (exp_pos (- hart_row a p x)) as He.
  assert (exp (- hart_row a p x) <= 1).
  { rewrite <- exp_0. destruct Hr as [Hr | Hr].
    - left. apply exp_increasing. lra.
    - rewrite <- Hr, Ropp_0. lra. }
  split; [nra|]. intros _. nra.
Qed.

Lemma c80_hart6 x : length x = 6%nat -> exists y, hart6 x = Ok y /\ - (84 / 10) <= y < 0.
Proof.
  intros Hx.
  assert (He : hart6 x = Ok (- sum (hart_terms hart_alpha hart_A hart_P x))).
  { destruct x as [|a [|b x]]; try discriminate. unfold hart6. rewrite Hx. reflexivity. }
  eexists. split; [exact He|].
  destruct (hart_terms_range hart_alpha hart_A hart_P x) as [Hr Hp].
  - unfold hart_alpha. repeat constructor; lra.
  - unfold hart_A. repeat constructor; lra.
  - reflexivity.
  - reflexivity.
  - assert (Hp' : 0 < sum (hart_terms hart_alpha hart_A hart_P x)) by (apply Hp; discriminate).
    assert (Hs : sum hart_alpha = 84 / 10) by (unfold hart_alpha; cbn [sum]; lra). lra.
Qed.
