(** A Lipschitz function on a cube attains its least value; the Hartmann function does so on all points (C80). *)
From Coq Require Import List ZArith Bool Reals Lra Lia Psatz.
From Verif Require Import Base Benchmarks BenchSpec BenchProps HartLemmas HartProps.
Import ListNotations.
Open Scope R_scope.

Definition cube (n : nat) (x : list R) : Prop := length x = n /\ List.Forall (fun v => 0 <= v <= 1) x.
Fixpoint dist (x y : list R) : R := match x, y with v :: x', w :: y' => Rabs (v - w) + dist x' y' | _, _ => 0 end.
Definition lip (n : nat) (L : R) (f : list R -> R) : Prop := forall x y, cube n x -> cube n y -> f x <= f y + L * dist x y.
Lemma dist_refl : forall x, dist x x = 0.
Proof. induction x as [|v x IH]; cbn; [reflexivity|]. rewrite IH, Rminus_diag_eq, Rabs_R0 by reflexivity. ring. Qed.
Lemma dist_pos : forall x y, 0 <= dist x y.
Proof. induction x as [|v x IH]; intros [|w y]; cbn; try lra. specialize (IH y). pose proof (Rabs_pos (v - w)). lra. Qed.
Lemma cube_cons n t x : cube (S n) (t :: x) <-> 0 <= t <= 1 /\ cube n x.
Proof.
  unfold cube. cbn [length]. split.
  - intros (L & F). inversion F; subst. repeat split; try lra; [lia|assumption].
  - intros (T & L & F). split; [lia|now constructor].
Qed.
Lemma attained : forall n L f, 0 <= L -> lip n L f -> exists x, cube n x /\ forall y, cube n y -> f x <= f y.
Proof.
  induction n as [|n IH]; intros L f HL Lf.
  - exists []. split; [split; [reflexivity|constructor]|]. intros y (Ly & _). destruct y; [lra|discriminate].
  - assert (Ex : forall t, exists x, (0 <= t <= 1 -> cube n x /\ forall y, cube n y -> f (t :: x) <= f (t :: y))).
    { intro t. destruct (Rle_dec 0 t) as [T0|]; [|exists []; intros; lra]. destruct (Rle_dec t 1) as [T1|]; [|exists []; intros; lra].
      destruct (IH L (fun x => f (t :: x)) HL) as (x & Hx).
      - intros a b Ha Hb. pose proof (Lf (t :: a) (t :: b)) as H. cbn [dist] in H. rewrite Rminus_diag_eq, Rabs_R0, Rplus_0_l in H by reflexivity.
        apply H; apply cube_cons; split; auto; lra.
      - exists x. intros _. exact Hx. }
    set (S := fun t v => exists y, cube n y /\ v = - f (t :: y)).
    assert (Bd : forall t, 0 <= t <= 1 -> {m | is_lub (S t) m}).
    { intros t Ht. apply completeness.
      - destruct (Ex t) as (x & Hx). destruct (Hx Ht) as (Cx & Mx). exists (- f (t :: x)). intros v (y & Cy & ->). specialize (Mx y Cy). lra.
      - destruct (Ex t) as (x & Hx). destruct (Hx Ht) as (Cx & _). exists (- f (t :: x)). exists x. auto. }
    set (clip := fun t => Rmax 0 (Rmin 1 t)).
    assert (Ct : forall t, 0 <= clip t <= 1) by (intro t; unfold clip, Rmax, Rmin; repeat destruct Rle_dec; lra).
    set (m := fun t => - proj1_sig (Bd (clip t) (Ct t))).
    assert (Hm : forall t, 0 <= t <= 1 -> exists x, cube n x /\ m t = f (t :: x) /\ forall y, cube n y -> m t <= f (t :: y)).
    { intros t Ht. unfold m. assert (Et : clip t = t) by (unfold clip, Rmax, Rmin; repeat destruct Rle_dec; lra). destruct (Bd (clip t) (Ct t)) as (v & Hv). cbn [proj1_sig]. rewrite Et in Hv.
      destruct (Ex t) as (x & Hx). destruct (Hx Ht) as (Cx & Mx). exists x. destruct Hv as (U & Lst).
      assert (v = - f (t :: x)).
      { apply Rle_antisym; [|apply U; exists x; auto]. apply Lst. intros w (y & Cy & ->). specialize (Mx y Cy). lra. }
      subst v. repeat split; [apply Cx|apply Cx|lra|]. intros y Cy. specialize (Mx y Cy). lra. }
    assert (Lm : forall s t, 0 <= s <= 1 -> 0 <= t <= 1 -> m s <= m t + L * Rabs (s - t)).
    { intros s t Hs Ht. destruct (Hm t Ht) as (x & Cx & E & _). destruct (Hm s Hs) as (_ & _ & _ & Q). specialize (Q x Cx). rewrite E.
      pose proof (Lf (s :: x) (t :: x)) as H. cbn [dist] in H. rewrite dist_refl, Rplus_0_r in H. assert (f (s :: x) <= f (t :: x) + L * Rabs (s - t)) by (apply H; apply cube_cons; auto). lra. }
    assert (Cl : forall s t, Rabs (clip s - clip t) <= Rabs (s - t)) by (intros; unfold clip, Rmax, Rmin, Rabs; repeat (destruct Rle_dec || destruct Rcase_abs); lra).
    set (g := fun t => m (clip t)).
    assert (Cg : forall t, continuity_pt g t).
    { intros t eps He. exists (eps / (L + 1)). split; [apply Rdiv_lt_0_compat; lra|]. intros s (_ & Hs). unfold dist in Hs. cbn in Hs. unfold R_dist in *. cbn. unfold R_dist.
      pose proof (Lm (clip s) (clip t) (Ct s) (Ct t)) as H1. pose proof (Lm (clip t) (clip s) (Ct t) (Ct s)) as H2. rewrite (Rabs_minus_sym (clip t)) in H2. pose proof (Cl s t) as H3.
      assert (B : L * Rabs (s - t) < eps).
      { apply (Rmult_lt_compat_r (L + 1)) in Hs; [|lra]. replace (eps / (L + 1) * (L + 1)) with eps in Hs by (field; lra). pose proof (Rabs_pos (s - t)). nra. }
      assert (L * Rabs (clip s - clip t) <= L * Rabs (s - t)) by (apply Rmult_le_compat_l; lra). unfold g. apply Rabs_def1; lra. }
    destruct (continuity_ab_min g 0 1 ltac:(lra) (fun t _ => Cg t)) as (t & Mt & Ht).
    assert (Eg : forall t, 0 <= t <= 1 -> g t = m t) by (intros u Hu; unfold g; f_equal; unfold clip, Rmax, Rmin; repeat destruct Rle_dec; lra).
    destruct (Hm t Ht) as (x & Cx & E & _). exists (t :: x). split; [now apply cube_cons|]. intros [|u y] Cy; [destruct Cy; discriminate|].
    apply cube_cons in Cy as (Hu & Cy). specialize (Mt u Hu). rewrite (Eg t Ht), (Eg u Hu), E in Mt. destruct (Hm u Hu) as (_ & _ & _ & Q). specialize (Q y Cy). lra.
Qed.
Lemma row_lip : forall A P x y, List.Forall (fun a => 0 <= a <= 17) A -> List.Forall (fun p => 0 <= p <= 10 ^ 4) P -> length x = length y ->
  List.Forall (fun v => 0 <= v <= 1) x -> List.Forall (fun v => 0 <= v <= 1) y -> Rabs (hart_row A P x - hart_row A P y) <= 34 * dist x y.
Proof.
  induction A as [|a A IH]; intros [|p P] x y FA FP L Fx Fy; cbn [hart_row].
  1-3: rewrite Rminus_diag_eq, Rabs_R0 by reflexivity; pose proof (dist_pos x y); lra.
  destruct x as [|v x], y as [|w y]; try discriminate; [rewrite Rminus_diag_eq, Rabs_R0 by reflexivity; cbn; lra|].
  injection L as L. inversion FA as [|? ? A0 FA']; inversion FP as [|? ? P0 FP']; inversion Fx as [|? ? X0 Fx']; inversion Fy as [|? ? Y0 Fy']; subst. specialize (IH P x y FA' FP' L Fx' Fy').
  cbn [dist]. replace (a * (v - p / 10 ^ 4) ^ 2 + hart_row A P x - (a * (w - p / 10 ^ 4) ^ 2 + hart_row A P y)) with (a * (v + w - 2 * (p / 10 ^ 4)) * (v - w) + (hart_row A P x - hart_row A P y)) by ring.
  eapply Rle_trans; [apply Rabs_triang|]. rewrite Rabs_mult. assert (0 <= p / 10 ^ 4 <= 1) by lra. set (u := p / 10 ^ 4) in *. clearbody u.
  assert (B : Rabs (a * (v + w - 2 * u)) <= 34) by (apply Rabs_le; nra). pose proof (Rabs_pos (v - w)). pose proof (Rabs_pos (a * (v + w - 2 * u))). nra.
Qed.
Lemma exp_lip a b : 0 <= a -> 0 <= b -> exp (- a) <= exp (- b) + Rabs (a - b).
Proof.
  intros Ha Hb. pose proof (Rabs_pos (a - b)). destruct (Rle_dec b a) as [H1|H1]; [pose proof (exp_le (- a) (- b) ltac:(lra)); lra|].
  replace (- b) with (- a + (a - b)) by ring. rewrite exp_plus. pose proof (exp_ineq1_le (a - b)) as E. pose proof (exp_pos (- a)) as P. pose proof (exp_le (- a) 0 ltac:(lra)) as Q. rewrite exp_0 in Q.
  rewrite Rabs_left by lra. nra.
Qed.
Ltac bounded := repeat (apply List.Forall_cons; [split; lra|]); apply List.Forall_nil.
Lemma value_lip : lip 6 1000 (fun x => - value x).
Proof.
  intros x y (Lx & Fx) (Ly & Fy). pose proof (terms_sum x) as Vx. pose proof (terms_sum y) as Vy. fold (value x) in Vx. fold (value y) in Vy.
  assert (R : forall A P, List.Forall (fun a => 0 < a <= 17) A -> List.Forall (fun p => 0 <= p <= 10 ^ 4) P -> exp (- hart_row A P y) <= exp (- hart_row A P x) + 34 * dist x y).
  { intros A P HA HP. assert (HA' : List.Forall (fun a => 0 < a) A) by (eapply List.Forall_impl; [|exact HA]; cbn; intros; lra).
    pose proof (exp_lip (hart_row A P y) (hart_row A P x) ltac:(now apply hart_row_nonneg) ltac:(now apply hart_row_nonneg)) as E.
    assert (Rabs (hart_row A P y - hart_row A P x) <= 34 * dist x y); [|lra]. rewrite Rabs_minus_sym. apply row_lip; auto; [eapply List.Forall_impl; [|exact HA]; cbn; intros; lra|now rewrite Lx, Ly]. }
  unfold exponents, hart_A, hart_P, alz, rsum in *. cbn [combine map fst snd fold_right] in *.
  repeat match goal with
  | V : value x * 10 = _ |- _ => match type of V with context [hart_row ?a ?p x] => pose proof (R a p ltac:(bounded) ltac:(bounded)); set (hart_row a p x) in * end
  end.
  pose proof (dist_pos x y). lra.
Qed.
Lemma Rabs_off a b r : Rabs (a - b) <= r -> b - r <= a <= b + r.
Proof. unfold Rabs. destruct Rcase_abs; lra. Qed.
Lemma c80_hart6_attained : exists x y, unit_point x /\ hart6 x = Ok y /\ forall x' y', length x' = 6%nat -> hart6 x' = Ok y' -> y <= y'.
Proof.
  destruct (attained 6 1000 _ ltac:(lra) value_lip) as (x & Cx & Mx). exists x, (- value x). split; [exact Cx|]. split; [apply hart6_value; apply Cx|].
  assert (S : cube 6 xstar) by (split; [reflexivity|unfold xstar; bounded]). pose proof (Mx _ S) as M. pose proof value_star as V.
  intros x' y' L E. destruct (Rlt_dec y' (- 3.32236)) as [Lt|Ge].
  - destruct (c80_hart6_min x' y' L E) as (_ & N). specialize (N Lt). rewrite (hart6_value _ L) in E. injection E as <-. apply Mx. split; [exact L|].
    unfold xstar in N. repeat match goal with H : nearby _ _ (_ :: _) |- _ => inversion H as [|? ? ? ? ? ?]; clear H; subst | H : Forall2 _ _ (_ :: _) |- _ => inversion H as [|? ? ? ? ? ?]; clear H; subst | H : Forall2 _ _ [] |- _ => inversion H; clear H; subst end.
    repeat match goal with H : Rabs _ <= _ |- _ => apply Rabs_off in H end. bounded.
  - lra.
Qed.
Lemma c80_hart6_all (x : list R) : length x = 6%nat -> exists y, hart6 x = Ok y /\ - 3.32237 <= y < 0 /\ (y < - 3.32236 -> nearby 0.001 x xstar).
Proof.
  intro L. destruct (c80_hart6 x L) as (y & E & B). exists y. destruct (c80_hart6_min x y L E) as (M & N). repeat split; auto; lra.
Qed.
Lemma c80_hart6_best : exists x y, unit_point x /\ nearby 0.001 x xstar /\ hart6 x = Ok y /\ - 3.32237 <= y <= - 3.322368 /\
  forall x' y', length x' = 6%nat -> hart6 x' = Ok y' -> y <= y'.
Proof.
  destruct c80_hart6_attained as (x & y & U & E & M). destruct c80_hart6_star as (y0 & E0 & B0). pose proof (M xstar y0 eq_refl E0) as Le.
  destruct (c80_hart6_min x y (proj1 U) E) as (A & N). exists x, y. repeat split; try assumption; try apply U; try lra. apply N. lra.
Qed.
