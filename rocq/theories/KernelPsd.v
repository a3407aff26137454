(** Kernel matrices are positive semi-definite. *)
From Coq Require Import List ZArith Bool Reals Lra Lia.
From Coquelicot Require Import Coquelicot.
From Verif Require Import Base BaseLemmas Kernels KernelPsdSpec Gpr GprSpec Psd PsdExp PsdFun.
Import ListNotations.
Open Scope R_scope.
Open Scope list_scope.

(** ** Sums over coordinates *)
Lemma sum_sm : forall l, sum l = sm (length l) (fun c => nth c l 0).
Proof.
  assert (H : forall l n f, sm (n + length l) (fun c => if Nat.ltb c n then f c else nth (c - n) l 0) = sm n f + sum l).
  { induction l as [|a l IH]; intros n f.
    - rewrite Nat.add_0_r. cbn [sum fold_right]. rewrite Rplus_0_r. apply sm_ext. intros c Hc. apply Nat.ltb_lt in Hc. now rewrite Hc.
    - cbn [length]. replace (n + S (length l))%nat with (S n + length l)%nat by lia.
      rewrite (sm_ext _ _ (fun c => if Nat.ltb c (S n) then (if Nat.ltb c n then f c else a) else nth (c - S n) l 0)).
      + rewrite (IH (S n) (fun c => if Nat.ltb c n then f c else a)). cbn [sm]. rewrite Nat.ltb_irrefl.
        rewrite (sm_ext n (fun c => if Nat.ltb c n then f c else a) f) by (intros c Hc; apply Nat.ltb_lt in Hc; now rewrite Hc).
        unfold sum. cbn [fold_right]. ring.
      + intros c _. destruct (Nat.ltb_spec c n), (Nat.ltb_spec c (S n)); try lia; try reflexivity.
        * replace (c - n)%nat with 0%nat by lia. reflexivity.
        * replace (c - n)%nat with (S (c - S n)) by lia. reflexivity. }
  intro l. specialize (H l 0%nat (fun _ => 0)). cbn [sm] in H. rewrite Rplus_0_l in H. rewrite <- H. apply sm_ext. intros c _. cbn [Nat.ltb Nat.leb]. now rewrite Nat.sub_0_r.
Qed.
Lemma zip_len {A B C} (f : A -> B -> C) a b : length (zip f a b) = Nat.min (length a) (length b).
Proof. unfold zip. now rewrite map_length, combine_length. Qed.
Lemma zip_nth (f : R -> R -> R) : forall a b c, (c < length a)%nat -> (c < length b)%nat -> nth c (zip f a b) 0 = f (nth c a 0) (nth c b 0).
Proof.
  induction a as [|x a IH]; intros [|y b] c Ha Hb; cbn [length] in *; try lia. destruct c as [|c]; [reflexivity|].
  change (nth c (zip f a b) 0 = f (nth c a 0) (nth c b 0)). apply IH; lia.
Qed.
Lemma sum_zip f a b d : length a = d -> length b = d -> sum (zip f a b) = sm d (fun c => f (nth c a 0) (nth c b 0)).
Proof.
  intros La Lb. rewrite sum_sm, zip_len, La, Lb, Nat.min_id. apply sm_ext. intros c Hc. apply zip_nth; lia.
Qed.
Lemma sq_norm_sm v : sq_norm v = sm (length v) (fun c => nth c v 0 * nth c v 0).
Proof.
  unfold sq_norm. rewrite sum_sm, map_length. apply sm_ext. intros c Hc. rewrite (nth_indep _ 0 (sqr 0)) by now rewrite map_length. now rewrite map_nth.
Qed.

Section Points.
  Context (d : nat) (X : mat) (HX : List.Forall (fun x => length x = d) X).
  Let n := length X.
  Let pt (i : nat) : list R := nth i X [].
  Let co (c i : nat) : R := nth c (pt i) 0.
  Lemma pt_len i : (i < n)%nat -> length (pt i) = d.
  Proof. intro H. rewrite List.Forall_forall in HX. apply HX. now apply nth_In. Qed.

  (** ** Distances *)
  Lemma scales_ok l : scale_fits (fun a => 0 <= a) l d -> exists ls, scales l d = Ok ls /\ length ls = d /\ forall c, (c < d)%nat -> 0 <= nth c ls 0.
  Proof.
    assert (Rp : forall a, 0 <= a -> length (repeat a d) = d /\ forall c, (c < d)%nat -> 0 <= nth c (repeat a d) 0).
    { intros a Ha. rewrite repeat_length. split; [reflexivity|]. intros c Hc. assert (I : In (nth c (repeat a d) 0) (repeat a d)) by (apply nth_In; now rewrite repeat_length).
      apply repeat_spec in I. now rewrite I. }
    intro H. destruct l as [a|[|a [|b ls]]]; cbn [scale_fits scales] in *.
    - exists (repeat a d). split; [reflexivity|now apply Rp].
    - exists []. destruct H as [L F]. split; [now rewrite L, Nat.eqb_refl|]. split; [exact L|]. intros c Hc. cbn in L. lia.
    - exists (repeat a d). split; [reflexivity|now apply Rp].
    - exists (a :: b :: ls). destruct H as [L F]. split; [now rewrite L, Nat.eqb_refl|]. split; [exact L|]. intros c Hc. rewrite List.Forall_forall in F. apply F. apply nth_In. lia.
  Qed.
  Lemma diffs_cnd l : scale_fits (fun a => 0 <= a) l d -> exists N, cnd n N /\ nonneg n N /\
    forall i j, (i < n)%nat -> (j < n)%nat -> exists v, diffs l (pt i) (pt j) = Ok v /\ sq_norm v = N i j.
  Proof.
    intro H. destruct (scales_ok l H) as (ls & E & Ll & _). exists (fun i j => sm d (fun c => (co c i / nth c ls 0 - co c j / nth c ls 0) * (co c i / nth c ls 0 - co c j / nth c ls 0))).
    split; [|split].
    - apply (cnd_sum n d (fun c i j => (co c i / nth c ls 0 - co c j / nth c ls 0) * (co c i / nth c ls 0 - co c j / nth c ls 0))). intros c _. apply (cnd_sqdiff n (fun i => co c i / nth c ls 0)).
    - intros i j _ _. apply sm_nonneg. intros c _. apply Rle_0_sqr.
    - intros i j Hi Hj. pose proof (pt_len i Hi) as Li. pose proof (pt_len j Hj) as Lj. unfold diffs, minus. rewrite Li, Lj, Nat.eqb_refl. cbn [bind]. rewrite E. cbn [bind].
      eexists. split; [reflexivity|]. rewrite sq_norm_sm, !zip_len, Li, Lj, Ll, !Nat.min_id. apply sm_ext. intros c Hc.
      assert (Ez : nth c (zip Rdiv (zip Rminus (pt i) (pt j)) ls) 0 = (co c i - co c j) / nth c ls 0).
      { rewrite zip_nth by (rewrite ?zip_len; lia). rewrite zip_nth by lia. reflexivity. }
      rewrite Ez. unfold Rdiv. ring.
  Qed.
  Lemma minus_cnd : exists N, cnd n N /\ nonneg n N /\
    forall i j, (i < n)%nat -> (j < n)%nat -> exists v, minus (pt i) (pt j) = Ok v /\ sq_norm v = N i j.
  Proof.
    exists (fun i j => sm d (fun c => (co c i - co c j) * (co c i - co c j))). split; [|split].
    - apply (cnd_sum n d (fun c i j => (co c i - co c j) * (co c i - co c j))). intros c _. apply (cnd_sqdiff n (fun i => co c i)).
    - intros i j _ _. apply sm_nonneg. intros c _. apply Rle_0_sqr.
    - intros i j Hi Hj. pose proof (pt_len i Hi) as Li. pose proof (pt_len j Hj) as Lj. unfold minus. rewrite Li, Lj, Nat.eqb_refl.
      eexists. split; [reflexivity|]. rewrite sq_norm_sm, zip_len, Li, Lj, Nat.min_id. apply sm_ext. intros c Hc. rewrite zip_nth by lia. reflexivity.
  Qed.
  Lemma hamming_cnd l : scale_fits (fun a => 0 <= a) l d -> exists N, cnd n N /\
    forall i j, (i < n)%nat -> (j < n)%nat -> hamming l (pt i) (pt j) = Ok (exp (- N i j)).
  Proof.
    intro H. destruct (scales_ok l H) as (ls & E & Ll & Pl).
    exists (fun i j => sm d (fun c => nth c ls 0 * (1 - (if Req_EM_T (co c i) (co c j) then 1 else 0)))). split.
    - apply (cnd_sum n d (fun c i j => nth c ls 0 * (1 - (if Req_EM_T (co c i) (co c j) then 1 else 0)))). intros c Hc. apply cnd_scal; [now apply Pl|].
      apply cnd_minus. apply (psd_same n (co c)).
    - intros i j Hi Hj. pose proof (pt_len i Hi) as Li. pose proof (pt_len j Hj) as Lj. unfold hamming. rewrite Li, Lj, Nat.eqb_refl, E. cbn [bind].
      do 2 f_equal. f_equal. rewrite (sum_zip Rmult ls _ d Ll) by (rewrite zip_len; lia). apply sm_ext. intros c Hc. rewrite zip_nth by lia. fold (co c i). fold (co c j).
      unfold mismatch. destruct (Req_EM_T (co c i) (co c j)); ring.
  Qed.

  (** ** Values *)
  Definition represents (k : kernel) (M : mx) : Prop := forall i j, (i < n)%nat -> (j < n)%nat -> ktrain k (Nat.eqb i j) (pt i) (pt j) = Ok (M i j).
  Lemma kernel_psd : forall k, valid k d -> exists M, represents k M /\ psd n M.
  Proof.
    induction k as [l|m l|l a|l p|c|v|s|k IH p|k1 IH1 k2 IH2|k1 IH1 k2 IH2|l]; cbn [valid]; intro V.
    - destruct (diffs_cnd l) as (N & HN & _ & E). { exact (scale_weaken _ _ _ _ (fun a => Rlt_le 0 a) V). }
      exists (fun i j => exp (- (/ 2 * N i j))). split; [|exact (cnd_exp n _ (cnd_scal n (/ 2) N ltac:(lra) HN))].
      intros i j Hi Hj. destruct (E i j Hi Hj) as (w & Ew & Sw). cbn [ktrain kcall Nat.leb]. rewrite Ew. cbn [bind]. rewrite Sw. do 2 f_equal. ring.
    - destruct (diffs_cnd l) as (N & HN & PN & E). { exact (scale_weaken _ _ _ _ (fun a => Rlt_le 0 a) V). }
      assert (S : forall a, 0 <= a -> cnd n (fun i j => a * N i j) /\ nonneg n (fun i j => a * N i j)).
      { intros a Ha. split; [now apply cnd_scal|]. intros i j Hi Hj. specialize (PN i j Hi Hj). nra. }
      destruct m.
      + exists (fun i j => exp (- sqrt (N i j))). split; [|now apply psd_m1].
        intros i j Hi Hj. destruct (E i j Hi Hj) as (w & Ew & Sw). cbn [ktrain kcall Nat.leb]. rewrite Ew. cbn [bind]. unfold norm, matern. now rewrite Sw.
      + exists (fun i j => m3 (3 * N i j)). split; [|destruct (S 3 ltac:(lra)); now apply (psd_m3 n (fun i j => 3 * N i j))].
        intros i j Hi Hj. destruct (E i j Hi Hj) as (w & Ew & Sw). cbn [ktrain kcall Nat.leb]. rewrite Ew. cbn [bind]. unfold norm, matern, m3. rewrite Sw.
        specialize (PN i j Hi Hj). now rewrite (sqrt_mult 3 (N i j)) by lra.
      + exists (fun i j => m5 (5 * N i j)). split; [|destruct (S 5 ltac:(lra)); now apply (psd_m5 n (fun i j => 5 * N i j))].
        intros i j Hi Hj. destruct (E i j Hi Hj) as (w & Ew & Sw). cbn [ktrain kcall Nat.leb]. rewrite Ew. cbn [bind]. unfold norm, matern, m5, sqr. rewrite Sw.
        specialize (PN i j Hi Hj). rewrite (sqrt_mult 5 (N i j)) by lra. do 4 f_equal.
        transitivity ((sqrt 5 * sqrt 5) * (sqrt (N i j) * sqrt (N i j))); [ring|]. now rewrite !sqrt_sqrt by lra.
    - destruct V as [Vl Va]. destruct minus_cnd as (N & HN & PN & E). assert (C0 : 0 < / (2 * a * sqr l)) by (apply Rinv_0_lt_compat; unfold sqr; apply Rmult_lt_0_compat; nra).
      exists (fun i j => exp (- (a * ln (1 + / (2 * a * sqr l) * N i j)))). split.
      + intros i j Hi Hj. destruct (E i j Hi Hj) as (w & Ew & Sw). cbn [ktrain kcall Nat.leb]. rewrite Ew. cbn [bind]. rewrite Sw. unfold Rpower. do 2 f_equal.
        unfold Rdiv. rewrite (Rmult_comm (N i j)). ring.
      + apply (cnd_exp n (fun i j => a * ln (1 + / (2 * a * sqr l) * N i j))). apply cnd_scal; [lra|]. apply cnd_ln; auto. lra.
    - destruct V as (Vl & Vp & D1). exists (fun i j => exp (- (/ (l * l) * (1 - cos (2 * PI / p * co 0 i - 2 * PI / p * co 0 j))))). split.
      + intros i j Hi Hj. pose proof (pt_len i Hi) as Li. pose proof (pt_len j Hj) as Lj. cbn [ktrain kcall Nat.leb]. unfold minus. rewrite Li, Lj, Nat.eqb_refl. cbn [bind]. unfold norm.
        rewrite sq_norm_sm, zip_len, Li, Lj, Nat.min_id, D1. cbn [sm]. rewrite Rplus_0_l, zip_nth by lia. fold (co 0 i). fold (co 0 j). rewrite D1 in *.
        change (sqrt ((co 0 i - co 0 j) * (co 0 i - co 0 j))) with (sqrt (Rsqr (co 0 i - co 0 j))). rewrite sqrt_Rsqr_abs.
        assert (S2 : sqr (sin (PI * Rabs (co 0 i - co 0 j) / p)) = (1 - cos (2 * PI / p * co 0 i - 2 * PI / p * co 0 j)) / 2).
        { assert (SA : sqr (sin (PI * Rabs (co 0 i - co 0 j) / p)) = sqr (sin (PI * (co 0 i - co 0 j) / p))).
          { unfold Rabs. destruct (Rcase_abs _); [|reflexivity]. replace (PI * - (co 0 i - co 0 j) / p) with (- (PI * (co 0 i - co 0 j) / p)) by (field; lra). rewrite sin_neg. unfold sqr. ring. }
          rewrite SA. replace (2 * PI / p * co 0 i - 2 * PI / p * co 0 j) with (2 * (PI * (co 0 i - co 0 j) / p)) by (field; lra). rewrite cos_2a_sin. unfold sqr. field. }
        do 2 f_equal. unfold sqr in *. transitivity (-2 * / (l * l) * (sin (PI * Rabs (co 0 i - co 0 j) / p) * sin (PI * Rabs (co 0 i - co 0 j) / p))); [field; lra|]. rewrite S2. field. lra.
      + apply (cnd_exp n (fun i j => / (l * l) * (1 - cos (2 * PI / p * co 0 i - 2 * PI / p * co 0 j)))). apply cnd_scal; [left; apply Rinv_0_lt_compat; nra|].
        apply cnd_minus. apply (psd_cos n (fun i => 2 * PI / p * co 0 i)).
    - exists (fun _ _ => c). split; [intros i j _ _; reflexivity|now apply psd_const].
    - exists (fun i j => if Nat.eqb i j then v else 0). split; [intros i j _ _; reflexivity|now apply psd_id].
    - exists (fun i j => sm d (fun c => co c i * co c j) + sqr s). split.
      + intros i j Hi Hj. pose proof (pt_len i Hi) as Li. pose proof (pt_len j Hj) as Lj. cbn [ktrain kcall Nat.leb]. rewrite Li, Lj, Nat.eqb_refl. now rewrite (sum_zip Rmult _ _ d Li Lj).
      + apply psd_plus; [|apply psd_const; unfold sqr; nra].
        assert (T : forall m, psd n (fun i j => sm m (fun c => co c i * co c j))).
        { induction m as [|m IHm]; [exact (psd_const n 0 (Rle_refl 0))|]. exact (psd_plus n _ _ IHm (psd_rank1 n (co m))). }
        apply T.
    - destruct p as [e|q]; [|contradiction]. destruct (IH V) as (M & R & P). exists (fun i j => M i j ^ e). split; [|now apply psd_pow].
      intros i j Hi Hj. cbn [ktrain]. rewrite (R i j Hi Hj). reflexivity.
    - destruct V as [V1 V2]. destruct (IH1 V1) as (M1 & R1 & P1). destruct (IH2 V2) as (M2 & R2 & P2). exists (fun i j => M1 i j + M2 i j). split; [|now apply psd_plus].
      intros i j Hi Hj. cbn [ktrain]. now rewrite (R1 i j Hi Hj), (R2 i j Hi Hj).
    - destruct V as [V1 V2]. destruct (IH1 V1) as (M1 & R1 & P1). destruct (IH2 V2) as (M2 & R2 & P2). exists (fun i j => M1 i j * M2 i j). split; [|now apply psd_mult].
      intros i j Hi Hj. cbn [ktrain]. now rewrite (R1 i j Hi Hj), (R2 i j Hi Hj).
    - destruct (hamming_cnd l V) as (N & HN & E). exists (fun i j => exp (- N i j)). split; [|now apply cnd_exp].
      intros i j Hi Hj. cbn [ktrain kcall Nat.leb]. now apply E.
  Qed.
End Points.
