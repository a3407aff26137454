(** Cholesky factors solve linear systems, and exist for positive definite matrices. *)
From Coq Require Import List ZArith Bool Reals Lra Lia.
From Verif Require Import Base BaseLemmas Kernels KernelPsdSpec Gpr GprSpec GprLemmas GprProps GprPosterior Psd KernelPsd GprCov GprCov2 Cholesky.
Import ListNotations.
Open Scope R_scope.
Open Scope list_scope.

Lemma sm_first n f : sm (S n) f = f 0%nat + sm n (fun i => f (S i)).
Proof. induction n as [|n IH]; [cbn; ring|]. cbn [sm] in *. rewrite IH. ring. Qed.

(** [L] is a Cholesky factor of the first [n] rows and columns *)
Fixpoint factor (n : nat) (K : mx) (L : triangle) : Prop :=
  match n, L with
  | 0%nat, [] => True
  | S n', (l, b) :: L' =>
    0 < l /\ length b = n' /\ K 0%nat 0%nat = l * l /\
    (forall i, (i < n')%nat -> K (S i) 0%nat = nth i b 0 * l /\ K 0%nat (S i) = nth i b 0 * l) /\
    factor n' (fun i j => K (S i) (S j) - nth i b 0 * nth j b 0) L'
  | _, _ => False
  end.
Lemma factor_ext n : forall K K' L, (forall i j, (i < n)%nat -> (j < n)%nat -> K i j = K' i j) -> factor n K L -> factor n K' L.
Proof.
  induction n as [|n IH]; intros K K' [|[l b] L] E; cbn [factor]; auto. intros (Hl & Lb & H0 & Hb & HF). split; [exact Hl|]. split; [exact Lb|].
  rewrite <- E by lia. split; [exact H0|]. split.
  - intros i Hi. rewrite <- !E by lia. now apply Hb.
  - revert HF. apply IH. intros i j Hi Hj. now rewrite E by lia.
Qed.
Lemma factor_length n : forall K L, factor n K L -> length L = n.
Proof. induction n as [|n IH]; intros K [|[l b] L]; cbn [factor]; try tauto. intros (_ & _ & _ & _ & H). cbn. f_equal. now apply IH in H. Qed.

Definition square (n : nat) (K : mat) : Prop := length K = n /\ Forall (fun r => length r = n) K.
Lemma hd_nth {A} (d : A) r : hd d r = nth 0 r d. Proof. now destruct r. Qed.
Lemma tl_nth {A} (d : A) r i : nth i (tl r) d = nth (S i) r d. Proof. destruct r; [now destruct i|reflexivity]. Qed.

(** One step of the factorisation, by entries *)
Lemma chol_step n a r0 rows : square (S n) ((a :: r0) :: rows) ->
  let K := (a :: r0) :: rows in
  let b := map (fun r => hd 0 r / sqrt a) rows in
  let C := zip (fun bi r => zip (fun bj v => v - bi * bj) b (tl r)) b rows in
  length b = n /\ square n C /\ (forall i, (i < n)%nat -> nth i b 0 = entry K (S i) 0 / sqrt a) /\
  forall i j, (i < n)%nat -> (j < n)%nat -> entry C i j = entry K (S i) (S j) - nth i b 0 * nth j b 0.
Proof.
  intros [LK FK] K b C. cbn [length] in LK. injection LK as LK. inversion FK as [|? ? _ FR]; subst.
  assert (Lb : length b = length rows) by apply map_length. split; [exact Lb|].
  assert (Lt : forall i, (i < length rows)%nat -> length (tl (nth i rows [])) = length rows).
  { intros i Hi. rewrite Forall_forall in FR. specialize (FR _ (nth_In rows [] Hi)). cbv beta in FR. unfold vec, mat in *. destruct (nth i rows []); cbn in *; lia. }
  assert (LC : length C = length rows) by (unfold C; rewrite zip_len, Lb; apply Nat.min_id).
  assert (Row : forall i, (i < length rows)%nat -> nth i C [] = zip (fun bj v => v - nth i b 0 * bj) b (tl (nth i rows []))).
  { intros i Hi. unfold C. exact (zip_nth_g (fun bi r => zip (fun bj v => v - bi * bj) b (tl r)) 0 [] [] b rows i ltac:(lia) Hi). }
  split.
  - split; [exact LC|]. apply Forall_forall. intros r Ir. apply (In_nth _ _ []) in Ir. destruct Ir as (i & Hi & <-). unfold vec, mat in *. rewrite LC in Hi.
    rewrite (Row i Hi). rewrite zip_len, Lb, (Lt i Hi). apply Nat.min_id.
  - split.
    + intros i Hi. unfold b. rewrite (nth_map (fun r => hd 0 r / sqrt a) rows []) by exact Hi. rewrite hd_nth. reflexivity.
    + intros i j Hi Hj. unfold entry. rewrite (Row i Hi).
      transitivity (nth j (tl (nth i rows [])) 0 - nth i b 0 * nth j b 0).
      * exact (zip_nth_g (fun bj v => v - nth i b 0 * bj) 0 0 0 b (tl (nth i rows [])) j ltac:(lia) ltac:(rewrite (Lt i Hi); exact Hj)).
      * rewrite tl_nth. reflexivity.
Qed.
Lemma chol_factor n : forall K L, square n K -> symm n (entry K) -> chol n K = Some L -> factor n (entry K) L.
Proof.
  induction n as [|n IH]; intros K L HK HS H; [injection H as <-; exact I|]. destruct K as [|[|a r0] rows]; try discriminate. cbn [chol] in H.
  destruct (Rlt_dec 0 a) as [Pa|]; [|discriminate]. destruct (chol_step n a r0 rows HK) as (Lb & HC & Hb & EC). cbv zeta in *.
  set (b := map (fun r => hd 0 r / sqrt a) rows) in *. set (C := zip (fun bi r => zip (fun bj v => v - bi * bj) b (tl r)) b rows) in *.
  destruct (chol n C) as [L'|] eqn:E; [|discriminate]. injection H as <-. pose proof (sqrt_lt_R0 a Pa) as Ps. cbn [factor].
  split; [exact Ps|]. split; [exact Lb|]. split; [exact (eq_sym (sqrt_sqrt a (Rlt_le _ _ Pa)))|]. split.
  - intros i Hi. rewrite (HS 0%nat (S i)) by lia. rewrite (Hb i Hi). split; field; lra.
  - eapply factor_ext; [exact EC|]. apply IH; [exact HC| |exact E]. intros i j Hi Hj. rewrite !EC by assumption. rewrite (HS (S i) (S j)) by lia. ring.
Qed.

(** ** Solving *)
Lemma dot_cons a u b v : dot (a :: u) (b :: v) = a * b + dot u v. Proof. reflexivity. Qed.
Lemma forward_length : forall n K L y, factor n K L -> length y = n -> length (forward L y) = n.
Proof.
  induction n as [|n IH]; intros K [|[l b] L] y; cbn [factor]; try (intros; reflexivity || tauto).
  intros (_ & Lb & _ & _ & HF) Hy. destruct y as [|y0 y]; [discriminate|]. injection Hy as Hy. cbn [forward length]. f_equal. apply (IH _ _ _ HF). rewrite zip_len. lia.
Qed.
Lemma backward_length : forall n K L z, factor n K L -> length z = n -> length (backward L z) = n.
Proof.
  induction n as [|n IH]; intros K [|[l b] L] z; cbn [factor]; try (intros; reflexivity || tauto).
  intros (_ & Lb & _ & _ & HF) Hy. destruct z as [|y0 y]; [discriminate|]. injection Hy as Hy. cbn [backward length]. f_equal. now apply (IH _ _ _ HF).
Qed.
Lemma solve_ok : forall n K L y, factor n K L -> length y = n ->
  forall i, (i < n)%nat -> sm n (fun j => K i j * nth j (cho_solve L y) 0) = nth i y 0.
Proof.
  induction n as [|n IH]; intros K [|[l b] L] y; cbn [factor]; try tauto; [intros; lia|]. intros (Pl & Lb & H0 & Hb & HF) Hy i Hi.
  destruct y as [|y0 y]; [discriminate|]. injection Hy as Hy. set (z0 := y0 / l). set (y' := zip (fun v bi => v - bi * z0) y b).
  assert (Ly' : length y' = n) by (unfold y'; rewrite zip_len; lia).
  assert (Ny' : forall j, (j < n)%nat -> nth j y' 0 = nth j y 0 - nth j b 0 * z0).
  { intros j Hj. unfold y'. exact (zip_nth_g (fun v bi => v - bi * z0) 0 0 0 y b j ltac:(lia) ltac:(lia)). }
  pose proof (IH _ L y' HF Ly') as Sa. unfold cho_solve in *. cbn [forward backward]. fold z0. fold y'. set (a := backward L (forward L y')) in *.
  assert (La : length a = n) by (apply (backward_length _ _ _ _ HF), (forward_length _ _ _ _ HF Ly')).
  assert (Hd : dot b a = sm n (fun j => nth j b 0 * nth j a 0)) by now apply dot_sm. set (q := dot b a) in *.
  rewrite sm_first. destruct i as [|i]; cbn [nth].
  - rewrite H0. rewrite (sm_ext n _ (fun j => l * (nth j b 0 * nth j a 0))) by (intros j Hj; rewrite (proj2 (Hb j Hj)); ring).
    rewrite sm_scal, <- Hd. unfold z0. field. lra.
  - rewrite (proj1 (Hb i ltac:(lia))).
    rewrite (sm_ext n _ (fun j => (K (S i) (S j) - nth i b 0 * nth j b 0) * nth j a 0 + nth i b 0 * (nth j b 0 * nth j a 0))) by (intros j Hj; ring).
    rewrite sm_plus, sm_scal, <- Hd, (Sa i ltac:(lia)), (Ny' i ltac:(lia)). field. lra.
Qed.

(** ** The inverse of the transpose *)
Lemma inv_shape : forall n K L, factor n K L -> square n (inv_transpose L).
Proof.
  induction n as [|n IH]; intros K [|[l b] L]; cbn [factor]; try tauto; [intros _; split; constructor|]. intros (_ & Lb & _ & _ & HF). pose proof (factor_length _ _ _ HF) as LL.
  destruct (IH _ _ HF) as [LA FA]. cbn [inv_transpose]. split.
  - cbn [length]. now rewrite map_length, LA.
  - constructor; [cbn [length]; now rewrite map_length, seq_length, LL|]. apply Forall_forall. intros r Ir. apply in_map_iff in Ir. destruct Ir as (r' & <- & Ir').
    rewrite Forall_forall in FA. cbn [length]. f_equal. now apply FA.
Qed.
Lemma inv_entries n l b L : square n (inv_transpose L) -> length L = n -> length b = n ->
  let A := entry (inv_transpose L) in let A' := entry (inv_transpose ((l, b) :: L)) in
  A' 0%nat 0%nat = / l /\ (forall j, (j < n)%nat -> A' 0%nat (S j) = - sm n (fun k => nth k b 0 * A k j) / l) /\
  (forall i, A' (S i) 0%nat = 0) /\ (forall i j, (i < n)%nat -> A' (S i) (S j) = A i j).
Proof.
  intros [LA FA] LL Lb A A'. unfold A', A, entry. cbn [inv_transpose nth]. split; [reflexivity|]. split; [|split].
  - intros j Hj. rewrite (nth_map (fun j => - dot b (col (inv_transpose L) j) / l) _ 0%nat) by now rewrite seq_length, LL. rewrite LL, seq_nth by exact Hj. cbn [plus].
    do 2 f_equal. rewrite (dot_sm b _ n Lb) by (unfold col; now rewrite map_length). apply sm_ext. intros k Hk. unfold col. f_equal.
    rewrite (nth_map (fun g => nth j g 0) (inv_transpose L) []) by ln. reflexivity.
  - intros i. destruct (Nat.lt_ge_cases i (length (inv_transpose L))) as [Hi|Hi].
    + rewrite (nth_indep _ [] (0 :: [])) by now rewrite map_length. now rewrite map_nth.
    + rewrite (nth_overflow (map (cons 0) (inv_transpose L)) []) by now rewrite map_length. reflexivity.
  - intros i j Hi. rewrite (nth_indep _ [] (0 :: [])) by (rewrite map_length; ln). now rewrite map_nth.
Qed.
Lemma inv_ok : forall n K L, factor n K L -> let A := entry (inv_transpose L) in
  forall i j, (i < n)%nat -> (j < n)%nat -> sm n (fun k => K i k * sm n (fun m => A k m * A j m)) = if Nat.eqb i j then 1 else 0.
Proof.
  induction n as [|n IH]; intros K [|[l b] L]; cbn [factor]; try tauto; [intros _ A i j Hi; lia|]. intros (Pl & Lb & H0 & Hb & HF).
  pose proof (factor_length _ _ _ HF) as LL. pose proof (inv_shape _ _ _ HF) as SA. specialize (IH _ _ HF). cbv zeta in *.
  destruct (inv_entries n l b L SA LL Lb) as (A00 & A0j & Ai0 & Aij). cbv zeta in *.
  set (A := entry (inv_transpose L)) in *. set (A' := entry (inv_transpose ((l, b) :: L))).
  change (A' 0%nat 0%nat = / l) in A00. change (forall j, (j < n)%nat -> A' 0%nat (S j) = - sm n (fun k => nth k b 0 * A k j) / l) in A0j.
  change (forall i, A' (S i) 0%nat = 0) in Ai0. change (forall i j, (i < n)%nat -> A' (S i) (S j) = A i j) in Aij.
  change (forall i j, (i < S n)%nat -> (j < S n)%nat -> sm (S n) (fun k => K i k * sm (S n) (fun m => A' k m * A' j m)) = if Nat.eqb i j then 1 else 0).
  set (P := fun k j => sm n (fun m => A k m * A j m)). set (u := fun m => sm n (fun k => nth k b 0 * A k m)) in *.
  assert (Psym : forall k j, P k j = P j k) by (intros; apply sm_ext; intros; ring).
  set (w := fun j => sm n (fun k => nth k b 0 * P k j)).
  assert (Uw : forall j, sm n (fun m => u m * A j m) = w j).
  { intros j. unfold u, w, P. rewrite (sm_ext n _ (fun m => sm n (fun k => nth k b 0 * (A k m * A j m)))).
    - rewrite sm_swap. apply sm_ext. intros k _. now rewrite sm_scal.
    - intros m _. rewrite Rmult_comm, <- sm_scal. apply sm_ext. intros. ring. }
  assert (P00 : sm (S n) (fun m => A' 0%nat m * A' 0%nat m) = / (l * l) * (1 + sm n (fun k => nth k b 0 * w k))).
  { rewrite sm_first, A00. rewrite (sm_ext n _ (fun m => / (l * l) * (u m * u m))).
    - rewrite sm_scal. replace (sm n (fun m => u m * u m)) with (sm n (fun k => nth k b 0 * w k)); [field; lra|].
      rewrite (sm_ext n _ (fun k => sm n (fun m => nth k b 0 * (u m * A k m)))) by (intros; now rewrite sm_scal, Uw). rewrite sm_swap. apply sm_ext. intros m _. transitivity (u m * sm n (fun k => nth k b 0 * A k m)); [rewrite <- sm_scal; apply sm_ext; intros; ring|reflexivity].
    - intros m Hm. rewrite A0j by exact Hm. fold (u m). field. lra. }
  assert (P0S : forall j, (j < n)%nat -> sm (S n) (fun m => A' 0%nat m * A' (S j) m) = - w j / l).
  { intros j Hj. rewrite sm_first, Ai0. rewrite (sm_ext n _ (fun m => - / l * (u m * A j m))).
    - rewrite sm_scal, Uw. field. lra.
    - intros m Hm. rewrite A0j, Aij by assumption. fold (u m). field. lra. }
  assert (PSS : forall i j, (i < n)%nat -> (j < n)%nat -> sm (S n) (fun m => A' (S i) m * A' (S j) m) = P i j).
  { intros i j Hi Hj. rewrite sm_first, !Ai0. rewrite (sm_ext n _ (fun m => A i m * A j m)) by (intros; now rewrite !Aij by assumption). unfold P. ring. }
  assert (Psw : forall i j, sm (S n) (fun m => A' i m * A' j m) = sm (S n) (fun m => A' j m * A' i m)) by (intros; apply sm_ext; intros; ring).
  assert (CP : forall i j, (i < n)%nat -> (j < n)%nat -> sm n (fun k => K (S i) (S k) * P k j) = (if Nat.eqb i j then 1 else 0) + nth i b 0 * w j).
  { intros i j Hi Hj. rewrite <- (IH i j Hi Hj). unfold w. rewrite <- sm_scal, <- sm_plus. apply sm_ext. intros k _. fold (P k j). ring. }
  assert (Cw : forall i, (i < n)%nat -> sm n (fun k => K (S i) (S k) * w k) = nth i b 0 * (1 + sm n (fun k => nth k b 0 * w k))).
  { intros i Hi. rewrite (sm_ext n _ (fun k => sm n (fun j => nth j b 0 * (K (S i) (S k) * P k j)))).
    - rewrite sm_swap. rewrite (sm_ext n _ (fun j => (if Nat.eqb j i then nth j b 0 else 0) + nth i b 0 * (nth j b 0 * w j))).
      + rewrite sm_plus, sm_scal, sm_delta. replace (Nat.ltb i n) with true by (symmetry; now apply Nat.ltb_lt). ring.
      + intros j Hj. rewrite sm_scal, CP by assumption. rewrite (Nat.eqb_sym j i). destruct (Nat.eqb i j); ring.
    - intros k _. unfold w. rewrite <- sm_scal. apply sm_ext. intros j _. rewrite (Psym k j). ring. }
  set (T := sm n (fun k => nth k b 0 * w k)) in *.
  intros i j Hi Hj. rewrite sm_first. destruct i as [|i], j as [|j]; cbn [Nat.eqb].
  - rewrite P00, H0. rewrite (sm_ext n _ (fun k => (-1) * (nth k b 0 * w k))).
    + rewrite sm_scal. fold T. field. lra.
    + intros k Hk. rewrite (proj2 (Hb k Hk)), Psw, P0S by assumption. field. lra.
  - rewrite P0S, H0 by lia. rewrite (sm_ext n _ (fun k => l * (nth k b 0 * P k j))).
    + rewrite sm_scal. fold (w j). field. lra.
    + intros k Hk. rewrite (proj2 (Hb k Hk)), PSS by (assumption || lia). ring.
  - rewrite P00, (proj1 (Hb i ltac:(lia))). rewrite (sm_ext n _ (fun k => - / l * (K (S i) (S k) * w k))).
    + rewrite sm_scal, Cw by lia. field. lra.
    + intros k Hk. rewrite Psw, P0S by assumption. field. lra.
  - rewrite P0S, (proj1 (Hb i ltac:(lia))) by lia. rewrite (sm_ext n _ (fun k => K (S i) (S k) * P k j)) by (intros k Hk; now rewrite PSS by (assumption || lia)).
    rewrite CP by lia. field. lra.
Qed.

(** ** Existence *)
Definition pd (n : nat) (K : mx) : Prop := symm n K /\ forall c, (exists i, (i < n)%nat /\ c i <> 0) -> 0 < qf n K c.
Lemma pd_pivot n K : pd (S n) K -> 0 < K 0%nat 0%nat.
Proof.
  intros [_ H]. specialize (H (fun i => if Nat.eqb i 0 then 1 else 0)). unfold qf in H. rewrite (sm_ext _ _ (fun i => if Nat.eqb i 0 then K 0%nat 0%nat else 0)) in H.
  - rewrite sm_delta in H. cbn in H. apply H. exists 0%nat. split; [lia|]. cbn. lra.
  - intros i Hi. destruct (Nat.eqb_spec i 0) as [->|].
    + rewrite (sm_ext _ _ (fun j => if Nat.eqb j 0 then K 0%nat j else 0)); [rewrite sm_delta; reflexivity|]. intros j _. destruct (Nat.eqb j 0); ring.
    + rewrite (sm_ext _ _ (fun _ => 0)); [apply sm_0|]. intros. ring.
Qed.
Lemma pd_schur n K (b : nat -> R) l : pd (S n) K -> 0 < l -> K 0%nat 0%nat = l * l -> (forall i, (i < n)%nat -> b i = K (S i) 0%nat / l) ->
  pd n (fun i j => K (S i) (S j) - b i * b j).
Proof.
  intros [S H] Pl H0 Hb. split; [intros i j Hi Hj; rewrite (S (Datatypes.S i) (Datatypes.S j)) by lia; ring|]. intros c (i & Hi & Hc).
  set (q := sm n (fun i => c i * b i)). specialize (H (fun i => match i with 0%nat => - q / l | Datatypes.S i => c i end)).
  assert (Hp : 0 < qf (Datatypes.S n) K (fun i => match i with 0%nat => - q / l | Datatypes.S i => c i end)) by (apply H; exists (Datatypes.S i); split; [lia|exact Hc]).
  assert (E : qf (Datatypes.S n) K (fun i => match i with 0%nat => - q / l | Datatypes.S i => c i end) = qf n (fun i j => K (Datatypes.S i) (Datatypes.S j) - b i * b j) c); [|lra].
  unfold qf. rewrite sm_first, sm_first.
  rewrite (sm_ext n (fun j => - q / l * c j * K 0%nat (Datatypes.S j)) (fun j => - q * (c j * b j))).
  2: { intros j Hj. rewrite (S 0%nat (Datatypes.S j)) by lia. rewrite (Hb j Hj). field. lra. }
  rewrite sm_scal. fold q. rewrite H0.
  rewrite (sm_ext n (fun i0 => sm (Datatypes.S n) _) (fun i0 => - q * (c i0 * b i0) + (sm n (fun j => c i0 * c j * (K (Datatypes.S i0) (Datatypes.S j) - b i0 * b j)) + c i0 * b i0 * q))).
  - rewrite !sm_plus, sm_scal. fold q. rewrite (sm_ext n (fun i0 => c i0 * b i0 * q) (fun i0 => q * (c i0 * b i0))) by (intros; ring). rewrite sm_scal. fold q. field. lra.
  - intros a Ha. rewrite sm_first. f_equal.
    + rewrite (Hb a Ha). field. lra.
    + unfold q. rewrite <- sm_scal, <- sm_plus. apply sm_ext. intros. ring.
Qed.
Lemma chol_exists n : forall K, square n K -> pd n (entry K) -> exists L, chol n K = Some L.
Proof.
  induction n as [|n IH]; intros K HK HP; [eexists; reflexivity|]. destruct K as [|[|a r0] rows].
  - destruct HK; discriminate.
  - destruct HK as [_ F]. inversion F; discriminate.
  - pose proof (pd_pivot _ _ HP) as Pa. change (entry ((a :: r0) :: rows) 0 0) with a in Pa. cbn [chol]. destruct (Rlt_dec 0 a) as [_|]; [|contradiction].
    destruct (chol_step n a r0 rows HK) as (Lb & HC & Hb & EC). cbv zeta in *.
    set (b := map (fun r => hd 0 r / sqrt a) rows) in *. set (C := zip (fun bi r => zip (fun bj v => v - bi * bj) b (tl r)) b rows) in *.
    pose proof (sqrt_lt_R0 a Pa) as Ps.
    destruct (IH C HC) as [L HL]; [|rewrite HL; eauto].
    pose proof (pd_schur n (entry ((a :: r0) :: rows)) (fun i => nth i b 0) (sqrt a) HP Ps (eq_sym (sqrt_sqrt a ltac:(lra))) Hb) as [S Q]. split.
    + intros i j Hi Hj. rewrite !EC by assumption. exact (S i j Hi Hj).
    + intros c Hc. rewrite (qf_ext n _ _ c EC). now apply Q.
Qed.

(** ** As [fit] uses them *)
Lemma cho_lin K A : square (length K) K -> symm (length K) (entry K) -> cho_inv K = Some A ->
  inverse_factor K A /\ forall y, length y = length K -> solves K y (cho_weights K y).
Proof.
  intros HK HS H. unfold cho_inv, cho_weights, cholesky in *. destruct (chol (length K) K) as [L|] eqn:E; [|discriminate]. injection H as <-.
  pose proof (chol_factor _ _ _ HK HS E) as HF. set (n := length K) in *. destruct HK as [LK FK]. rewrite Forall_forall in FK.
  assert (Rk : forall i, (i < n)%nat -> length (nth i K []) = n) by (intros i Hi; apply FK, nth_In; exact Hi).
  destruct (inv_shape _ _ _ HF) as [LA FA]. rewrite Forall_forall in FA.
  assert (Ra : forall i, (i < n)%nat -> length (nth i (inv_transpose L) []) = n) by (intros i Hi; apply FA, nth_In; ln).
  split.
  - split; [exact LA|]. intros i j Hi Hj. rewrite <- (inv_ok _ _ _ HF i j Hi Hj). rewrite (dot_sm _ _ n (Rk i Hi)) by (rewrite map_length; exact LA).
    apply sm_ext. intros k Hk. unfold entry at 1. f_equal. rewrite (nth_map (fun r => dot r (nth j (inv_transpose L) [])) (inv_transpose L) []) by ln.
    exact (dot_sm _ _ n (Ra k Hk) (Ra j Hj)).
  - intros y Hy. fold n in Hy. assert (Ls : length (cho_solve L y) = n) by (apply (backward_length _ _ _ _ HF), (forward_length _ _ _ _ HF Hy)). split; [exact Ls|].
    intros i Hi. rewrite (dot_sm _ _ n (Rk i Hi) Ls). exact (solve_ok n _ L y HF Hy i Hi).
Qed.
Lemma cho_exists K : positive_definite K -> exists A, cho_inv K = Some A.
Proof.
  intros [(FK & HS & _) HP]. unfold cho_inv, cholesky. destruct (chol_exists (length K) K) as [L HL]; [split; [reflexivity|exact FK]| |rewrite HL; eexists; reflexivity].
  split; [intros i j _ _; apply HS|]. intros c (i & Hi & Hc). set (v := map c (seq 0 (length K))).
  assert (Lv : length v = length K) by (unfold v; now rewrite map_length, seq_length).
  assert (Nv : forall a, (a < length K)%nat -> nth a v 0 = c a) by (intros a Ha; unfold v; rewrite (nth_map c _ 0%nat) by (now rewrite seq_length); now rewrite seq_nth).
  specialize (HP v Lv). rewrite (quad_sm K v (length K) eq_refl FK Lv) in HP.
  assert (E : qf (length K) (entry K) (fun i => nth i v 0) = qf (length K) (entry K) c).
  { unfold qf. apply sm_ext. intros a Ha. apply sm_ext. intros b Hb. now rewrite !Nv. }
  rewrite <- E. apply HP. apply Exists_exists. exists (c i). split; [|exact Hc]. rewrite <- (Nv i Hi). apply nth_In. ln.
Qed.
