(** The grid design: size, absence of repetitions, where its points come from. *)
From Coq Require Import String List ZArith Bool Lia Permutation.
From Verif Require Import Base BaseLemmas Num Values Transformers Dimension Space Sampler SamplerSpec DesignLemmas.
Import ListNotations.
Open Scope nat_scope.
Open Scope list_scope.
Set Implicit Arguments.
Local Arguments Z.pow : simpl never.

Lemma NoDup_app_intro {A} (a b : list A) : NoDup a -> NoDup b -> (forall x, In x a -> In x b -> False) -> NoDup (a ++ b).
Proof.
  intros Ha Hb Hd. induction Ha as [|x a Hn _ IH]; [exact Hb|]. cbn [app]. constructor.
  - intro Hi. apply in_app_or in Hi. destruct Hi as [Hi|Hi]; [contradiction|]. apply (Hd x); [now left|exact Hi].
  - apply IH. intros y Hy. apply Hd. now right.
Qed.

Lemma map_repeat {A B} (f : A -> B) x n : map f (repeat x n) = repeat (f x) n.
Proof. induction n; cbn; congruence. Qed.

(** ** All combinations *)
Section Combine.
  Context {N : Type}.
  Definition extend (out : list (list N)) (arg : list N) := flat_map (fun row => map (fun v => row ++ [v]) arg) out.

  Lemma extend_in out arg row : In row (extend out arg) <-> exists r v, row = r ++ [v] /\ In r out /\ In v arg.
  Proof.
    unfold extend. rewrite in_flat_map. split.
    - intros (r & Hr & Hv). apply in_map_iff in Hv. destruct Hv as (v & <- & Hv). now exists r, v.
    - intros (r & v & -> & Hr & Hv). exists r. split; [exact Hr|]. apply in_map_iff. now exists v.
  Qed.
  Lemma extend_nodup out arg : NoDup out -> NoDup arg -> NoDup (extend out arg).
  Proof.
    intros Ho Ha. induction Ho as [|r out Hn _ IH]; [constructor|]. unfold extend. cbn [flat_map].
    apply NoDup_app_intro.
    - apply FinFun.Injective_map_NoDup; [|exact Ha]. intros v w E. apply app_inj_tail in E. tauto.
    - exact IH.
    - intros x Hx Hx'. apply in_map_iff in Hx. destruct Hx as (v & <- & _).
      apply extend_in in Hx'. destruct Hx' as (r' & v' & E & Hr' & _). apply app_inj_tail in E. destruct E as [-> _]. contradiction.
  Qed.
  Lemma extend_all_in rest : forall out row, In row (fold_left extend rest out) <->
    exists r t, row = r ++ t /\ In r out /\ Forall2 (fun v a => In v a) t rest.
  Proof.
    induction rest as [|arg rest IH]; intros out row; cbn [fold_left].
    - split; [intro H; exists row, []; split; [now rewrite app_nil_r|]; split; [exact H|constructor]|].
      intros (r & t & -> & Hr & Ht). inversion Ht. now rewrite app_nil_r.
    - rewrite IH. split.
      + intros (r & t & -> & Hr & Ht). apply extend_in in Hr. destruct Hr as (r' & v & -> & Hr & Hv).
        exists r', (v :: t). rewrite <- app_assoc. split; [reflexivity|]. split; [exact Hr|]. now constructor.
      + intros (r & t & -> & Hr & Ht). inversion Ht as [|v a t' rest' Hv Ht']; subst.
        exists (r ++ [v]), t'. rewrite <- app_assoc. split; [reflexivity|]. split; [|exact Ht'].
        apply extend_in. now exists r, v.
  Qed.
  Lemma extend_all_nodup rest : forall out, NoDup out -> Forall (@NoDup N) rest -> NoDup (fold_left extend rest out).
  Proof.
    induction rest as [|arg rest IH]; intros out Ho Hr; cbn [fold_left]; [exact Ho|].
    inversion Hr; subst. apply IH; [now apply extend_nodup|assumption].
  Qed.
  Lemma extend_length out arg : length (extend out arg) = length out * length arg.
  Proof. unfold extend. induction out as [|r out IH]; [reflexivity|]. cbn [flat_map length]. rewrite app_length, map_length, IH. simpl. lia. Qed.

  Fixpoint prod (l : list nat) : nat := match l with [] => 1 | n :: l' => n * prod l' end.
  Lemma extend_all_length rest : forall out, length (fold_left extend rest out) = length out * prod (map (@length N) rest).
  Proof. induction rest as [|arg rest IH]; intro out; cbn [fold_left map prod]; [lia|]. rewrite IH, extend_length. lia. Qed.
  Lemma fold_sizes (rest : list (list N)) : forall z, fold_left (fun p x => p * Z.of_nat (length x))%Z rest z = (z * Z.of_nat (prod (map (@length N) rest)))%Z.
  Proof. induction rest as [|a rest IH]; intro z; cbn [fold_left map prod]; [lia|]. rewrite IH. lia. Qed.

  (** Every combination, once. *)
  Lemma quadrature_spec (args : list (list N)) : args <> [] ->
    (Z.of_nat (prod (map (@length N) args)) * Z.of_nat (length args) <= 10 ^ 9)%Z ->
    exists h, quadrature_combine args = Ok h /\ length h = prod (map (@length N) args) /\
      (forall row, In row h <-> Forall2 (fun v a => In v a) row args) /\
      (Forall (@NoDup N) args -> NoDup h).
  Proof.
    intros Hne Hs. destruct args as [|a rest]; [contradiction|]. unfold quadrature_combine.
    rewrite fold_sizes. cbn [map prod] in *. rewrite Nat2Z.inj_mul in Hs.
    destruct (Z.ltb_spec (10 ^ 9) (Z.of_nat (length a) * Z.of_nat (prod (map (@length N) rest)) * Z.of_nat (length (a :: rest)))) as [H|_]; [lia|].
    exists (fold_left extend rest (map (fun v => [v]) a)). split; [reflexivity|]. split; [|split].
    - rewrite extend_all_length, map_length. reflexivity.
    - intro row. rewrite extend_all_in. split.
      + intros (r & t & -> & Hr & Ht). apply in_map_iff in Hr. destruct Hr as (v & <- & Hv). now constructor.
      + intro H. inversion H as [|v x t r' Hv Ht]; subst. exists [v], t. split; [reflexivity|]. split; [|exact Ht].
        apply in_map_iff. now exists v.
    - intro Hn. inversion Hn; subst. apply extend_all_nodup; [|assumption].
      apply FinFun.Injective_map_NoDup; [|assumption]. now intros v w [= ->].
  Qed.
  Lemma prod_repeat n d : prod (repeat n d) = n ^ d.
  Proof. induction d; cbn; [reflexivity|]. now rewrite IHd. Qed.
  Lemma prod_app a b : prod (a ++ b) = prod a * prod b.
  Proof. induction a; cbn; lia. Qed.
End Combine.

Section Grid.
  Context {N RNG : Type} (O : numops N) (G : rng_ops N RNG) (Gok : rng_ok O G).

  (** ** rng.shuffle *)
  Lemma mapM_nth_error {A} (h : list A) : forall is, Forall (fun i => i < length h) is ->
    exists h', mapM (fun k => match nth_error h k with Some r => Ok r | None => Raise IndexError end) is = Ok h' /\
      forall d, h' = map (fun i => nth i h d) is.
  Proof.
    induction 1 as [|i is Hi _ IH]; [now exists []|]. destruct IH as (h' & E & Hd). cbn [mapM].
    destruct (nth_error h i) as [r|] eqn:Er; [|apply nth_error_None in Er; lia]. cbn [bind]. rewrite E. cbn [bind].
    exists (r :: h'). split; [reflexivity|]. intro d. cbn [map]. rewrite (nth_error_nth _ _ d Er), <- Hd. reflexivity.
  Qed.
  Lemma shuffle_spec (h : list (list N)) g : exists h', shuffle G h g = Ok h' /\ Permutation h' h.
  Proof.
    unfold shuffle. destruct Gok as (_ & _ & _ & HP & _). specialize (HP g (length h)). set (p := fst (rg_perm G g (length h))) in *.
    destruct (@mapM_nth_error _ h p) as (h' & E & Hd).
    { apply Forall_forall. intros i Hi. apply (Permutation_in _ HP) in Hi. apply in_seq in Hi. lia. }
    exists h'. split; [exact E|]. rewrite (Hd []). transitivity (map (fun i => nth i h []) (seq 0 (length h))).
    - now apply Permutation_map.
    - clear. assert (X : map (fun i => nth i h []) (seq 0 (length h)) = h); [|now rewrite X].
      apply nth_ext with (d := []) (d' := []); [now rewrite map_length, seq_length|].
      intros n Hn. rewrite map_length, seq_length in Hn.
      rewrite (nth_indep _ [] ((fun i => nth i h []) 0)) by (rewrite map_length, seq_length; lia).
      rewrite (map_nth (fun i => nth i h [])), seq_nth by lia. reflexivity.
  Qed.

  (** ** Sizes *)
  Lemma ticks_length a c den : length (ticks O a c den) = Z.to_nat c.
  Proof. unfold ticks. now rewrite map_length, seq_length. Qed.
  Definition fits (count : Z) (d : nat) : Prop := (count * Z.of_nat d <= 10 ^ 9)%Z.


  Lemma regular_spec a c den d : 0 < d -> (0 <= c)%Z -> fits (c ^ Z.of_nat d) d ->
    exists h, quadrature_combine (repeat (ticks O a c den) d) = Ok h /\ length h = Z.to_nat c ^ d /\
      (forall row, In row h <-> length row = d /\ Forall (fun v => In v (ticks O a c den)) row) /\
      (NoDup (ticks O a c den) -> NoDup h).
  Proof.
    intros Hd Hc Hf. set (t := ticks O a c den).
    assert (Hp : prod (map (@length N) (repeat t d)) = Z.to_nat c ^ d).
    { rewrite map_repeat, prod_repeat. unfold t. now rewrite ticks_length. }
    destruct (@quadrature_spec N (repeat t d)) as (h & E & L & I & U).
    - destruct d; [lia|discriminate].
    - rewrite Hp, repeat_length. rewrite Nat2Z.inj_pow, Z2Nat.id by exact Hc. exact Hf.
    - exists h. split; [exact E|]. split; [congruence|]. split.
      + intro row. rewrite I. clear. split.
        * intro H. pose proof (Forall2_len H) as L. rewrite repeat_length in L. split; [exact L|].
          remember (repeat t d) as args. assert (Ha : Forall (eq t) args) by (rewrite Heqargs; clear; induction d; constructor; auto). clear Heqargs L.
          induction H as [|v a0 row args Hv _ IH]; constructor; inversion Ha; subst; auto.
        * intros [<- H]. induction H as [|v row Hv _ IH]; constructor; assumption.
      + intro Hn. apply U. clear -Hn. induction d; constructor; auto.
  Qed.

  Lemma border_spec c den d : 0 < d -> (0 <= c)%Z -> fits (2 ^ (Z.of_nat d - 1) * c) d ->
    exists h, quadrature_combine (repeat [nofZ O 0; nofZ O 1] (d - 1) ++ [ticks O 0 c den]) = Ok h /\
      length h = 2 ^ (d - 1) * Z.to_nat c /\
      (forall row, In row h <-> exists r v, row = r ++ [v] /\ length r = d - 1 /\
         Forall (fun x => x = nofZ O 0 \/ x = nofZ O 1) r /\ In v (ticks O 0 c den)) /\
      (nofZ O 0 <> nofZ O 1 -> NoDup (ticks O 0 c den) -> NoDup h).
  Proof.
    intros Hd Hc Hf. set (t := ticks O 0 c den). set (args := repeat [nofZ O 0; nofZ O 1] (d - 1) ++ [t]).
    assert (Hp : prod (map (@length N) args) = 2 ^ (d - 1) * Z.to_nat c).
    { unfold args. rewrite map_app, prod_app, map_repeat, prod_repeat. cbn [map prod length]. unfold t. rewrite ticks_length. lia. }
    destruct (@quadrature_spec N args) as (h & E & L & I & U).
    - unfold args. now destruct (repeat _ _).
    - rewrite Hp. unfold args. rewrite app_length, repeat_length. simpl length.
      rewrite Nat2Z.inj_mul, Nat2Z.inj_pow, Z2Nat.id by exact Hc. unfold fits in Hf.
      replace (d - 1 + 1) with d by lia. replace (Z.of_nat (d - 1)) with (Z.of_nat d - 1)%Z by lia. exact Hf.
    - exists h. split; [exact E|]. split; [congruence|]. split.
      + intro row. rewrite I. unfold args. clear. split.
        * intro H. apply Forall2_app_inv_r in H. destruct H as (r & l & H1 & H2 & ->).
          inversion H2 as [|v a l' ? Hv Hl]; subst. inversion Hl; subst. exists r, v. split; [reflexivity|].
          pose proof (Forall2_len H1) as Lr. rewrite repeat_length in Lr. split; [exact Lr|]. split; [|exact Hv].
          remember (repeat [nofZ O 0; nofZ O 1] (d - 1)) as args.
          assert (Ha : Forall (eq [nofZ O 0; nofZ O 1]) args) by (rewrite Heqargs; generalize (d - 1); intro k; induction k; constructor; auto).
          clear -H1 Ha. induction H1 as [|x a row args Hx _ IH]; constructor; inversion Ha; subst; auto.
          destruct Hx as [-> |[-> |[]]]; auto.
        * intros (r & v & -> & Lr & Fr & Hv). apply Forall2_app; [|now repeat constructor]. rewrite <- Lr. clear -Fr.
          induction Fr as [|x r Hx _ IH]; constructor; [|exact IH]. destruct Hx as [-> | ->]; simpl; auto.
      + intros H01 Hn. apply U. unfold args. apply Forall_app. split; [|now constructor].
        generalize (d - 1). intro k. induction k; constructor; auto. constructor; [|repeat constructor; intros []].
        intros [E0|[]]. now apply H01.
  Qed.

  (** ** The two layouts *)
  Definition first_order (a : grid_args) (n : Z) : Z :=
    let sq := if gr_full a then Z.sqrt n else Z.sqrt_up n in
    match gr_border a with
    | BInclude => Z.max 2 sq
    | BOnly => Z.max 2 (if gr_full a then n / 2 else (n + 1) / 2)
    | _ => Z.max 1 sq
    end.
  Definition first_ticks (a : grid_args) (n : Z) : list N :=
    let q := first_order a n in
    match gr_border a with BInclude => ticks O 0 q (q - 1) | _ => ticks O 1 q (q + 1) end.
  Definition more_order (a : grid_args) (missing : Z) : Z :=
    match gr_append a with
    | BOnly => Z.max 2 ((missing + 1) / 2)
    | BInclude => Z.max 2 (Z.sqrt_up missing)
    | _ => Z.max 1 (Z.sqrt_up missing)
    end.
  Definition more_count (a : grid_args) (d : nat) (missing : Z) : Z :=
    match gr_append a with
    | BOnly => 2 ^ (Z.of_nat d - 1) * more_order a missing
    | _ => more_order a missing ^ Z.of_nat d
    end.
  Definition missing (a : grid_args) (d n : nat) : Z := (Z.of_nat n - first_order a (Z.of_nat n) ^ Z.of_nat d)%Z.
  (** Neither layout has more than 10^9 numbers. *)
  Definition grid_fits (a : grid_args) (d n : nat) : Prop :=
    fits (first_order a (Z.of_nat n) ^ Z.of_nat d) d /\
    ((0 < missing a d n)%Z -> fits (more_count a d (missing a d n)) d).
  Definition valid_border (b : border) : Prop := b <> BOther.

  Lemma max_if m z : (if (z <? m)%Z then m else z) = Z.max m z.
  Proof. destruct (Z.ltb_spec z m); lia. Qed.
  Lemma first_order_pos a n : (0 < first_order a n)%Z.
  Proof. unfold first_order. destruct (gr_border a); lia. Qed.

  Lemma grid_first_spec a d n : 0 < d -> valid_border (gr_border a) -> fits (first_order a n ^ Z.of_nat d) d ->
    exists h, grid_first O a d n = Ok h /\ length h = Z.to_nat (first_order a n) ^ d /\
      (forall row, In row h <-> length row = d /\ Forall (fun v => In v (first_ticks a n)) row) /\
      (NoDup (first_ticks a n) -> NoDup h).
  Proof.
    intros Hd Hv Hf. pose proof (first_order_pos a n) as Hq. unfold grid_first, first_ticks, first_order in *.
    assert (Hd' : (0 <? Z.of_nat d)%Z = true) by (apply Z.ltb_lt; lia).
    destruct (gr_border a); try (now elim Hv); rewrite max_if; unfold grid_include, grid_exclude; rewrite Hd', andb_true_r.
    - set (q := Z.max 2 _) in *. destruct (Z.ltb_spec 1 q); [|lia]. apply regular_spec; [exact Hd|lia|exact Hf].
    - set (q := Z.max 1 _) in *. destruct (Z.ltb_spec 0 q); [|lia]. apply regular_spec; [exact Hd|lia|exact Hf].
    - set (q := Z.max 2 _) in *. destruct (Z.ltb_spec 0 q); [|lia]. apply regular_spec; [exact Hd|lia|exact Hf].
  Qed.

  (** The values in the columns of the second layout. *)
  Definition more_ticks (a : grid_args) (m : Z) : list N :=
    let q := more_order a m in
    match gr_append a with
    | BOnly => nofZ O 0 :: nofZ O 1 :: ticks O 0 q (q - 1)
    | BInclude => ticks O 0 q (q - 1)
    | _ => ticks O 1 q (q + 1)
    end.
  Lemma sq_pow q m d : 2 <= d -> (0 < q)%Z -> (m <= q ^ 2)%Z -> (m <= Z.of_nat (Z.to_nat q ^ d))%Z.
  Proof.
    intros Hd Hq Hm. rewrite Nat2Z.inj_pow, Z2Nat.id by lia.
    assert (q ^ 2 <= q ^ Z.of_nat d)%Z by (apply Z.pow_le_mono_r; lia). lia.
  Qed.
  Lemma grid_more_spec a d m : 2 <= d -> valid_border (gr_append a) -> (0 < m)%Z -> fits (more_count a d m) d ->
    exists h, grid_more O a d m = Ok h /\ (m <= Z.of_nat (length h))%Z /\
      (forall row, In row h -> length row = d /\ Forall (fun v => In v (more_ticks a m)) row).
  Proof.
    intros Hd Hv Hm Hf. unfold grid_more, more_ticks, more_count, more_order in *.
    assert (Hd' : (0 <? Z.of_nat d)%Z = true) by (apply Z.ltb_lt; lia).
    pose proof (Z.sqrt_up_spec m Hm) as [_ Sq]. pose proof (Z.sqrt_up_nonneg m) as Sp.
    assert (Sq2 : forall q, (Z.sqrt_up m <= q)%Z -> (m <= q ^ 2)%Z) by (intros q Hq; rewrite Z.pow_2_r; nia).
    destruct (gr_append a); try (now elim Hv); rewrite max_if; unfold grid_include, grid_exclude, grid_only; rewrite Hd', andb_true_r.
    - set (q := Z.max 2 _) in *. destruct (Z.ltb_spec 1 q); [|lia].
      destruct (@regular_spec 0%Z q (q - 1)%Z d) as (h & E & L & I & _); [lia|lia|exact Hf|].
      exists h. split; [exact E|]. split; [rewrite L; apply sq_pow; [lia|lia|apply Sq2; lia]|]. intros row Hr. now apply I.
    - set (q := Z.max 1 _) in *. destruct (Z.ltb_spec 0 q); [|lia].
      destruct (@regular_spec 1%Z q (q + 1)%Z d) as (h & E & L & I & _); [lia|lia|exact Hf|].
      exists h. split; [exact E|]. split; [rewrite L; apply sq_pow; [lia|lia|apply Sq2; lia]|]. intros row Hr. now apply I.
    - set (q := Z.max 2 _) in *. destruct (Z.ltb_spec 1 q); [|lia].
      destruct (@border_spec q (q - 1)%Z d) as (h & E & L & I & _); [lia|lia|exact Hf|].
      exists h. split; [exact E|]. split.
      + rewrite L. assert (P : 2 <= 2 ^ (d - 1)) by (change 2 with (2 ^ 1) at 1; apply Nat.pow_le_mono_r; lia).
        assert (D : (m + 1 < 2 * ((m + 1) / 2) + 2)%Z) by (pose proof (Z.div_mod (m + 1) 2 ltac:(lia)); pose proof (Z.mod_pos_bound (m + 1) 2 ltac:(lia)); lia).
        assert (Q : (m <= 2 * Z.of_nat (Z.to_nat q))%Z) by lia. nia.
      + intros row Hr. apply I in Hr. destruct Hr as (r & v & -> & Lr & Fr & Hvt). split; [rewrite app_length; simpl; lia|].
        apply Forall_app. split; [|constructor; [now right; right|constructor]].
        eapply Forall_impl; [|exact Fr]. intros x [-> | ->]; simpl; auto.
  Qed.

  (** ** The design *)
  Lemma firstn_incl {A} n (l : list A) x : In x (firstn n l) -> In x l.
  Proof. intro H. rewrite <- (firstn_skipn n l). apply in_or_app. now left. Qed.

  Lemma grid_design_spec a d n g : 2 <= d -> valid_border (gr_border a) -> valid_border (gr_append a) -> grid_fits a d n ->
    exists h, grid_design O G a d n g = Ok h /\ length h = n /\
      (forall row, In row h -> length row = d /\
         (Forall (fun v => In v (first_ticks a (Z.of_nat n))) row \/
          (0 < missing a d n)%Z /\ Forall (fun v => In v (more_ticks a (missing a d n))) row)) /\
      ((0 <= missing a d n)%Z -> forall row, length row = d -> Forall (fun v => In v (first_ticks a (Z.of_nat n))) row -> In row h).
  Proof.
    intros Hd Hb Ha [F1 F2]. unfold grid_design.
    destruct (@grid_first_spec a d (Z.of_nat n) ltac:(lia) Hb F1) as (h1 & E1 & L1 & I1 & _). rewrite E1. cbn [bind].
    assert (LZ : (Z.of_nat (length h1) = first_order a (Z.of_nat n) ^ Z.of_nat d)%Z).
    { rewrite L1, Nat2Z.inj_pow, Z2Nat.id; [reflexivity|]. pose proof (first_order_pos a (Z.of_nat n)). lia. }
    assert (MZ : missing a d n = (Z.of_nat n - Z.of_nat (length h1))%Z) by (unfold missing; now rewrite LZ).
    destruct (Nat.ltb_spec n (length h1)) as [H|H].
    - destruct (shuffle_spec h1 g) as (h2 & E2 & P2). rewrite E2. cbn [bind]. eexists. split; [reflexivity|].
      split; [rewrite firstn_length, (Permutation_length P2); lia|]. split.
      + intros row Hr. apply firstn_incl in Hr. apply (Permutation_in _ P2) in Hr. apply I1 in Hr. destruct Hr as [? ?]. split; [assumption|now left].
      + intro Hm. lia.
    - destruct (Nat.ltb_spec (length h1) n) as [H'|H'].
      + assert (Hm : (0 < missing a d n)%Z) by lia.
        destruct (@grid_more_spec a d (missing a d n) Hd Ha Hm (F2 Hm)) as (h2 & E2 & L2 & I2).
        rewrite <- MZ, E2. cbn [bind].
        destruct (shuffle_spec (h1 ++ firstn (n - length h1) h2) g) as (h3 & E3 & P3). rewrite E3.
        exists h3. split; [reflexivity|]. split.
        { rewrite (Permutation_length P3), app_length, firstn_length. lia. }
        split.
        * intros row Hr. apply (Permutation_in _ P3) in Hr. apply in_app_or in Hr. destruct Hr as [Hr|Hr].
          -- apply I1 in Hr. destruct Hr. split; [assumption|now left].
          -- apply firstn_incl, I2 in Hr. destruct Hr. split; [assumption|]. right. now split.
        * intros _ row Lr Fr. apply (Permutation_in _ (Permutation_sym P3)). apply in_or_app. left. apply I1. now split.
      + destruct (shuffle_spec h1 g) as (h2 & E2 & P2). rewrite E2. exists h2. split; [reflexivity|].
        split; [rewrite (Permutation_length P2); lia|]. split.
        * intros row Hr. apply (Permutation_in _ P2) in Hr. apply I1 in Hr. destruct Hr. split; [assumption|now left].
        * intros _ row Lr Fr. apply (Permutation_in _ (Permutation_sym P2)). apply I1. now split.
  Qed.

  (** Without repetition, for the default layout: interior grid, completed from the border. *)
  Lemma NoDup_firstn {A} (l : list A) : NoDup l -> forall n, NoDup (firstn n l).
  Proof.
    induction 1 as [|x l Hn _ IH]; intro n; [rewrite firstn_nil; constructor|]. destruct n; [constructor|]. cbn [firstn].
    constructor; [|apply IH]. intro Hi. apply Hn. now apply firstn_incl in Hi.
  Qed.
  Lemma grid_design_nodup full d n g h : 2 <= d -> let a := mkGrid BExclude full BOnly in grid_fits a d n ->
    (forall a0 c den, (c <= den)%Z -> (0 < den)%Z -> NoDup (ticks O a0 c den)) ->
    NoDup (ticks O 0 (Z.max 2 ((missing a d n + 1) / 2)) (Z.max 2 ((missing a d n + 1) / 2) - 1)) ->
    nofZ O 0 <> nofZ O 1 ->
    (forall c, (0 < c)%Z -> ~ In (nofZ O 0) (ticks O 1 c (c + 1)) /\ ~ In (nofZ O 1) (ticks O 1 c (c + 1))) ->
    grid_design O G a d n g = Ok h -> NoDup h.
  Proof.
    intros Hd a [F1 F2] HT HT2 H01 Hin H. unfold grid_design in H.
    destruct (@grid_first_spec a d (Z.of_nat n) ltac:(lia) ltac:(discriminate) F1) as (h1 & E1 & L1 & I1 & U1). rewrite E1 in H. cbn [bind] in H.
    assert (LZ : (Z.of_nat (length h1) = first_order a (Z.of_nat n) ^ Z.of_nat d)%Z).
    { rewrite L1, Nat2Z.inj_pow, Z2Nat.id; [reflexivity|]. pose proof (first_order_pos a (Z.of_nat n)). lia. }
    assert (MZ : missing a d n = (Z.of_nat n - Z.of_nat (length h1))%Z) by (unfold missing; now rewrite LZ).
    pose proof (first_order_pos a (Z.of_nat n)) as Hq.
    assert (N1 : NoDup h1).
    { apply U1. unfold first_ticks. apply HT; simpl; lia. }
    destruct (Nat.ltb_spec n (length h1)) as [Hl|Hl].
    - destruct (shuffle_spec h1 g) as (h2 & E2 & P2). rewrite E2 in H. injection H as <-. apply NoDup_firstn.
      apply (Permutation_NoDup (Permutation_sym P2)), N1.
    - destruct (Nat.ltb_spec (length h1) n) as [H'|H'].
      + assert (Hm : (0 < missing a d n)%Z) by lia. rewrite <- MZ in H.
        unfold grid_more in H. cbn [gr_append a] in H. rewrite max_if in H. unfold grid_only in H.
        replace ((1 <? Z.max 2 ((missing a d n + 1) / 2)) && (0 <? Z.of_nat d))%Z with true in H
          by (symmetry; apply andb_true_iff; split; apply Z.ltb_lt; lia).
        destruct (@border_spec (Z.max 2 ((missing a d n + 1) / 2)) (Z.max 2 ((missing a d n + 1) / 2) - 1) d) as (h2 & E2 & L2 & I2 & U2);
          [lia|lia|exact (F2 Hm)|].
        rewrite E2 in H. cbn [bind] in H.
        destruct (shuffle_spec (h1 ++ firstn (n - length h1) h2) g) as (h3 & E3 & P3). rewrite E3 in H. injection H as <-.
        apply (Permutation_NoDup (Permutation_sym P3)). apply NoDup_app_intro; [exact N1|apply NoDup_firstn, U2; assumption|].
        intros row R1 R2. apply firstn_incl, I2 in R2. apply I1 in R1. destruct R1 as [_ R1].
        destruct R2 as (r & v & -> & Lr & Fr & _). destruct r as [|x r]; [simpl in Lr; lia|].
        inversion R1 as [|? ? Hx _]; subst. inversion Fr as [|? ? Hx' _]; subst.
        unfold first_ticks in Hx. cbn [gr_border a] in Hx. destruct (Hin _ Hq) as [A B]. destruct Hx' as [-> | ->]; contradiction.
      + destruct (shuffle_spec h1 g) as (h2 & E2 & P2). rewrite E2 in H. injection H as <-.
        apply (Permutation_NoDup (Permutation_sym P2)), N1.
  Qed.
End Grid.
