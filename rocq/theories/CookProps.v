(** Proofs about surrogates and generators asked for by name (C84, C85, C86). *)
From Coq Require Import String List ZArith Bool Ascii Reals Lra Lia.
From Coquelicot Require Import Coquelicot.
From Verif Require Import Base BaseLemmas Num NumLaws Values Transformers Dimension Space CheckDim Switch SwitchSpec SwitchProps
  Optimizer Kernels Gpr GprSpec KernelPsdSpec NamedLemmas Cook CookSpec CookLemmas.
Import ListNotations.
Open Scope list_scope.
Set Implicit Arguments.

(** *** The default kernel *)
Lemma exp_second z : (0 <= z -> 1 + z + z ^ 2 / 2 <= exp z)%R.
Proof.
  intros Hz.
  destruct (MVT_gen (fun t => exp t - (1 + t + t ^ 2 / 2))%R 0%R z (fun t => exp t - (1 + t))%R) as (c & Hc & Heq).
  - intros t _. auto_derive; [exact I|]. field.
  - intros t _. apply derivable_continuous_pt. exists (exp t - (1 + t))%R. apply is_derive_Reals. auto_derive; [exact I|]. field.
  - rewrite Rmin_left, Rmax_right in Hc by lra. rewrite exp_0 in Heq. pose proof (exp_ineq1_le c).
    assert (0 <= (exp c - (1 + c)) * (z - 0))%R by (apply Rmult_le_pos; lra). lra.
Qed.
Lemma matern_range u : (0 <= u -> 0 < matern Nu5Half u <= 1)%R.
Proof.
  intros Hu. unfold matern, sqr. assert (H : (0 <= sqrt 5 * u)%R) by (apply Rmult_le_pos; [apply sqrt_pos|exact Hu]).
  revert H. generalize (sqrt 5 * u)%R as z. intros z Hz. pose proof (exp_second Hz) as H. rewrite exp_Ropp. pose proof (exp_pos z) as Hp. split.
  - apply Rmult_lt_0_compat; [nra|]. now apply Rinv_0_lt_compat.
  - apply (Rmult_le_reg_r (exp z)); [exact Hp|]. rewrite Rmult_assoc, Rinv_l by lra. nra.
Qed.
Lemma norm_pos v : (0 <= norm v)%R.
Proof. apply sqrt_pos. Qed.
Lemma scales_ones n d : d = n -> scales (Aniso (repeat 1%R n)) d = Ok (repeat 1%R n).
Proof.
  intros ->. destruct n as [|[|n]]; [reflexivity|reflexivity|]. cbn. now rewrite repeat_length, Nat.eqb_refl.
Qed.
Lemma zip_nonneg : forall l l', List.Forall (fun a => 0 <= a)%R l -> List.Forall (fun a => 0 <= a)%R l' -> (0 <= sum (zip Rmult l l'))%R.
Proof.
  induction l as [|a l IH]; intros [|b l'] F F'; cbn; try lra. inversion F; inversion F'; subst. pose proof (IH l' ltac:(assumption) ltac:(assumption)) as Q.
  unfold zip, sum in Q. assert (0 <= a * b)%R by (apply Rmult_le_pos; assumption). unfold zip in *. cbn in *. lra.
Qed.
Lemma mismatch_nonneg : forall x t, List.Forall (fun a => 0 <= a)%R (zip mismatch x t).
Proof.
  induction x as [|a x IH]; intros [|b t]; cbn; constructor; [|apply IH]. unfold mismatch. cbn. destruct Req_EM_T; lra.
Qed.
Lemma mismatch_self : forall x ls, sum (zip Rmult ls (zip mismatch x x)) = 0%R.
Proof.
  induction x as [|a x IH]; intros [|l ls]; cbn; try reflexivity. unfold mismatch at 1. cbn. destruct Req_EM_T; [|easy]. unfold zip, sum in IH. rewrite (IH ls). lra.
Qed.
Lemma self_norm : forall x n, norm (zip Rdiv (zip Rminus x x) (repeat 1%R n)) = 0%R.
Proof.
  intros x n. unfold norm, sq_norm. replace (sum _) with 0%R; [apply sqrt_0|]. revert n. induction x as [|a x IH]; intros [|n]; cbn; try reflexivity.
  specialize (IH n). unfold zip, sum in IH. rewrite <- IH. unfold sqr, Rdiv. rewrite Rminus_diag_eq by reflexivity. ring.
Qed.
Definition similar (k : kernel) (n : nat) : Prop :=
  forall x t, length x = n -> length t = n -> exists v, kcall k 2 x t = Ok v /\ (0 < v <= 1)%R /\ (x = t -> v = 1%R).
Lemma similar_hamming n : similar (Prod (Const 1) (Hamming (Aniso (repeat 1%R n)))) n.
Proof.
  intros x t Hx Ht. cbn [kcall bind Nat.leb]. unfold hamming. rewrite Hx, Ht, Nat.eqb_refl, scales_ones by reflexivity. cbn [bind]. eexists. split; [reflexivity|].
  assert (P : (0 <= sum (zip Rmult (repeat 1 n) (zip mismatch x t)))%R).
  { apply zip_nonneg; [|apply mismatch_nonneg]. apply List.Forall_forall. intros a I. apply repeat_spec in I. lra. }
  split; [|intros ->; rewrite mismatch_self, Ropp_0, exp_0; ring].
  pose proof (exp_pos (- sum (zip Rmult (repeat 1 n) (zip mismatch x t)))%R). split; [lra|].
  rewrite Rmult_1_l. rewrite <- exp_0 at 2. destruct P as [P|P]; [left; apply exp_increasing; lra|right; f_equal; lra].
Qed.
Lemma similar_matern n : similar (Prod (Const 1) (Matern Nu5Half (Aniso (repeat 1%R n)))) n.
Proof.
  intros x t Hx Ht. cbn [kcall bind Nat.leb]. unfold diffs, minus. rewrite Hx, Ht, Nat.eqb_refl. cbn [bind]. rewrite scales_ones by reflexivity. cbn [bind]. eexists. split; [reflexivity|].
  pose proof (matern_range (norm_pos (zip Rdiv (zip Rminus x t) (repeat 1%R n)))) as M. rewrite Rmult_1_l. split; [exact M|].
  intros ->. rewrite self_norm. unfold matern, sqr. rewrite Rmult_0_r, Ropp_0, exp_0. lra.
Qed.

Section Default.
  Context {N : Type} (O : numops N).
  Notation obj := (dobj N).
  Implicit Types (h : heap N) (ds : list (harg N)) (os : list obj).

  Definition cats os : bool := forallb (fun o => is_cat (ob_dim o)) os.
  Lemma default_normal os : default_kernel (map (@normal N) os) =
    Prod (Const 1) (if cats os then Hamming (Aniso (repeat 1%R (length os))) else Matern Nu5Half (Aniso (repeat 1%R (length os)))).
  Proof.
    unfold default_kernel, cats.
    replace (fold_right _ _ _) with (length os). 2:{ induction os as [|o os IH]; cbn; [reflexivity|]. destruct (normal_size O o) as [-> _]. cbn. now rewrite IH. }
    replace (forallb _ (map _ os)) with (forallb (fun o => is_cat (ob_dim o)) os); [reflexivity|].
    induction os as [|o os IH]; cbn; [reflexivity|]. now rewrite (normal_cat o), IH.
  Qed.
  Lemma default_similar os : similar (default_kernel (map (@normal N) os)) (length os).
  Proof. rewrite default_normal. destruct (cats os); [apply similar_hamming|apply similar_matern]. Qed.
  Lemma default_valid os : valid (default_kernel (map (@normal N) os)) (length os).
  Proof.
    rewrite default_normal. split; [cbn; lra|]. assert (F : forall P : R -> Prop, P 1%R -> scale_fits P (Aniso (repeat 1%R (length os))) (length os)).
    { intros P H1. generalize (length os) as n. intros [|[|n]]; cbn; [auto|exact H1|]. rewrite repeat_length. split; [reflexivity|]. repeat constructor; try exact H1.
      apply List.Forall_forall. intros a I. apply repeat_spec in I. now subst. }
    destruct (cats os); cbn [valid]; apply F; lra.
  Qed.
  Lemma default_gradients os : cats os = false -> forall x t, length x = length os -> length t = length os ->
    exists v, gradient_x (default_kernel (map (@normal N) os)) 1 x t = Ok v.
  Proof.
    intros E x t Hx Ht. rewrite default_normal, E. cbn [gradient_x kcall bind Nat.leb]. unfold diffs, minus. rewrite Hx, Ht, Nat.eqb_refl. cbn [bind].
    rewrite scales_ones by reflexivity. cbn [bind]. now eexists.
  Qed.
  Lemma default_no_gradients os : cats os = true -> forall x t, exists err, gradient_x (default_kernel (map (@normal N) os)) 1 x t = Raise err.
  Proof. intros E x t. rewrite default_normal, E. now eexists. Qed.
  Lemma default_hamming os : has_hamming (default_kernel (map (@normal N) os)) = cats os.
  Proof. rewrite default_normal. now destruct (cats os). Qed.
  Lemma t_n_normal os : t_n_dims (map (fun o => ob_dim (normal o)) os) = length os.
  Proof. induction os as [|o os IH]; cbn; [reflexivity|]. destruct (normal_size O o) as [_ ->]. unfold t_n_dims in IH. cbn. now rewrite IH. Qed.

  (** *** Making and normalising a space *)
  Lemma make_space_given : forall ds h h' l, make_space O h ds = (h', Ok l) -> forall a, given ds a -> In a l.
  Proof.
    unfold given. induction ds as [|d ds IH]; cbn [make_space In]; intros h h' l E a I; [easy|].
    destruct (check_arg O h d) as [h1 [b|e]] eqn:E1; [|easy]. destruct (make_space O h1 ds) as [h2 [l2|]] eqn:E2; [|easy]. injection E as <- <-.
    destruct I as [->|I]; [|right; now apply IH with (1 := E2)]. left. cbn [check_arg] in E1. destruct (Nat.ltb a (length h)); [now injection E1|easy].
  Qed.
  Lemma normalize_dims_ok ds h os : Forall2 (arg_obj O h) ds os -> exists h' l, normalize_dimensions O h ds = (h', Ok l) /\
    Forall2 (fun a o => nth_error h' a = Some (normal o)) l os /\
    (forall a o, nth_error h a = Some o -> given ds a -> nth_error h' a = Some (normal o)) /\
    (forall a o, nth_error h a = Some o -> ~ given ds a -> nth_error h' a = Some o).
  Proof.
    intros F. destruct (make_space_ok F) as (h1 & l & E1 & F1). unfold normalize_dimensions. rewrite E1.
    destruct (@normalize_all_ok N l h1) as (h2 & E2 & L & Fr & No); [intros a I; now apply (@make_space_addresses N O ds h h1 l E1)|].
    rewrite E2. exists h2, l. split; [reflexivity|]. destruct (@make_space_grows N O _ _ _ _ E1) as (ext & ->). split; [|split].
    - assert (Q : forall l0 os0, incl l0 l -> Forall2 (fun a o => nth_error (h ++ ext) a = Some o) l0 os0 -> Forall2 (fun a o => nth_error h2 a = Some (normal o)) l0 os0).
      { induction 2 as [|a o l0 os0 A _ IH]; constructor; [|apply IH; intros x X; apply H; now right]. rewrite No by (apply H; now left). now rewrite A. }
      apply Q; [apply incl_refl|exact F1].
    - intros a o A G. rewrite No by (now apply (@make_space_given ds h _ l E1)). now rewrite (@grows_untouched N h ext a o A).
    - intros a o A G. rewrite Fr; [now apply grows_untouched|]. intro I. destruct (@make_space_addresses N O ds h _ l E1 _ I) as (_ & [B|B]); [easy|].
      assert (a < length h)%nat by (apply nth_error_Some; congruence). lia.
  Qed.
  Lemma normalize_dims_frame ds h h' r : normalize_dimensions O h ds = (h', r) -> forall a o, nth_error h a = Some o -> ~ given ds a -> nth_error h' a = Some o.
  Proof.
    unfold normalize_dimensions. destruct (make_space O h ds) as [h1 [l|e]] eqn:E1; intros E a o A G; destruct (@make_space_grows N O _ _ _ _ E1) as (ext & ->).
    - destruct (normalize_all (h ++ ext) l) as [h2 r2] eqn:E2. assert (Eh : h2 = h') by (destruct r2; congruence). subst h2.
      rewrite (@normalize_all_frame N l _ _ _ E2); [now apply grows_untouched|]. intro I. destruct (@make_space_addresses N O ds h _ l E1 _ I) as (_ & [B|B]); [easy|].
      assert (a < length h)%nat by (apply nth_error_Some; congruence). lia.
    - injection E as <- <-. now apply grows_untouched.
  Qed.
  Lemma arg_again ds h h' os : (forall a o, nth_error h a = Some o -> given ds a -> nth_error h' a = Some (normal o)) -> Forall2 (arg_obj O h) ds os ->
    exists os', Forall2 (arg_obj O h') ds os' /\ map (@normal N) os' = map (@normal N) os.
  Proof.
    intros H F. assert (Q : forall ds0, incl ds0 ds -> forall os0, Forall2 (arg_obj O h) ds0 os0 -> exists os', Forall2 (arg_obj O h') ds0 os' /\ map (@normal N) os' = map (@normal N) os0).
    - induction ds0 as [|d ds0 IH]; intros I os0 F0; inversion F0 as [|? o ? os1 A F1]; subst; [now exists []|].
      destruct (IH (fun x X => I x (or_intror X)) _ F1) as (os' & G & M). destruct d as [a|s|]; cbn [arg_obj] in A; [| |easy].
      + exists (normal o :: os'). split; [constructor; [|exact G]|cbn; now rewrite normal_twice, M]. cbn [arg_obj]. apply H; [exact A|]. apply I. now left.
      + exists (o :: os'). split; [now constructor|cbn; now rewrite M].
    - now apply Q; [apply incl_refl|].
  Qed.
  Lemma stands_all h ds dms : Forall2 (stands_for O h) ds dms -> exists os, Forall2 (arg_obj O h) ds os /\ map (@ob_dim N) os = dms.
  Proof.
    induction 1 as [|d dm ds dms S _ (os & F & M)]; [now exists []|]. destruct (stands_arg_obj S) as (o & A & B). exists (o :: os). split; [now constructor|cbn; now rewrite B, M].
  Qed.
  Lemma at_all h l os : Forall2 (fun a o => nth_error h a = Some o) l os -> mapM (at_ h) l = Ok os.
  Proof. intro F. apply mapM_ok. induction F as [|a o l os H F IH]; constructor; [|exact IH]. unfold at_. now rewrite H. Qed.
  Lemma dims_all h l os : Forall2 (fun a o => nth_error h a = Some o) l os -> dims_at h l = Ok (map (@ob_dim N) os).
  Proof. intro F. unfold dims_at. apply mapM_ok. induction F as [|a o l os H F IH]; constructor; [|exact IH]. unfold at_. now rewrite H. Qed.
  Lemma forall2_normal h l os : Forall2 (fun a o => nth_error h a = Some (normal o)) l os -> Forall2 (fun a o => nth_error h a = Some o) l (map (@normal N) os).
  Proof. induction 1; constructor; auto. Qed.
End Default.
Arguments forall2_normal {N h l os} _.
Arguments at_all {N h l os} _.
Arguments dims_all {N h l os} _.
Arguments normalize_dims_ok {N O ds h os} _.
Arguments stands_all {N O h ds dms} _.
Arguments arg_again {N O ds h h' os} _ _.
