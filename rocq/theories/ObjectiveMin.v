(** What the argument [minimum] of plot_objective stands for (C73). *)
From Coq Require Import String List ZArith Bool Lia Reals.
From Verif Require Import Base BaseLemmas Num Values Transformers Dimension Space NumLaws SpaceSpec NormLaws RealLemmas ForestSpec Optimizer Plots
  PlotSpec DependSpec DependTotal Expected Objective PanelSpec ObjectiveLemmas ObjectiveTotal.
Import ListNotations.
Open Scope nat_scope.
Open Scope string_scope.
Open Scope list_scope.
Set Implicit Arguments.

Section Minimum.
  Notation val := (pyval R).
  Variable predict : list (list val) -> res (list R).
  Context {RNG : Type} (G : rng_ops R RNG).
  Variable below_inf : R -> bool.
  Variable sp : (list R -> res R) -> list val -> list (R * R) -> res (list R * R).
  Notation eval := (evaluate_min_params Rops G predict below_inf sp).
  Notation meant := (meant predict G below_inf sp).
  Lemma not_cat (dims : list (dim R)) : is_partly_categorical dims = false <-> Forall (fun d => is_cat d = false) dims.
  Proof.
    unfold is_partly_categorical. induction dims as [|d dims IH]; cbn; [now split|]. rewrite orb_false_iff, IH. split; [intros []; now constructor|intro H; now inversion H].
  Qed.
  Lemma eval_meant dims x mn n g p : eval dims x mn n g = Ok p <-> meant dims x n g mn p.
  Proof.
    split.
    - destruct mn as [s|l|]; cbn [evaluate_min_params]; [|destruct (Nat.eqb_spec (length l) (length x)); [intro H; injection H as <-; now constructor|discriminate]|discriminate].
      destruct (String.eqb_spec s "result") as [->|_]; [intro H; injection H as <-; constructor|].
      destruct (String.eqb_spec s "expected_minimum") as [->|_].
      { destruct (is_partly_categorical dims) eqn:E; [discriminate|]. apply not_cat in E. destruct (expected_minimum _ _ _ _ _ _ _ _ _) as [[q v]|] eqn:Q; [|discriminate].
        intro H. injection H as <-. refine (@meant_expected _ _ _ _ _ dims x n g _ q v E _ Q). now destruct n as [[|]|]. }
      destruct (String.eqb_spec s "expected_minimum_random") as [->|_]; [|discriminate].
      destruct (expected_minimum_random_sampling _ _ _ _ _ _) as [[q v]|] eqn:Q; [|discriminate]. intro H. injection H as <-.
      refine (@meant_random _ _ _ _ _ dims x n g _ q v _ Q). now destruct n.
    - intros [|m q v Hc Hn Q|m q v Hn Q|l Hl]; cbn [evaluate_min_params].
      + reflexivity.
      + apply not_cat in Hc. cbn [String.eqb Ascii.eqb Bool.eqb]. rewrite Hc. replace (Z.of_nat _) with m by (destruct n as [[|]|]; subst; reflexivity). now rewrite Q.
      + cbn [String.eqb Ascii.eqb Bool.eqb]. replace (match n with Some k => k | None => Nat.pow 10 (length x) end) with m by (destruct n; auto). now rewrite Q.
      + apply Nat.eqb_eq in Hl. now rewrite Hl.
  Qed.
  Lemma sources_meant dims x src n_samples n_search g2 g3 P : sources_by predict G below_inf sp dims x src n_samples n_search g2 g3 P <-> sources predict G below_inf sp dims x n_samples n_search g2 g3 src P.
  Proof.
    split.
    - intro H. assert (T : forall s, (exists q, eval dims x s n_search g3 = Ok q /\ P = [q]) -> sources predict G below_inf sp dims x n_samples n_search g2 g3 s P).
      { intros s (q & E & ->). apply source_point. now apply eval_meant. }
      assert (T2 : fst (space_rvs Rops G dims n_samples g2) = Ok P -> sources predict G below_inf sp dims x n_samples n_search g2 g3 (MName "random") P) by apply source_random.
      clear -H T T2. destruct src as [s| |]; try (now apply T). unfold sources_by in H.
      repeat (match type of H with context [match ?s with EmptyString => _ | String _ _ => _ end] => destruct s | context [match ?b with true => _ | false => _ end] => destruct b | context [match ?a with Ascii.Ascii _ _ _ _ _ _ _ _ => _ end] => destruct a end); try (now apply T); now apply T2.
    - intros [Q H|s p H]; [exact H|]. pose proof H as H2. apply eval_meant in H2. destruct H; eexists; (split; [exact H2|reflexivity]).
  Qed.

  (** What is refused *)
  Lemma objective_refused (dims : list (dim R)) x x_iters keys src mn n_samples n n_search zscale show g1 g2 g3 :
    (forall l, mn = MList l -> length l <> length x -> plot_objective Rops G predict below_inf sp dims x x_iters keys src mn n_samples n n_search zscale show g1 g2 g3 = Raise AssertionError) /\
    (mn = MName "expected_minimum" -> Exists (fun d => is_cat d = true) dims -> plot_objective Rops G predict below_inf sp dims x x_iters keys src mn n_samples n n_search zscale show g1 g2 g3 = Raise ValueError) /\
    (forall s, mn = MName s -> ~ In s ["result"; "expected_minimum"; "expected_minimum_random"] -> plot_objective Rops G predict below_inf sp dims x x_iters keys src mn n_samples n n_search zscale show g1 g2 g3 = Raise ValueError).
  Proof.
    assert (K : forall e, eval dims x mn n_search g1 = Raise e -> plot_objective Rops G predict below_inf sp dims x x_iters keys src mn n_samples n n_search zscale show g1 g2 g3 = Raise e).
    { intros e E. unfold plot_objective, objective_data. now rewrite E. }
    split; [|split].
    - intros l -> Hl. apply K. cbn [evaluate_min_params]. apply Nat.eqb_neq in Hl. now rewrite Hl.
    - intros -> Hc. apply K. cbn [evaluate_min_params String.eqb Ascii.eqb Bool.eqb]. destruct (is_partly_categorical dims) eqn:E; [reflexivity|].
      apply not_cat in E. apply Exists_exists in Hc as (d & Hd & Hc). rewrite Forall_forall in E. rewrite (E d Hd) in Hc. discriminate.
    - intros s -> Hs. apply K. cbn [evaluate_min_params]. destruct (String.eqb_spec s "result") as [->|_]; [destruct Hs; now left|].
      destruct (String.eqb_spec s "expected_minimum") as [->|_]; [destruct Hs; now right; left|].
      destruct (String.eqb_spec s "expected_minimum_random") as [->|_]; [destruct Hs; now do 2 right; left|reflexivity].
  Qed.

  Lemma objective_meant : (forall rows, rows <> [] -> exists p, predict rows = Ok p /\ p <> []) ->
    forall dims x x_iters keys src mn n_samples n n_search zscale show g1 g2 g3 P x_vals,
    dims <> [] -> Forall ideal_dim dims -> Forall (in_space Rops dims) x_iters ->
    sources predict G below_inf sp dims x n_samples n_search g2 g3 src P -> P <> [] -> Forall (in_space Rops dims) P ->
    meant dims x n_search g1 mn x_vals -> in_space Rops dims x_vals ->
    (forall i, (i < panels_asked Rops dims keys)%nat -> exists a d, asked Rops dims keys i a d) -> (0 < n)%nat ->
    zscale = "linear"%string \/ zscale = "log"%string ->
    exists grid, plot_objective Rops G predict below_inf sp dims x x_iters keys src mn n_samples n n_search zscale show g1 g2 g3 = Ok grid /\
      length grid = panels_asked Rops dims keys /\
      forall i a d, asked Rops dims keys i a d -> exists row c, nth_error grid i = Some row /\ length row = S i /\
        nth_error row i = Some c /\ line_of predict dims a P x_vals n c /\
        forall j b d', (j < i)%nat -> asked Rops dims keys j b d' ->
          exists c, nth_error row j = Some c /\ contour_of predict dims a b P x_iters x_vals show n c.
  Proof.
    intros Hp dims x x_iters keys src mn n_samples n n_search zscale show g1 g2 g3 P x_vals H1 H2 H3 H4 H5 H6 H7. apply sources_meant in H4. apply eval_meant in H7.
    eapply objective; eassumption.
  Qed.
  Lemma panel_2D_meant dims x x_iters k1 k2 src mn n_samples n n_search g1 g2 g3 c : dims <> [] -> Forall ideal_dim dims -> Forall (in_space Rops dims) x_iters ->
    plot_objective_2D Rops G predict below_inf sp dims x x_iters k1 k2 src mn n_samples n n_search g1 g2 g3 = Ok c ->
    exists P x_vals a d1 b d2, sources predict G below_inf sp dims x n_samples n_search g2 g3 src P /\ meant dims x n_search g1 mn x_vals /\
      space_get dims k1 = Some (a, d1) /\ space_get dims k2 = Some (b, d2) /\
      (P <> [] -> Forall (in_space Rops dims) P -> in_space Rops dims x_vals -> contour_of predict dims b a P x_iters x_vals true n c).
  Proof.
    intros H1 H2 H3 H. apply panel_2D in H; auto. destruct H as (P & xv & a & d1 & b & d2 & A & B & C & D & E). exists P, xv, a, d1, b, d2.
    apply sources_meant in A. apply eval_meant in B. auto.
  Qed.
End Minimum.
