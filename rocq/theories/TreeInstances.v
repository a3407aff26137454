(** The tree based regressors as surrogates (C83, C90). *)
From Coq Require Import String List ZArith Bool Reals Lra Lia.
From Verif Require Import Base BaseLemmas Num NumLaws Values Dimension Space Optimizer Acquisition AcqSpec OptSpec SpaceSpec
  Forest ForestSpec ForestLemmas Gbrt GbrtLemmas GpWorld WorthSpec CampaignSpec TreeWorld TreeWorldProps.
Import ListNotations.
Open Scope R_scope.
Open Scope list_scope.
Set Implicit Arguments.

Section Instances.
  Context (cdf pdf : R -> R) (xi : option R) (kappa : option (@kappa_arg R)).
  Context (argsort : list R -> list nat)
          (generate : list (dim R) -> Z -> Z -> res (list (point R))) (logmax : R).

  Section Forest.
    Context (grow : list (list R) -> list R -> list tree) (criterion : string) (minvar : R).
    Notation K := (forest_reg grow criterion minvar).
    Notation W := (tree_world K cdf pdf xi kappa argsort generate logmax).

    Lemma forest_sound_std X y e rows m s : (forall x, In x rows -> List.Forall (sound_tree x) (grow X y)) -> g_fit K X y = Ok e -> g_std K e rows = Ok (m, s) ->
      m = map (trees_mean (grow X y)) rows /\ s = map (trees_std minvar (grow X y)) rows.
    Proof.
      intros Hs Hf H. injection Hf as <-. cbn [g_std forest_reg] in H. apply bind_ok in H. destruct H as (ans & H & H'). apply c56 in H; [|exact Hs].
      destruct H as (m' & s' & -> & -> & F). injection H' as <- <-. cbn [f_trees f_minvar] in *. split; [reflexivity|].
      induction F as [|x v rows s' (-> & _) F IH]; [reflexivity|]. cbn. f_equal. apply IH. intros; apply Hs; now right.
    Qed.
    Lemma return_std_len trees mv : forall X means s, return_std trees mv X means = Ok s -> length s = length X.
    Proof.
      induction X as [|x X IH]; intros [|m ms] s H; cbn in H; try discriminate; [now injection H as <-|].
      destruct (return_std1 _ _ _ _); [|discriminate]. cbn in H. destruct (return_std trees mv X ms) eqn:Q; [|discriminate]. injection H as <-. cbn. f_equal. eauto.
    Qed.
    Lemma forest_full : full K.
    Proof.
      intros X y e rows m s _ H. cbn [g_std forest_reg] in H. apply bind_ok in H. destruct H as (ans & H & H'). unfold forest_predict in H.
      destruct (String.eqb _ _); [|discriminate]. destruct (return_std _ _ _ _) as [v|] eqn:Q; [|discriminate]. injection H as <-. injection H' as <- <-.
      split; [apply map_length|now apply return_std_len in Q].
    Qed.

    Lemma c90_forest RNG (G : rng_ops R RNG) (HN : std_normal cdf pdf) (HS : forall X y x, List.Forall (sound_tree x) (grow X y)) x y o o' r a :
      reachable Rops G W o -> tell Rops G W x y true o = (o', Ok r) ->
      (c_n0 (o_cfg o') <= Z.of_nat (length (o_yi o')))%Z -> c_est (o_cfg o') <> None ->
      c_lbfgs (o_cfg o') = false -> c_acq (o_cfg o') = AOne a -> ps_of o' = false ->
      let dims := c_dims (o_cfg o') in
      exists D Dt Dn g P X rows yopt i x0 row v nx p rest,
        let trees := grow Dn (map y_obj (o_yi o')) in
        let value row := worth yopt xi kappa a (trees_mean trees row) (trees_std minvar trees row) in
        (o_Xi o' = map (@X1 R) D /\ space_transform Rops dims D = Ok Dt /\ mapM num_row Dt = Ok Dn) /\
        (fst (space_rvs Rops G dims (c_npoints (o_cfg o')) g) = Ok P /\ space_transform Rops dims P = Ok X /\ mapM num_row X = Ok rows) /\
        (In yopt (map y_obj (o_yi o')) /\ forall w, In w (map y_obj (o_yi o')) -> yopt <= w) /\
        (nth_error X i = Some x0 /\ nth_error rows i = Some row) /\
        (value row v /\ forall row', In row' rows -> exists v', value row' v' /\ v' <= v) /\
        (if is_categorical dims then nx = x0 else clipped_row Rops (space_tbounds Rops dims) x0 nx) /\
        space_inverse Rops dims [nx] = Ok (p :: rest) /\ o_next o' = Some p.
    Proof.
      intros Hr H Hn He Hb Ha Hps dims.
      destruct (@tree_suggests _ K cdf pdf xi kappa argsort generate logmax _ G HN forest_full x y o o' r a Hr H Hn He Hb Ha Hps) as
        (ms & e & D & Dt & Dn & g & P & X & rows & yopt & mus & stds & i & mu & s & x0 & nx & p & rest & _ & (A1 & A2 & A3 & A4) & (B1 & B2 & B3 & B4) & C & (E1 & E2 & E3) & (v & V1 & V2) & F & I & J).
      destruct (@forest_sound_std _ _ _ _ _ _ (fun x _ => HS _ _ x) A4 B4) as (-> & ->).
      rewrite nth_error_map in E2, E3. destruct (nth_error rows i) as [row|] eqn:Ei; [|discriminate]. injection E2 as <-. injection E3 as <-.
      exists D, Dt, Dn, g, P, X, rows, yopt, i, x0, row, v, nx, p, rest. cbv zeta. split; [auto|]. split; [auto|]. split; [exact C|]. split; [auto|]. split; [|auto].
      split; [exact V1|]. intros row' Hi. apply In_nth_error in Hi. destruct Hi as (j & Ej). apply (V2 j); now apply map_nth_error.
    Qed.

    Lemma forest_dependable dims acq : criterion = "mse"%string -> (forall X y, X <> [] -> length X = length y -> grow X y <> []) ->
      (forall X y x, List.Forall (sound_tree x) (grow X y)) ->
      argsort_ok Rops W ->
      (forall n seed, (0 <= n)%Z -> exists l, generate dims n seed = Ok l /\ length l = Z.to_nat n /\ List.Forall (in_space Rops dims) l) ->
      dependable W anything dims acq false.
    Proof.
      intros Hc Hn HS. apply tree_dependable. intros X y _ NX L. eexists. split; [reflexivity|]. intros Z _ _.
      destruct (@c56_total (mkForest (grow X y) criterion minvar) Z Hc (Hn X y NX L) (fun x _ => HS X y x)) as (ans & Q).
      assert (Q' : forest_predict (mkForest (grow X y) criterion minvar) Z true = Ok ans) by exact Q.
      apply c56 in Q'; [|intros x _; apply HS]. destruct Q' as (m & s & -> & -> & F). cbn [g_std g_mean forest_reg]. rewrite Q. cbn [bind].
      do 2 eexists. split; [reflexivity|]. split; [apply map_length|]. split; [symmetry; exact (BaseLemmas.Forall2_len F)|].
      unfold forest_predict in Q. destruct (String.eqb _ _); [|discriminate]. destruct (return_std _ _ _ _); [|discriminate]. injection Q as Q _. exact (f_equal (@Ok _) Q).
    Qed.
  End Forest.

  Section Boosted.
    Context {S : Type} (gb_fit : R -> S -> list (list R) * list R -> list (list R) -> res (list R)) (e0 : gbrt (N := R)) (rng : S).
    Notation K := (gbrt_reg gb_fit e0 rng).
    Notation W := (tree_world K cdf pdf xi kappa argsort generate logmax).
    (** Every regressor answers with one number per row. *)
    Definition per_row : Prop := forall q data rows p, gb_fit q rng data rows = Ok p -> length p = length rows.

    Lemma boosted_std X y e rows m s : g_fit K X y = Ok e -> g_std K e rows = Ok (m, s) ->
      exists p16 p84, gb_fit (16 / 100) rng (X, y) rows = Ok p16 /\ gb_fit (/ 2) rng (X, y) rows = Ok m /\ gb_fit (84 / 100) rng (X, y) rows = Ok p84 /\
        length s = length p16 /\ length s = length p84 /\
        forall k l h sk, nth_error p16 k = Some l -> nth_error p84 k = Some h -> nth_error s k = Some sk -> sk = (h - l) / 2.
    Proof.
      cbn [g_fit g_std gbrt_reg]. intros Hf H. apply bind_ok in H. destruct H as (ans & H & H').
      destruct (@c57 _ _ gb_fit e0 rng (X, y) e rows ans Hf H) as (p16 & p50 & p84 & s' & A & B & C & -> & L1 & L2 & F). injection H' as <- <-.
      exists p16, p84. repeat (split; [assumption|]). intros k l h sk E1 E2 E3. exact (proj1 (F k l h sk E1 E2 E3)).
    Qed.
    Lemma boosted_full : per_row -> full K.
    Proof.
      intros HP X y e rows m s Hf H. destruct (@boosted_std _ _ _ _ _ _ Hf H) as (p16 & p84 & A & B & C & L & _). split; [now apply HP in B|]. rewrite L. now apply HP in A.
    Qed.

    Lemma c90_boosted RNG (G : rng_ops R RNG) (HN : std_normal cdf pdf) (HP : per_row) x y o o' r a :
      reachable Rops G W o -> tell Rops G W x y true o = (o', Ok r) ->
      (c_n0 (o_cfg o') <= Z.of_nat (length (o_yi o')))%Z -> c_est (o_cfg o') <> None ->
      c_lbfgs (o_cfg o') = false -> c_acq (o_cfg o') = AOne a -> ps_of o' = false ->
      let dims := c_dims (o_cfg o') in
      exists D Dt Dn g P X rows yopt i x0 v nx p rest low mid high,
        let data := (Dn, map y_obj (o_yi o')) in
        let value j w := exists l m h, nth_error low j = Some l /\ nth_error mid j = Some m /\ nth_error high j = Some h /\ worth yopt xi kappa a m ((h - l) / 2) w in
        (o_Xi o' = map (@X1 R) D /\ space_transform Rops dims D = Ok Dt /\ mapM num_row Dt = Ok Dn) /\
        (fst (space_rvs Rops G dims (c_npoints (o_cfg o')) g) = Ok P /\ space_transform Rops dims P = Ok X /\ mapM num_row X = Ok rows) /\
        (gb_fit (16 / 100) rng data rows = Ok low /\ gb_fit (/ 2) rng data rows = Ok mid /\ gb_fit (84 / 100) rng data rows = Ok high) /\
        (In yopt (map y_obj (o_yi o')) /\ forall w, In w (map y_obj (o_yi o')) -> yopt <= w) /\
        nth_error X i = Some x0 /\
        (value i v /\ forall j, (j < length X)%nat -> exists v', value j v' /\ v' <= v) /\
        (if is_categorical dims then nx = x0 else clipped_row Rops (space_tbounds Rops dims) x0 nx) /\
        space_inverse Rops dims [nx] = Ok (p :: rest) /\ o_next o' = Some p.
    Proof.
      intros Hr H Hn He Hb Ha Hps dims.
      destruct (@tree_suggests _ K cdf pdf xi kappa argsort generate logmax _ G HN (boosted_full HP) x y o o' r a Hr H Hn He Hb Ha Hps) as
        (ms & e & D & Dt & Dn & g & P & X & rows & yopt & mus & stds & i & mu & s & x0 & nx & p & rest & _ & (A1 & A2 & A3 & A4) & (B1 & B2 & B3 & B4) & C & (E1 & E2 & E3) & (v & V1 & V2) & F & I & J).
      destruct (@boosted_std _ _ _ _ _ _ A4 B4) as (low & high & L1 & L2 & L3 & N1 & N2 & N3).
      pose proof (@mapM_length _ _ _ _ _ B3) as LX. destruct (boosted_full HP _ _ _ A4 B4) as (Lm & Ls).
      assert (T : forall j mu' s', nth_error mus j = Some mu' -> nth_error stds j = Some s' -> exists l h, nth_error low j = Some l /\ nth_error high j = Some h /\ s' = (h - l) / 2).
      { intros j mu' s' Em Es. assert (Lj : (j < length stds)%nat) by (apply nth_error_Some; congruence).
        destruct (nth_error low j) as [l|] eqn:El; [|apply nth_error_None in El; lia]. destruct (nth_error high j) as [h|] eqn:Eh; [|apply nth_error_None in Eh; lia].
        exists l, h. split; [reflexivity|]. split; [reflexivity|]. exact (N3 j l h s' El Eh Es). }
      exists D, Dt, Dn, g, P, X, rows, yopt, i, x0, v, nx, p, rest, low, mus, high. cbv zeta.
      split; [auto|]. split; [auto|]. split; [auto|]. split; [exact C|]. split; [exact E1|]. split; [|auto]. split.
      - destruct (T _ _ _ E2 E3) as (l & h & El & Eh & ->). exists l, mu, h. auto.
      - intros j Lj. destruct (nth_error mus j) as [mu'|] eqn:Em; [|apply nth_error_None in Em; lia]. destruct (nth_error stds j) as [s'|] eqn:Es; [|apply nth_error_None in Es; lia].
        destruct (V2 j mu' s' Em Es) as (v' & V3 & V4). exists v'. split; [|exact V4]. destruct (T _ _ _ Em Es) as (l & h & El & Eh & ->). exists l, mu', h. auto.
    Qed.

    Lemma boosted_dependable dims acq :
      match q_base e0 with GBNone => True | GBRegressor loss => loss = "quantile"%string | GBOther => False end ->
      In (16 / 100) (q_quantiles e0) -> In (/ 2) (q_quantiles e0) -> In (84 / 100) (q_quantiles e0) ->
      (forall q X y rows, X <> [] -> length X = length y -> exists p, gb_fit q rng (X, y) rows = Ok p /\ length p = length rows) ->
      argsort_ok Rops W ->
      (forall n seed, (0 <= n)%Z -> exists l, generate dims n seed = Ok l /\ length l = Z.to_nat n /\ List.Forall (in_space Rops dims) l) ->
      dependable W anything dims acq false.
    Proof.
      intros Hb H16 H50 H84 HP. apply tree_dependable. intros X y _ NX L.
      assert (Q : exists e, g_fit K X y = Ok e).
      { cbn [g_fit gbrt_reg]. unfold gbrt_fit. destruct (q_base e0) as [|loss|]; [eexists; reflexivity| |easy]. subst loss. cbn. eexists. reflexivity. }
      destruct Q as (e & Q). exists e. split; [exact Q|]. intros Z _ _.
      destruct (@c57_total _ _ gb_fit e0 rng (X, y) e Z (length Z) Q (fun q _ => HP q X y Z NX L)) as (T & _). destruct (T H16 H50 H84) as (m & s & E1 & E2).
      assert (E3 : g_std K e Z = Ok (m, s)) by (cbn [g_std gbrt_reg]; now rewrite E1). exists m, s. split; [exact E3|].
      destruct (@boosted_std _ _ _ _ _ _ Q E3) as (p16 & p84 & A & B & C & N & _).
      destruct (HP (16 / 100) X y Z NX L) as (p & A' & Lp). rewrite A in A'. injection A' as <-. destruct (HP (/ 2) X y Z NX L) as (p' & B' & Lp'). rewrite B in B'. injection B' as <-.
      split; [exact Lp'|]. split; [congruence|]. cbn [g_mean gbrt_reg]. now rewrite E2.
    Qed.
  End Boosted.
End Instances.
