(** The generators in exact arithmetic. *)
From Coq Require Import String List ZArith Bool Reals Lra Lia Permutation Sorting.Sorted.
From Flocq Require Import Core.Core.
From Verif Require Import Base BaseLemmas Num NumLaws NormLaws Values Transformers Dimension Space SpaceSpec DimLemmas
  Sampler SamplerSpec VdcLemmas PrimeLemmas HaltonLemmas WarpLemmas DesignLemmas GridLemmas.
Import ListNotations.
Open Scope nat_scope.
Open Scope list_scope.
Set Implicit Arguments.
Local Arguments Z.pow : simpl never.

Definition unitR (z : R) : Prop := (0 <= z <= 1)%R.
Lemma cast64_R : forall x, ncast Rops DT64 x = x.
Proof. reflexivity. Qed.
Lemma nisnan_R x : nisnan Rops x = false.
Proof. unfold nisnan. cbn. replace (Rleb' x x) with true; [reflexivity|]. symmetry. apply Rleb_spec. lra. Qed.

Lemma unit_range_R z : unitR z -> unit_range (O:=Rops) z = true.
Proof.
  intros [H0 H1]. unfold unit_range. cbn. destruct (nl_eps Rops_norm) as [E1 E2]. cbn in E1, E2.
  apply Rleb_spec in E1, E2. apply andb_true_iff. split; apply negb_true_iff, Rltb_false; lra.
Qed.
Lemma nearest_between m x : (0 <= x <= IZR m)%R -> (0 <= ZnearestE x <= m)%Z.
Proof.
  intros [A B]. assert (V : Valid_rnd ZnearestE) by apply valid_rnd_N. split.
  - rewrite <- (@Zrnd_IZR ZnearestE V 0). now apply (@Zrnd_le ZnearestE V).
  - rewrite <- (@Zrnd_IZR ZnearestE V m). now apply (@Zrnd_le ZnearestE V).
Qed.
Lemma label_R m z : (0 <= m <= 2 ^ 50 - 1)%Z -> unitR z ->
  (0 <= ntoint Rops (nround Rops (nadd Rops (nmul Rops z (nsub Rops (nofZ Rops m) (nofZ Rops 0))) (nofZ Rops 0))) <= m)%Z.
Proof.
  intros Hm [H0 H1]. cbn. assert (Pm : (0 <= IZR m)%R) by (apply IZR_le; lia).
  assert (A : (0 <= z * (IZR m - 0) + 0 <= IZR m)%R) by nra.
  rewrite Ztrunc_IZR. now apply nearest_between.
Qed.

(** ** Any design in the unit cube *)
(** Dimensions as the constructors make them; at most 2^50 categories. *)
Definition plain (d : dim R) : Prop :=
  wf_dim Rops d /\ match d with DCat c => (Z.of_nat (length (c_cats c)) <= 2 ^ 50)%Z | _ => True end.
Lemma plain_warpable d : plain d -> warpable (O:=Rops) unitR (2 ^ 50 - 1) d.
Proof.
  intros [Hw Hd]. split; [exact Hw|]. destruct d; [intros; apply nisnan_R|intros; apply nisnan_R|lia].
Qed.
Lemma generated dims n h : dims <> [] -> Forall plain dims -> shaped unitR (length dims) n h ->
  exists pts, warp_design Rops dims (Ok h) = (dims, Ok pts) /\ length pts = n /\ Forall (in_space Rops dims) pts.
Proof.
  intros Hne Hp (L1 & L2 & L3).
  destruct (@warp_design_ok R Rops Rops_order Rops_int cast64_R unitR (2 ^ 50 - 1) ltac:(lia) unit_range_R label_R dims h Hne) as (pts & E & L & F);
    [eapply Forall_impl; [|exact Hp]; apply plain_warpable|exact L2|exact L3|].
  exists pts. split; [exact E|]. split; [congruence|exact F].
Qed.

(** ** Halton and Hammersly *)
Lemma vdc_unit b n : (2 <= b) -> exists x, vdc Rops (Z.of_nat b) n = Ok x /\ unitR x.
Proof.
  intro Hb. destruct (Z_le_gt_dec 0 n) as [Hn|Hn].
  - exists (phi (Z.of_nat b) n). split; [apply vdc_phi; lia|]. destruct (phi_bounds (b := Z.of_nat b) ltac:(lia) n). split; lra.
  - unfold vdc. replace (1 <? Z.of_nat b)%Z with true by (symmetry; apply Z.ltb_lt; lia).
    replace (Z.log2 n) with 0%Z by (symmetry; apply Z.log2_nonpos; lia). cbn [Z.to_nat vdc_from].
    assert (D : (n / Z.of_nat b < 0)%Z) by (apply Z.div_lt_upper_bound; lia).
    destruct (Z.ltb_spec 0 (n / Z.of_nat b)); [lia|]. eexists. split; [reflexivity|]. cbn.
    pose proof (Z.mod_pos_bound n (Z.of_nat b) ltac:(lia)) as [M1 M2]. apply IZR_le in M1. apply IZR_lt in M2.
    assert (P : (0 < IZR (Z.of_nat b))%R) by (apply IZR_lt; lia). unfold unitR. rewrite Rplus_0_l. split.
    + apply Rmult_le_pos; [exact M1|]. left. now apply Rinv_0_lt_compat.
    + apply Rmult_le_reg_r with (IZR (Z.of_nat b)); [exact P|]. unfold Rdiv. rewrite Rmult_assoc, Rinv_l; lra.
Qed.

Lemma lin_R n i : i <= n -> 0 < n -> lin Rops n i = (INR i / INR n)%R.
Proof.
  intros Hi Hn. assert (P : INR n <> 0%R) by (apply not_0_INR; lia). unfold lin. destruct (Nat.eqb_spec i n) as [->|_].
  - destruct (Nat.eqb_spec n 0); [lia|]. cbn. field. exact P.
  - cbn. rewrite <- !INR_IZR_INZ. field. exact P.
Qed.
Lemma part_unit n k : k < n -> (0 <= INR k / INR n /\ INR k / INR n < 1 /\ INR (S k) / INR n <= 1)%R.
Proof.
  intro H. assert (P : (0 < INR n)%R) by (apply lt_0_INR; lia). assert (K : (0 <= INR k)%R) by apply pos_INR.
  assert (L : (INR (S k) <= INR n)%R) by (apply le_INR; lia). rewrite S_INR in L |- *.
  assert (I : (0 < / INR n)%R) by now apply Rinv_0_lt_compat.
  assert (E : (INR n * / INR n = 1)%R) by (apply Rinv_r; lra). unfold Rdiv. repeat split; nra.
Qed.

Section Generate.
  Context {RNG : Type} (G : rng_ops R RNG) (Gok : rng_ok Rops G).

  Lemma halton_generate_ok a dims n g : dims <> [] -> Forall plain dims -> bases_ok a (length dims) -> skips_ok a ->
    exists pts, halton_generate Rops G a dims n g = (dims, Ok pts) /\ length pts = n /\ Forall (in_space Rops dims) pts.
  Proof.
    intros Hne Hp Hb Hs. unfold halton_generate.
    destruct (@halton_design_ok R RNG Rops G Gok unitR a (length dims) n g) as (h & g' & E & Sh);
      [destruct dims; [contradiction|simpl; lia]|exact Hb|exact Hs| |].
    - intros ps p s j Hps Hpi _ _. apply vdc_unit. destruct (halton_primes_ok _ _ Hb) as (ps' & E & _ & H2).
      rewrite E in Hps. injection Hps as <-. now apply H2.
    - rewrite E. cbn [fst]. now apply generated.
  Qed.

  Lemma hammersly_generate_ok a dims n g : dims <> [] -> Forall plain dims ->
    bases_ok a (if Nat.eqb (length dims) 1 then 1 else length dims - 1) -> skips_ok a ->
    exists pts, hammersly_generate Rops G a dims n g = (dims, Ok pts) /\ length pts = n /\ Forall (in_space Rops dims) pts.
  Proof.
    intros Hne Hp Hb Hs. unfold hammersly_generate.
    destruct (@hammersly_design_ok R RNG Rops G Gok unitR a (length dims) n g) as (h & E & Sh);
      [destruct dims; [contradiction|simpl; lia]|exact Hb|exact Hs| | |].
    - intros ps p s j Hps Hpi _ _. apply vdc_unit. destruct (halton_primes_ok _ _ Hb) as (ps' & E & _ & H2).
      rewrite E in Hps. injection Hps as <-. now apply H2.
    - intros i Hi. rewrite lin_R by lia. destruct (part_unit Hi). split; lra.
    - rewrite E. now apply generated.
  Qed.

  (** ** Latin hypercube *)
  Definition lhs_valid (t : lhs_type) : Prop := t <> LOtherType.
  Lemma in_part_INR n k x : in_part (Z.of_nat n) (Z.of_nat k) x <-> (INR k / INR n <= x < INR (S k) / INR n)%R.
  Proof. unfold in_part. rewrite S_INR, plus_IZR, <- !INR_IZR_INZ. reflexivity. Qed.
  Lemma lhs_cell_part t n k u : lhs_valid t -> k < n -> unit_draw Rops u ->
    exists v, lhs_cell Rops t (lin Rops n k) (lin Rops n (S k)) u = Ok v /\ in_part (Z.of_nat n) (Z.of_nat k) v.
  Proof.
    intros Ht Hk [U0 U1]. rewrite !lin_R by lia. cbn in U0, U1. apply Rleb_spec in U0. apply Rltb_spec in U1.
    assert (P : (0 < INR n)%R) by (apply lt_0_INR; lia). assert (I : (0 < / INR n)%R) by now apply Rinv_0_lt_compat.
    assert (D : (INR (S k) / INR n - INR k / INR n = / INR n)%R) by (rewrite S_INR; field; lra).
    destruct t; [| |now elim Ht]; eexists; (split; [reflexivity|]); apply in_part_INR; cbn -[INR]; try rewrite D; revert D; generalize (INR (S k) / INR n)%R (INR k / INR n)%R; intros; try nra; lra.
  Qed.

  Lemma part_disjoint n k k' x : 0 < n -> in_part (Z.of_nat n) (Z.of_nat k) x -> in_part (Z.of_nat n) (Z.of_nat k') x -> k = k'.
  Proof.
    rewrite !in_part_INR. intros Hn [A B] [C D]. assert (P : (0 < INR n)%R) by (apply lt_0_INR; lia).
    assert (X : forall i j y, (INR i / INR n <= y)%R -> (y < INR (S j) / INR n)%R -> i <= j).
    { intros i j y H1 H2. assert (Q : (INR i / INR n < INR (S j) / INR n)%R) by lra.
      apply Rmult_lt_reg_r in Q; [|now apply Rinv_0_lt_compat]. apply INR_lt in Q. lia. }
    pose proof (X k k' x A D). pose proof (X k' k x C B). lia.
  Qed.

  Lemma latin_strata d n h : latin (fun k v => in_part (Z.of_nat n) (Z.of_nat k) v) d n h ->
    forall j k, j < d -> k < n ->
      one_in_stretch h 0 n (fun row => exists v, nth_error row j = Some v /\ in_part (Z.of_nat n) (Z.of_nat k) v).
  Proof.
    intros (L1 & L2 & L3) j k Hj Hk. destruct (L3 j Hj) as (o & Po & Ho).
    assert (Lo : length o = n) by (rewrite (Permutation_length Po); apply seq_length).
    assert (Ik : In k o) by (apply (Permutation_in _ (Permutation_sym Po)), in_seq; lia).
    apply In_nth_error in Ik. destruct Ik as [i Hi].
    assert (Li : i < n) by (rewrite <- Lo; apply nth_error_Some; congruence).
    destruct (nth_error h i) as [r|] eqn:Er; [|apply nth_error_None in Er; lia].
    exists i. split.
    - split; [lia|]. exists r. split; [exact Er|]. destruct (Ho i r Er) as (k' & v & A & B & C).
      assert (k' = k) as -> by congruence. now exists v.
    - intros i' (Li' & r' & Er' & v' & Ev' & Pv'). destruct (Ho i' r' Er') as (k' & v & A & B & C).
      assert (v = v') as -> by congruence. assert (k' = k) as -> by (eapply part_disjoint; [|exact C|exact Pv']; lia).
      assert (ND : NoDup o) by (apply (Permutation_NoDup (Permutation_sym Po)), seq_NoDup).
      eapply NoDup_nth_error; [exact ND|lia|congruence].
  Qed.

  Lemma lhs_strata S t c its d n g h g' : lhs_valid t -> lhs_design Rops G S t c its d n g = (Ok h, g') ->
    forall j k, j < d -> k < n ->
      one_in_stretch h 0 n (fun row => exists v, nth_error row j = Some v /\ in_part (Z.of_nat n) (Z.of_nat k) v).
  Proof.
    intros Ht H. apply latin_strata. eapply lhs_design_latin; [exact Gok| |exact H]. intros k u Hk Hu. now apply lhs_cell_part.
  Qed.

  (** Candidates can be compared: what pdist and corrcoef give for two or more points. *)
  Definition stats_ok (n : nat) (S : @lhs_stats R) : Prop :=
    forall h, length h = n -> (exists x, st_corr S h = Ok x) /\ (exists x, st_min S h = Ok x) /\ (exists x, st_ratio S h = Ok x).
  Lemma lhs_search_total S t c d n : lhs_valid t -> stats_ok n S -> c <> CNone -> c <> COther ->
    forall its best h0 g, (c = CMaximin -> best <> None) ->
    exists h g', lhs_search Rops G S t c d n its best h0 g = (Ok h, g').
  Proof.
    intros Ht HS Hc Hc'. induction its as [|its IH]; intros best h0 g Hb; cbn [lhs_search]; [now exists h0, g|].
    destruct (@lhs_normalized_latin R RNG Rops G Gok t d n g (fun k v => in_part (Z.of_nat n) (Z.of_nat k) v)) as (h1 & g1 & E1 & L1).
    { intros k u Hk Hu. now apply lhs_cell_part. }
    rewrite E1. destruct (HS h1 (proj1 L1)) as ((x1 & S1) & (x2 & S2) & (x3 & S3)).
    assert (X : exists o, lhs_better Rops S c best h1 = Ok o /\ (c = CMaximin -> o = None -> best <> None)).
    { unfold lhs_better. destruct c; try (now elim Hc); try (now elim Hc').
      - rewrite S1. cbn [bind]. destruct x1 as [[m|] m2]; eexists; (split; [reflexivity|]); discriminate.
      - rewrite S2. cbn [bind]. destruct best as [b|]; [|now elim (Hb eq_refl)]. eexists. split; [reflexivity|]. discriminate.
      - rewrite S3. cbn [bind]. eexists. split; [reflexivity|]. discriminate. }
    destruct X as (o & Eo & _). rewrite Eo. destruct o as [b|]; apply IH; [discriminate|exact Hb].
  Qed.

  Lemma lhs_design_total S t c its d n g : lhs_valid t -> (c = CNone \/ n = 1 \/ stats_ok n S /\ c <> COther) ->
    exists h g', lhs_design Rops G S t c its d n g = (Ok h, g').
  Proof.
    intros Ht Hs. unfold lhs_design.
    destruct (@lhs_normalized_latin R RNG Rops G Gok t d n g (fun k v => in_part (Z.of_nat n) (Z.of_nat k) v)) as (h1 & g1 & E1 & L1).
    { intros k u Hk Hu. now apply lhs_cell_part. }
    rewrite E1. destruct c; try (now exists h1, g1); (destruct (Nat.eqb_spec n 1); [now exists h1, g1|]);
      destruct Hs as [Hs|[Hs|[Hs Hc]]]; try discriminate Hs; try contradiction;
      try (apply lhs_search_total; auto; discriminate).
  Qed.

  Lemma lhs_generate_ok S t c its dims n g : dims <> [] -> Forall plain dims -> lhs_valid t ->
    (c = CNone \/ n = 1 \/ stats_ok n S /\ c <> COther) ->
    exists pts, lhs_generate Rops G S t c its dims n g = (dims, Ok pts) /\ length pts = n /\ Forall (in_space Rops dims) pts.
  Proof.
    intros Hne Hp Ht Hs. unfold lhs_generate.
    destruct (@lhs_design_total S t c its (length dims) n g Ht Hs) as (h & g' & E). rewrite E. cbn [fst].
    apply generated; [exact Hne|exact Hp|].
    apply latin_shaped with (cellok := fun k v => in_part (Z.of_nat n) (Z.of_nat k) v).
    - intros k v Hk Hv. apply in_part_INR in Hv. destruct (part_unit Hk). split; lra.
    - eapply lhs_design_latin; [exact Gok| |exact E]. intros k u Hk Hu. now apply lhs_cell_part.
  Qed.

  (** ** Grid *)
  Lemma ticks_in a c den v : In v (ticks Rops a c den) <-> exists z, (a <= z < a + c)%Z /\ v = (IZR z / IZR den)%R.
  Proof.
    unfold ticks. rewrite in_map_iff. split.
    - intros (i & <- & Hi). apply in_seq in Hi. exists (a + Z.of_nat i)%Z. split; [lia|reflexivity].
    - intros (z & Hz & ->). exists (Z.to_nat (z - a)). split; [cbn; repeat f_equal; lia|]. apply in_seq. lia.
  Qed.
  Lemma ticks_unit a c den v : (0 <= a)%Z -> (a + c <= den + 1)%Z -> (0 < den)%Z -> In v (ticks Rops a c den) -> unitR v.
  Proof.
    intros Ha Hc Hd H. apply ticks_in in H. destruct H as (z & Hz & ->).
    assert (P : (0 < IZR den)%R) by (apply IZR_lt; lia). assert (I := Rinv_0_lt_compat _ P).
    assert (Z1 : (0 <= IZR z)%R) by (apply IZR_le; lia). assert (Z2 : (IZR z <= IZR den)%R) by (apply IZR_le; lia).
    unfold unitR, Rdiv. split; [nra|]. apply Rmult_le_reg_r with (IZR den); [exact P|]. rewrite Rmult_assoc, Rinv_l; lra.
  Qed.
  Lemma ticks_nodup a c den : (0 < den)%Z -> NoDup (ticks Rops a c den).
  Proof.
    intro Hd. unfold ticks. apply FinFun.Injective_map_NoDup; [|apply seq_NoDup]. intros i j E. cbn in E.
    assert (P : (IZR den <> 0)%R) by (apply not_0_IZR; lia).
    apply Rmult_eq_reg_r in E; [|now apply Rinv_neq_0_compat]. apply eq_IZR in E. lia.
  Qed.

  Lemma grid_generate_ok a dims n g : 2 <= length dims -> Forall plain dims ->
    valid_border (gr_border a) -> valid_border (gr_append a) -> grid_fits a (length dims) n ->
    exists pts, grid_generate Rops G a dims n g = (dims, Ok pts) /\ length pts = n /\ Forall (in_space Rops dims) pts.
  Proof.
    intros Hd Hp Hb Ha Hf. unfold grid_generate.
    destruct (@grid_design_spec R RNG Rops G Gok a (length dims) n g Hd Hb Ha Hf) as (h & E & L & I & _). rewrite E.
    apply generated; [destruct dims; [simpl in Hd; lia|discriminate]|exact Hp|]. split; [exact L|].
    split; apply Forall_forall; intros row Hr; destruct (I row Hr) as [Lr Fr]; [exact Lr|].
    pose proof (first_order_pos a (Z.of_nat n)) as Hq.
    destruct Fr as [Fr|[Hm Fr]]; eapply Forall_impl; try exact Fr; intros v Hv; cbv beta in Hv.
    - unfold first_ticks in Hv. destruct (gr_border a) eqn:Eb; try (eapply ticks_unit; [| | |exact Hv]; lia).
      assert (2 <= first_order a (Z.of_nat n))%Z by (unfold first_order; rewrite Eb; lia). eapply ticks_unit; [| | |exact Hv]; lia.
    - unfold more_ticks in Hv. set (q := more_order a (missing a (length dims) n)) in *.
      assert (Q : match gr_append a with BInclude | BOnly => (2 <= q)%Z | _ => (1 <= q)%Z end) by (unfold q, more_order; destruct (gr_append a); lia).
      destruct (gr_append a).
      + eapply ticks_unit; [| | |exact Hv]; lia.
      + eapply ticks_unit; [| | |exact Hv]; lia.
      + destruct Hv as [<-|[<-|Hv]]; [cbn; split; lra|cbn; split; lra|]. eapply ticks_unit; [| | |exact Hv]; lia.
      + eapply ticks_unit; [| | |exact Hv]; lia.
  Qed.

  Lemma grid_nodup full d n g h : 2 <= d -> grid_fits (mkGrid BExclude full BOnly) d n ->
    grid_design Rops G (mkGrid BExclude full BOnly) d n g = Ok h -> NoDup h.
  Proof.
    intros Hd Hf. apply (@grid_design_nodup R RNG Rops G Gok full d n g h Hd Hf).
    - intros a0 c den _ Hden. now apply ticks_nodup.
    - apply ticks_nodup. lia.
    - cbn. lra.
    - intros c Hc. assert (P : (0 < IZR (c + 1))%R) by (apply IZR_lt; lia). cbn. rewrite !ticks_in. split.
      + intros (z & Hz & E). assert (IZR z = 0)%R by (apply (f_equal (fun x => x * IZR (c + 1))%R) in E; unfold Rdiv in E; rewrite Rmult_assoc, Rinv_l in E; lra).
        apply eq_IZR in H. lia.
      + intros (z & Hz & E). assert (IZR z = IZR (c + 1))%R by (apply (f_equal (fun x => x * IZR (c + 1))%R) in E; unfold Rdiv in E; rewrite Rmult_assoc, Rinv_l in E; lra).
        apply eq_IZR in H. lia.
  Qed.

  (** Where the points of the default layout come from. *)
  Lemma grid_origin full d n g h : 2 <= d -> grid_fits (mkGrid BExclude full BOnly) d n ->
    grid_design Rops G (mkGrid BExclude full BOnly) d n g = Ok h ->
    let q := Z.max 1 (if full then Z.sqrt (Z.of_nat n) else Z.sqrt_up (Z.of_nat n)) in
    length h = n /\
    (forall row, In row h -> length row = d /\
       (Forall (fun v => exists z, (1 <= z <= q)%Z /\ v = (IZR z / IZR (q + 1))%R) row \/
        (q ^ Z.of_nat d < Z.of_nat n)%Z /\
        exists m, (1 <= m)%Z /\ Forall (fun v => exists z, (0 <= z <= m)%Z /\ v = (IZR z / IZR m)%R) row)) /\
    ((q ^ Z.of_nat d <= Z.of_nat n)%Z ->
       forall row, length row = d -> Forall (fun v => exists z, (1 <= z <= q)%Z /\ v = (IZR z / IZR (q + 1))%R) row -> In row h).
  Proof.
    intros Hd Hf E q. destruct (@grid_design_spec R RNG Rops G Gok (mkGrid BExclude full BOnly) d n g Hd ltac:(discriminate) ltac:(discriminate) Hf)
      as (h' & E' & L & I & C). rewrite E in E'. injection E' as <-.
    assert (T : forall v, In v (first_ticks Rops (mkGrid BExclude full BOnly) (Z.of_nat n)) <->
              exists z, (1 <= z <= q)%Z /\ v = (IZR z / IZR (q + 1))%R).
    { intro v. unfold first_ticks, first_order. cbn [gr_border gr_full]. fold q. rewrite ticks_in. split; intros (z & Hz & ->); exists z; split; auto; lia. }
    assert (Mq : missing (mkGrid BExclude full BOnly) d n = (Z.of_nat n - q ^ Z.of_nat d)%Z) by reflexivity.
    split; [exact L|]. split.
    - intros row Hr. destruct (I row Hr) as [Lr [Fr|[Hm Fr]]].
      + split; [exact Lr|]. left. eapply Forall_impl; [|exact Fr]. intros v Hv. now apply T.
      + split; [exact Lr|]. right. rewrite Mq in *. split; [lia|]. unfold more_ticks in Fr. cbn [gr_append] in Fr.
        set (o := more_order (mkGrid BExclude full BOnly) (Z.of_nat n - q ^ Z.of_nat d)) in *.
        assert (Ho : (2 <= o)%Z) by (unfold o, more_order; cbn [gr_append]; lia).
        exists (o - 1)%Z. split; [lia|]. eapply Forall_impl; [|exact Fr]. intros v [<-|[<-|Hv]].
        * exists 0%Z. split; [lia|]. cbn. unfold Rdiv. now rewrite Rmult_0_l.
        * exists (o - 1)%Z. split; [lia|]. cbn. unfold Rdiv. rewrite Rinv_r; [reflexivity|]. apply not_0_IZR. lia.
        * apply ticks_in in Hv. destruct Hv as (z & Hz & ->). exists z. split; [lia|reflexivity].
    - intros Hq row Lr Fr. apply C; [rewrite Mq; lia|exact Lr|]. eapply Forall_impl; [|exact Fr]. intros v Hv. now apply T.
  Qed.
End Generate.
