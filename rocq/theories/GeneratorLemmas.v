(** Named initial point generators in float64, and optimizers that use them. *)
From Coq Require Import String List ZArith Bool Reals Lra Lia Sorted.
From Flocq Require Import Core.Core IEEE754.BinarySingleNaN.
From Verif Require Import Base BaseLemmas Num NumLaws Values Dimension Space SpaceSpec Sampler SamplerSpec VdcLemmas PrimeLemmas HaltonLemmas
  DesignLemmas SamplerBest Sobol SobolState SobolProps Cook CookSpec CookLemmas CookThms Optimizer OptSpec OptProps
  GridLemmas Minimize MinSpec MinLemmas MinDummy MinConv Generators FloatDesign FloatSobol.
Import ListNotations.
Open Scope nat_scope.
Open Scope list_scope.
Set Implicit Arguments.
Local Arguments Z.pow : simpl never.

(** ** The first hundred primes *)
Lemma hundred : exists ps, halton_primes None 100 = Ok ps /\ Forall (fun p => Nat.leb p 541 = true) ps.
Proof. eexists. split; [vm_compute; reflexivity|]. repeat constructor. Qed.
Lemma small_primes d ps : d <= 100 -> halton_primes None d = Ok ps -> forall p, In p ps -> p <= 541.
Proof.
  intros Hd E p Hp. destruct (c45_default d None I) as (ps' & E' & L1 & _ & P1 & C1). rewrite E in E'. injection E' as <-.
  destruct hundred as (hs & Eh & Fh). destruct (c45_default 100 None I) as (hs' & Eh' & L2 & S2 & P2 & C2). rewrite Eh in Eh'. injection Eh' as <-.
  rewrite Forall_forall in Fh. destruct (Nat.le_gt_cases p 541) as [|Hgt]; [assumption|exfalso].
  assert (Hnot : ~ In p hs) by (intro H; specialize (Fh _ H); apply Nat.leb_le in Fh; lia).
  assert (Hinc : incl (p :: hs) ps).
  { intros q [<-|Hq]; [exact Hp|]. apply (C1 q p Hp (P2 q Hq)). specialize (Fh _ Hq). apply Nat.leb_le in Fh. lia. }
  assert (ND : NoDup (p :: hs)).
  { constructor; [exact Hnot|]. clear - S2. induction S2 as [|x l S2 IH F]; constructor; [|exact IH].
    intro H. rewrite Forall_forall in F. specialize (F _ H). lia. }
  pose proof (NoDup_incl_length ND Hinc) as H. simpl length in H. lia.
Qed.
Lemma small_reach d n : d <= 100 -> (Z.of_nat n <= 2 ^ 35)%Z -> in_reach (mkHalton 0 0 None) d n.
Proof.
  intros Hd Hn ps E p q Hp Hq. cbn [h_primes h_min h_max] in *.
  pose proof (small_primes Hd E p Hp). pose proof (small_primes Hd E q Hq).
  assert (P : (2 ^ 45 = 1024 * 2 ^ 35)%Z) by reflexivity. assert (P' : (2 ^ 35 = 34359738368)%Z) by reflexivity.
  apply Z.le_trans with (541 * (2 ^ 35 + 541))%Z; [|rewrite P, P'; lia].
  apply Z.mul_le_mono_nonneg; lia.
Qed.

(** ** What a generator can be asked for *)
Section Float.
  Context (L : libm) (Pow : pow_ok L) {RNG : Type} (G : rng_ops float RNG) (Gok : rng_ok (F64 L) G) (S : @lhs_stats float).
  Notation O := (F64 L).

  (** Numbers of dimensions [d] and of points [n] *)
  Definition suited (k : designer) (d : nat) (n : Z) : Prop :=
    (0 <= n)%Z /\
    match k with
    | DHalton a => bases_ok a d /\ skips_ok a /\ in_reach a d (Z.to_nat n)
    | DHammersly a => let d' := if Nat.eqb d 1 then 1 else d - 1 in bases_ok a d' /\ skips_ok a /\ in_reach a d' (Z.to_nat n)
    | DLhs t c _ => t <> LOtherType /\ (n <= 2 ^ 45)%Z /\ (c = CNone \/ n = 1%Z \/ stats_okF (Z.to_nat n) S /\ c <> COther)
    | DGrid a => 2 <= d /\ valid_border (gr_border a) /\ valid_border (gr_append a) /\ grid_fits a d (Z.to_nat n)
    | DSobol s => exists skip rand total, sobol_history O G skip rand s total /\ 1 <= d <= 40 /\ (skip + n < 2 ^ 30)%Z /\ room skip total (Z.to_nat n)
    end.

  Lemma in_space_member dims p : Forall (samplable L) dims -> in_space O dims p -> member O dims p.
  Proof.
    intros Hs Hin. unfold in_space in Hin. unfold member.
    induction Hin as [|d v ds p Hv Hin IH]; constructor; [|inversion Hs; auto].
    inversion Hs as [|? ? [Hw _] _]; subst. inversion Hv as [r x H1 H2|i z H1|c v' H1]; subst.
    - econstructor; simpl; eauto.
    - now constructor.
    - econstructor; [exact H1|]. destruct Hw as (_ & _ & Hr & _). rewrite Forall_forall in Hr. auto.
  Qed.

  Lemma generate_float k dims n seed : dims <> [] -> Forall (samplable L) dims -> suited k (length dims) n ->
    exists pts, generate O G S k dims n seed = Ok pts /\ length pts = Z.to_nat n /\ Forall (in_space O dims) pts.
  Proof.
    intros Hne Hs [Hn Hk]. destruct k as [a|a|t c its|a|s]; unfold generate.
    - destruct Hk as (B & K & I). destruct (@halton_float L Pow RNG G Gok a dims (Z.to_nat n) (rg_seed G seed) Hne Hs B K I) as (pts & E & R).
      rewrite E. now exists pts.
    - destruct Hk as (B & K & I). destruct (@hammersly_float L Pow RNG G Gok a dims (Z.to_nat n) (rg_seed G seed) Hne Hs B K I) as (pts & E & R).
      rewrite E. now exists pts.
    - destruct Hk as (T & B & C).
      destruct (@lhs_float L Pow RNG G Gok S t c its dims (Z.to_nat n) (rg_seed G seed) Hne Hs T) as (pts & E & R); [lia| |rewrite E; now exists pts].
      destruct C as [C|[->|C]]; auto.
    - destruct Hk as (D & B & A & F). destruct (@grid_float L Pow RNG G Gok a dims (Z.to_nat n) (rg_seed G seed) D Hs B A F) as (pts & E & R).
      rewrite E. now exists pts.
    - destruct Hk as (skip & rand & total & H & D & B & R).
      destruct (@sobol_float L Pow RNG G Gok skip rand s total dims (Z.to_nat n) (rg_seed G seed) H D Hs) as (s' & pts & E & R'); [lia|exact R|].
      rewrite E. now exists pts.
  Qed.

  (** The world of an optimizer uses a generator *)
  Definition uses {M} (W : world float M) (k : designer) : Prop := forall dims n seed, w_generate W dims n seed = generate O G S k dims n seed.
  Lemma uses_gen_ok M (W : world float M) k dims n : uses W k -> dims <> [] -> Forall (samplable L) dims -> suited k (length dims) n -> gen_ok O W dims n.
  Proof.
    intros HW Hne Hs Hk seed l El. rewrite HW in El.
    destruct (@generate_float k dims n seed Hne Hs Hk) as (pts & E & L1 & F). rewrite E in El. injection El as <-. split; [exact L1|].
    eapply Forall_impl; [|exact F]. intros p Hp. now apply in_space_member.
  Qed.

  Lemma asks_member M (W : world float M) k o n s o' a : uses W k -> reachable O G W o -> c_dims (o_cfg o) <> [] ->
    Forall (samplable L) (c_dims (o_cfg o)) -> suited k (length (c_dims (o_cfg o))) (c_n0 (o_cfg o)) -> ask O G W n s o = (o', Ok a) ->
    match a with A1pt p => member O (c_dims (o_cfg o)) p | Apts l => Forall (member O (c_dims (o_cfg o))) l end.
  Proof. intros HW Hr Hne Hs Hk H. exact (c16_F64 n s Gok Pow Hr (@uses_gen_ok M W k _ _ HW Hne Hs Hk) Hne Hs H). Qed.

  Lemma dummy_designed M (W : world float M) k f a g x0 : uses W k ->
    a_dims (m_opt a) <> [] -> Forall (samplable L) (a_dims (m_opt a)) ->
    (forall n, (1 <= n <= m_ncalls a + Z.of_nat (length x0))%Z -> suited k (length (a_dims (m_opt a))) n) ->
    good_input O (a_dims (m_opt a)) (m_x0 a) (m_y0 a) x0 -> (0 <= m_ncalls a)%Z -> (x0 = [] -> (0 < m_ncalls a)%Z) ->
    (m_y0 a = Y0None -> (Z.of_nat (length x0) <= m_ncalls a)%Z) ->
    numeric O f (a_dims (m_opt a)) -> answers (callbacks_of a) -> match m_callback a with CBOther => False | _ => True end ->
    exists t o r, dummy_minimize O G W f a g = (t, Some o, Ok (Some r)).
  Proof.
    intros HW Hne Hs Hk Hi Hn Hn1 Hy Hf Hc Hcb.
    eapply (@c31_F64 L RNG G M W f a g x0 Gok Pow); eauto.
    - intros n Hr. eapply uses_gen_ok; eauto.
    - intros _ n seed Hr. rewrite HW. destruct (@generate_float k _ n seed Hne Hs (Hk n Hr)) as (pts & E & _). now rewrite E.
  Qed.

  (** ** Generators named by a string *)
  Definition asked (c : gclass) (d : nat) (n : Z) : Prop :=
    (0 <= n)%Z /\
    match c with
    | GHalton | GHammersly => d <= 100 /\ (n <= 2 ^ 35)%Z
    | GLhs => (n <= 2 ^ 45)%Z /\ (n = 1%Z \/ stats_okF (Z.to_nat n) S)
    | GGrid => 2 <= d /\ grid_fits (mkGrid BExclude true BOnly) d (Z.to_nat n)
    | GSobol => 1 <= d <= 40 /\ (n < 2 ^ 30)%Z
    | GUser => False
    end.
  Lemma named w c s : In (w, c) generator_words -> spelled s w ->
    exists g k, cook_generator (GArgName s) [] = Ok (Some g) /\ designer_of g = Some k /\
      forall d n, asked c d n -> suited k d n.
  Proof.
    intros Hin Hsp. assert (Hw : lower w = w) by (cbn in Hin; decompose [or] Hin; try easy; match goal with H : _ = (_, _) |- _ => injection H as <- <-; reflexivity end).
    apply (@CookLemmas.lower_iff s w Hw) in Hsp. clear Hw.
    assert (Hs0 : exists s0, sobol_new 0 true = Ok s0 /\ sobol_history O G 0 true s0 0).
    { eexists. split; [reflexivity|]. now apply history_new. }
    destruct Hs0 as (s0 & Es0 & Hh).
    unfold cook_generator. rewrite Hsp. unfold generator_words in Hin. cbn [In] in Hin.
    destruct Hin as [E|[E|[E|[E|[E|[]]]]]]; injection E as <- <-.
    - exists (new_generator GSobol), (DSobol s0). split; [reflexivity|]. split; [unfold designer_of; cbn -[sobol_new]; now rewrite Es0|].
      intros d n (Hn & H1 & H2). split; [exact Hn|]. exists 0%Z, true, 0%Z. split; [exact Hh|]. split; [exact H1|]. split; [lia|now left].
    - exists (new_generator GHalton), (DHalton (mkHalton 0 0 None)). split; [reflexivity|]. split; [reflexivity|].
      intros d n (Hn & H1 & H2). split; [exact Hn|]. split; [exact I|]. split; [now left|]. apply small_reach; lia.
    - exists (new_generator GHammersly), (DHammersly (mkHalton 0 0 None)). split; [reflexivity|]. split; [reflexivity|].
      intros d n (Hn & H1 & H2). split; [exact Hn|]. split; [exact I|]. split; [now left|]. apply small_reach; [destruct (Nat.eqb d 1)|]; lia.
    - exists (new_generator GLhs), (DLhs LClassic CMaximin (Z.to_nat 1000)). split; [reflexivity|]. split; [reflexivity|].
      intros d n (Hn & H1 & H2). split; [exact Hn|]. split; [discriminate|]. split; [exact H1|].
      destruct H2 as [->|H2]; [now right; left|]. right. right. split; [exact H2|discriminate].
    - exists (new_generator GGrid), (DGrid (mkGrid BExclude true BOnly)). split; [reflexivity|]. split; [reflexivity|].
      intros d n (Hn & H1 & H2). split; [exact Hn|]. split; [exact H1|]. split; [discriminate|]. split; [discriminate|exact H2].
  Qed.

  Lemma named_points w c s : In (w, c) generator_words -> spelled s w ->
    exists g k, cook_generator (GArgName s) [] = Ok (Some g) /\ designer_of g = Some k /\
    forall dims n seed, dims <> [] -> Forall (samplable L) dims -> asked c (length dims) n ->
    exists pts, generate O G S k dims n seed = Ok pts /\ length pts = Z.to_nat n /\ Forall (in_space O dims) pts.
  Proof.
    intros Hin Hs. destruct (named Hin Hs) as (g & k & E & D & H). exists g, k. split; [exact E|]. split; [exact D|].
    intros dims n seed Hne Hd Ha. apply generate_float; auto.
  Qed.
  Lemma named_suggestions w c s : In (w, c) generator_words -> spelled s w ->
    exists g k, cook_generator (GArgName s) [] = Ok (Some g) /\ designer_of g = Some k /\
    forall M (W : world float M) o n strategy o' a, uses W k -> reachable O G W o -> c_dims (o_cfg o) <> [] ->
    Forall (samplable L) (c_dims (o_cfg o)) -> asked c (length (c_dims (o_cfg o))) (c_n0 (o_cfg o)) -> ask O G W n strategy o = (o', Ok a) ->
    match a with A1pt p => member O (c_dims (o_cfg o)) p | Apts l => Forall (member O (c_dims (o_cfg o))) l end.
  Proof.
    intros Hin Hs. destruct (named Hin Hs) as (g & k & E & D & H). exists g, k. split; [exact E|]. split; [exact D|].
    intros M W o n st o' a HW Hr Hne Hd Ha E'. eapply asks_member; eauto.
  Qed.
  Lemma named_dummy w c s : In (w, c) generator_words -> spelled s w ->
    exists g k, cook_generator (GArgName s) [] = Ok (Some g) /\ designer_of g = Some k /\
    forall M (W : world float M) f a g x0, uses W k ->
    a_dims (m_opt a) <> [] -> Forall (samplable L) (a_dims (m_opt a)) ->
    (forall n, (1 <= n <= m_ncalls a + Z.of_nat (length x0))%Z -> asked c (length (a_dims (m_opt a))) n) ->
    good_input O (a_dims (m_opt a)) (m_x0 a) (m_y0 a) x0 -> (0 <= m_ncalls a)%Z -> (x0 = [] -> (0 < m_ncalls a)%Z) ->
    (m_y0 a = Y0None -> (Z.of_nat (length x0) <= m_ncalls a)%Z) ->
    numeric O f (a_dims (m_opt a)) -> answers (callbacks_of a) -> match m_callback a with CBOther => False | _ => True end ->
    exists t o r, dummy_minimize O G W f a g = (t, Some o, Ok (Some r)).
  Proof.
    intros Hin Hs. destruct (named Hin Hs) as (g0 & k & E & D & H). exists g0, k. split; [exact E|]. split; [exact D|].
    intros M W f a g x0 HW Hne Hd Ha Hi H1 H2 H3 H4 H5 H6. eapply dummy_designed; eauto.
  Qed.
End Float.
