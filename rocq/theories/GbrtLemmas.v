(** The quantile regressor. *)
From Coq Require Import String List ZArith Bool Reals Lra Lia.
From Verif Require Import Base BaseLemmas Num NumLaws NormLaws Gbrt.
Import ListNotations.
Open Scope R_scope.
Set Implicit Arguments.

Notation pos16 := (16 / 100). Notation pos50 := (/ 2). Notation pos84 := (84 / 100).
Section Gbrt.
  Context {RNG D : Type} (gb_fit : R -> RNG -> D -> list (list R) -> res (list R)).
  Notation regs rng data l := (map (fun q => gb_fit q rng data) l).

  Lemma index_ok q : forall l i, index Rops q l = Ok i -> nth_error l i = Some q.
  Proof.
    induction l as [|a l IH]; intros i H; cbn in H; [discriminate|]. destruct (neqb Rops a q) eqn:E.
    - injection H as <-. cbn. apply Rneqb_spec in E. congruence.
    - destruct (index Rops q l) as [j|]; [|discriminate]. injection H as <-. now apply IH.
  Qed.
  Lemma index_total q : forall l, In q l -> exists i, index Rops q l = Ok i.
  Proof.
    induction l as [|a l IH]; intros H; [easy|]. cbn. destruct (neqb Rops a q) eqn:E; [now eexists|].
    apply Rneqb_false in E. destruct H as [H|H]; [congruence|]. destruct (IH H) as [i ->]. now eexists.
  Qed.
  Lemma fit_ok e rng data e' : gbrt_fit gb_fit e rng data = Ok e' -> q_quantiles e' = q_quantiles e /\ q_regs e' = Some (regs rng data (q_quantiles e)).
  Proof.
    unfold gbrt_fit. destruct (q_base e); [|destruct (String.eqb _ _)|]; try discriminate; intro H; injection H as <-; easy.
  Qed.
  Lemma reg_ok e rng data e' q r : gbrt_fit gb_fit e rng data = Ok e' -> reg Rops e' q = Ok r -> r = gb_fit q rng data.
  Proof.
    intros F H. apply fit_ok in F. destruct F as [Eq Er]. unfold reg in H. rewrite Eq, Er in H.
    destruct (index Rops q (q_quantiles e)) as [i|] eqn:E; [|discriminate]. cbn [bind] in H. apply index_ok in E.
    rewrite (map_nth_error _ _ _ E) in H. congruence.
  Qed.
  Lemma reg_total e rng data e' q : gbrt_fit gb_fit e rng data = Ok e' -> In q (q_quantiles e) -> reg Rops e' q = Ok (gb_fit q rng data).
  Proof.
    intros F H. destruct (fit_ok _ _ _ F) as [Eq Er]. unfold reg. rewrite Eq, Er. destruct (index_total _ _ H) as [i E]. rewrite E. cbn [bind].
    now rewrite (map_nth_error _ _ _ (index_ok _ _ E)).
  Qed.
  Lemma q16_R : q16 Rops = pos16. Proof. reflexivity. Qed.
  Lemma q84_R : q84 Rops = pos84. Proof. reflexivity. Qed.
  Lemma q50_R : q50 Rops = pos50. Proof. reflexivity. Qed.

  Lemma half_ok : forall high low s, half_range Rops high low = Ok s -> length low = length s /\ length high = length s /\
    forall k l h sk, nth_error low k = Some l -> nth_error high k = Some h -> nth_error s k = Some sk -> sk = (h - l) / 2.
  Proof.
    induction high as [|h hs IH]; intros [|l ls] s H; cbn in H; try discriminate.
    - injection H as <-. split; [easy|]. split; [easy|]. intros [|k]; discriminate.
    - destruct (half_range Rops hs ls) as [r|] eqn:E; [|discriminate]. injection H as <-. destruct (IH _ _ E) as (A & B & C).
      cbn. split; [lia|]. split; [lia|]. intros [|k] l0 h0 sk; cbn; [|apply C]. intros X Y Z. congruence.
  Qed.
  Lemma half_total : forall high low, length high = length low -> exists s, half_range Rops high low = Ok s.
  Proof.
    induction high as [|h hs IH]; intros [|l ls] H; try discriminate; [now exists []|]. injection H as H. cbn. destruct (IH _ H) as [s ->]. now eexists.
  Qed.

  Lemma c57 e rng data e' X ans : gbrt_fit gb_fit e rng data = Ok e' -> gbrt_predict Rops e' X true false = Ok ans ->
    exists p16 p50 p84 s, gb_fit pos16 rng data X = Ok p16 /\ gb_fit pos50 rng data X = Ok p50 /\ gb_fit pos84 rng data X = Ok p84 /\
      ans = GStd p50 s /\ length s = length p16 /\ length s = length p84 /\
      forall k l h sk, nth_error p16 k = Some l -> nth_error p84 k = Some h -> nth_error s k = Some sk -> sk = (h - l) / 2 /\ (l <= h -> 0 <= sk).
  Proof.
    intros F H. unfold gbrt_predict in H. destruct (fit_ok _ _ _ F) as [Eq Er]. rewrite Er in H.
    destruct (mapM _ _) as [all|]; [|discriminate]. cbn [bind] in H. destruct (forallb _ _); [|discriminate].
    destruct (reg Rops e' (q16 Rops)) as [rl|] eqn:E1; [|discriminate]. apply (reg_ok _ _ _ _ F) in E1. cbn [bind] in H. destruct (rl X) as [low|] eqn:P1; [|discriminate]. cbn [bind] in H.
    destruct (reg Rops e' (q84 Rops)) as [rh|] eqn:E2; [|discriminate]. apply (reg_ok _ _ _ _ F) in E2. cbn [bind] in H. destruct (rh X) as [high|] eqn:P2; [|discriminate]. cbn [bind] in H.
    destruct (reg Rops e' (q50 Rops)) as [rm|] eqn:E3; [|discriminate]. apply (reg_ok _ _ _ _ F) in E3. cbn [bind] in H. destruct (rm X) as [mean|] eqn:P3; [|discriminate]. cbn [bind] in H.
    destruct (half_range Rops high low) as [s|] eqn:Hs; [|discriminate]. cbn [bind] in H. destruct (half_ok _ _ Hs) as (A & B & C).
    exists low, mean, high, s. subst. repeat split; try easy; try congruence.
    - now apply (C k).
    - intro L. rewrite (C k l h sk) by easy. lra.
  Qed.
  Lemma c57_total e rng data e' X n : gbrt_fit gb_fit e rng data = Ok e' -> (forall q, In q (q_quantiles e) -> exists p, gb_fit q rng data X = Ok p /\ length p = n) ->
    (In pos16 (q_quantiles e) -> In pos50 (q_quantiles e) -> In pos84 (q_quantiles e) -> exists m s, gbrt_predict Rops e' X true false = Ok (GStd m s) /\ gbrt_predict Rops e' X false false = Ok (GMean m)) /\
    (~ (In pos16 (q_quantiles e) /\ In pos50 (q_quantiles e) /\ In pos84 (q_quantiles e)) -> gbrt_predict Rops e' X true false = Raise ValueError).
  Proof.
    intros F Hf. destruct (fit_ok _ _ _ F) as [Eq Er].
    assert (A : exists all, mapM (fun r => r X) (regs rng data (q_quantiles e)) = Ok all).
    { clear -Hf. induction (q_quantiles e) as [|q l IH]; [now exists []|]. cbn. destruct (Hf q) as (p & -> & _); [now left|]. cbn [bind].
      destruct IH as [all ->]; [intros; apply Hf; now right|]. now eexists. }
    destruct A as [all A]. unfold gbrt_predict. rewrite Er, A. cbn [bind]. split.
    - intros H16 H50 H84.
      assert (B : forallb (fun q => existsb (fun a => neqb Rops a q) (q_quantiles e')) [q16 Rops; q50 Rops; q84 Rops] = true).
      { rewrite Eq. cbn [forallb]. rewrite !andb_true_iff. repeat split; apply existsb_exists; [exists pos16|exists pos50|exists pos84]; (split; [assumption|]); now apply Rneqb_spec. }
      rewrite B. rewrite (reg_total _ _ _ _ F H16 : reg Rops e' (q16 Rops) = _), (reg_total _ _ _ _ F H84 : reg Rops e' (q84 Rops) = _), (reg_total _ _ _ _ F H50 : reg Rops e' (q50 Rops) = _). cbn [bind].
      destruct (Hf _ H16) as (p & -> & Lp). destruct (Hf _ H84) as (r & -> & Lr). destruct (Hf _ H50) as (m & -> & Lm). cbn [bind].
      destruct (half_total r p) as [s ->]; [congruence|]. now exists m, s.
    - intros H. destruct (forallb _ _) eqn:B; [|reflexivity]. exfalso. apply H. rewrite Eq in B. cbn [forallb] in B. rewrite !andb_true_iff in B.
      destruct B as (B1 & B2 & B3 & _).
      repeat split; [apply existsb_exists in B1; destruct B1 as (x & I & E)|apply existsb_exists in B2; destruct B2 as (x & I & E)|apply existsb_exists in B3; destruct B3 as (x & I & E)];
        apply Rneqb_spec in E; rewrite E in I; exact I.
  Qed.
End Gbrt.

(** Quantile models that cross; and skewed ones. *)
Definition crossing (q : R) (_ : unit) (_ : unit) (X : list (list R)) : res (list R) := Ok (map (fun _ => - q) X).
Definition skewed (q : R) (_ : unit) (_ : unit) (X : list (list R)) : res (list R) := Ok (map (fun _ => if Rlt_dec (/ 2) q then 4 else 0) X).
Definition three : gbrt (N:=R) := mkGbrt [pos16; pos50; pos84] GBNone None.
Definition three_fit f : gbrt (N:=R) := mkGbrt [pos16; pos50; pos84] GBNone (Some (map (fun q => f q tt tt) [pos16; pos50; pos84])).
Lemma three_index : index Rops pos16 [pos16; pos50; pos84] = Ok 0%nat /\ index Rops pos50 [pos16; pos50; pos84] = Ok 1%nat /\ index Rops pos84 [pos16; pos50; pos84] = Ok 2%nat.
Proof.
  cbn [index]. assert (T : forall a, neqb Rops a a = true) by (intro; now apply Rneqb_spec).
  assert (F : forall a b, a <> b -> neqb Rops a b = false) by (intros; now apply Rneqb_false).
  rewrite !T, !(F pos16 pos50), !(F pos16 pos84), !(F pos50 pos84) by lra. easy.
Qed.
Lemma three_predict f X p16 p50 p84 s : f pos16 tt tt X = Ok p16 -> f pos50 tt tt X = Ok p50 -> f pos84 tt tt X = Ok p84 -> half_range Rops p84 p16 = Ok s ->
  gbrt_predict Rops (three_fit f) X true false = Ok (GStd p50 s).
Proof.
  intros A B C H. unfold gbrt_predict. cbn [q_regs three_fit map]. cbn [mapM]. rewrite A, B, C. cbn [bind q_quantiles three_fit].
  destruct three_index as (I & J & K).
  assert (F : forallb (fun q => existsb (fun a => neqb Rops a q) [pos16; pos50; pos84]) [q16 Rops; q50 Rops; q84 Rops] = true).
  { cbn [forallb]. rewrite !andb_true_iff. repeat split; apply existsb_exists; [exists pos16|exists pos50|exists pos84]; (split; [cbn; auto|now apply Rneqb_spec]). }
  rewrite F. unfold reg. cbn [q_regs q_quantiles three_fit].
  change (q16 Rops) with pos16. change (q50 Rops) with pos50. change (q84 Rops) with pos84. rewrite I, J, K. cbn [bind nth_error map]. rewrite A, B, C. cbn [bind].
  now rewrite H.
Qed.
Lemma crossing_refuted : gbrt_fit crossing three tt tt = Ok (three_fit crossing) /\
  exists s, gbrt_predict Rops (three_fit crossing) [[0]] true false = Ok (GStd [- pos50] [s]) /\ s < 0.
Proof.
  split; [reflexivity|]. exists ((- pos84 - - pos16) / 2). split; [|lra]. apply three_predict with [- pos16] [- pos84]; reflexivity.
Qed.
Lemma cover_refuted : exists s, gbrt_fit skewed three tt tt = Ok (three_fit skewed) /\
  gbrt_predict Rops (three_fit skewed) [[0]] true false = Ok (GStd [0] [s]) /\
  skewed pos16 tt tt [[0]] = Ok [0] /\ skewed pos84 tt tt [[0]] = Ok [4] /\ 0 + s < 4.
Proof.
  exists ((4 - 0) / 2). assert (A : skewed pos16 tt tt [[0]] = Ok [0]) by (unfold skewed; cbn; destruct (Rlt_dec (/ 2) pos16); [lra|easy]).
  assert (B : skewed pos84 tt tt [[0]] = Ok [4]) by (unfold skewed; cbn; destruct (Rlt_dec (/ 2) pos84); [easy|lra]).
  assert (C : skewed pos50 tt tt [[0]] = Ok [0]) by (unfold skewed; cbn; destruct (Rlt_dec (/ 2) pos50); [lra|easy]).
  split; [reflexivity|]. split; [now apply three_predict with [0] [4]|]. repeat split; try easy. lra.
Qed.
