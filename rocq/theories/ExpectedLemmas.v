From Coq Require Import List ZArith Bool Lia Reals Lra.
From Flocq Require Import Core.Core IEEE754.BinarySingleNaN.
From Verif Require Import Base BaseLemmas Num Values Transformers Dimension Space NumLaws SpaceSpec Optimizer OptSpec ArgLemmas
  OptBatch SampleLemmas EachLemmas Expected ExpectedSpec.
Import ListNotations.
Open Scope list_scope.
Set Implicit Arguments.

Section Expected.
  Context {N RNG : Type} (O : numops N) (OL : order_laws O) (G : rng_ops N RNG).
  Notation val := (pyval N).
  Variable predict : list (list val) -> res (list N).

  Lemma random_sampling dims n g P g' Xt y : space_rvs O G dims n g = (Ok P, g') -> space_transform O dims P = Ok Xt -> predict Xt = Ok y ->
    length y = length P -> y <> [] -> no_nan O y ->
    exists k x v, expected_minimum_random_sampling O G predict dims n g = Ok (x, v) /\ nth_error P k = Some x /\ nth_error y k = Some v /\
      forall w, In w y -> nleb O v w = true.
  Proof.
    intros HP HX Hy Hl Hn Hnan. unfold expected_minimum_random_sampling. rewrite HP. cbn [fst bind]. rewrite HX. cbn [bind]. rewrite Hy. cbn [bind].
    destruct (np_min_spec OL Hn Hnan) as (m & Em & _ & Hle & _). unfold np_min in Em.
    destruct (np_argmin O y) as [k|] eqn:E; [|discriminate]. cbn [nth_of] in *.
    destruct (nth_error y k) as [v|] eqn:Ev; [|discriminate]. injection Em as ->.
    assert (K : k < length P) by (rewrite <- Hl; apply nth_error_Some; congruence). apply nth_error_Some in K.
    destruct (nth_error P k) as [x|] eqn:Ex; [|easy]. cbn [bind]. now exists k, x, m.
  Qed.
  Lemma random_sampling_inv dims n g r : expected_minimum_random_sampling O G predict dims n g = Ok r ->
    exists P g' Xt y, space_rvs O G dims n g = (Ok P, g') /\ space_transform O dims P = Ok Xt /\ predict Xt = Ok y /\ y <> [].
  Proof.
    unfold expected_minimum_random_sampling. destruct (space_rvs O G dims n g) as [[P|] g'] eqn:E; [|discriminate]. cbn [fst bind].
    destruct (space_transform O dims P) as [Xt|] eqn:EX; [|discriminate]. cbn [bind]. destruct (predict Xt) as [y|] eqn:Ey; [|discriminate]. cbn [bind].
    intro H. exists P, g', Xt, y. repeat split; auto. intros ->. discriminate.
  Qed.

  Variable below_inf : N -> bool.
  Variable sp : (list N -> res N) -> list val -> list (N * N) -> res (list N * N).
  Context (HI : infinite O below_inf).

  Lemma best_ok f bounds (HD : descends O f bounds sp) : forall xs best b, best_of O below_inf sp f bounds xs best = Ok (Some b) ->
    (forall a, best = Some a -> Forall2 (between O) bounds (fst a) /\ f (fst a) = Ok (snd a) /\ nisnan O (snd a) = false) ->
    Forall2 (between O) bounds (fst b) /\ f (fst b) = Ok (snd b) /\ nisnan O (snd b) = false /\
    (forall a, best = Some a -> nleb O (snd b) (snd a) = true) /\
    (forall x0 xs' v0, In x0 xs -> nums O x0 = Ok xs' -> f xs' = Ok v0 -> nleb O (snd b) v0 = true).
  Proof.
    assert (T : forall x y z, nleb O x y = true -> nleb O y z = true -> nleb O x z = true) by apply (ol_trans OL).
    assert (NUM : forall x, nisnan O x = false -> nleb O x x = true) by (intros x; unfold nisnan; now rewrite negb_false_iff).
    induction xs as [|x0 xs IH]; intros best b H HB; cbn in H.
    - injection H as ->. destruct (HB b eq_refl) as (A & B & C). repeat split; auto; try easy. intros a E. injection E as <-. now apply NUM.
    - destruct (sp f x0 bounds) as [[x v]|] eqn:E; [|discriminate]. cbn [bind snd] in H. destruct (HD _ _ _ E) as (R1 & R2 & R3 & R4).
      set (better := match best with None => below_inf v | Some b => nltb O v (snd b) end) in H.
      assert (HB' : forall a, (if better then Some (x, v) else best) = Some a -> Forall2 (between O) bounds (fst a) /\ f (fst a) = Ok (snd a) /\ nisnan O (snd a) = false).
      { intros a Ea. destruct better; [injection Ea as <-; easy|now apply HB]. }
      destruct (IH _ _ H HB') as (A & B & C & D & F). split; [easy|]. split; [easy|]. split; [easy|].
      assert (V : nleb O (snd b) v = true).
      { unfold better in D. destruct best as [a|].
        - destruct (nltb O v (snd a)) eqn:L; [now apply (D (x, v))|]. apply (T _ (snd a)); [now apply D|].
          destruct (HB a eq_refl) as (_ & _ & Na). 
          destruct (ol_total OL (snd a) v (NUM _ Na) (NUM _ R3)) as [K|K]; [easy|].
          destruct (nleb O (snd a) v) eqn:Q; [easy|]. assert (nltb O v (snd a) = true) by (apply (ol_lt OL); auto). congruence.
        - destruct (below_inf v) eqn:L; [now apply (D (x, v))|]. now apply HI. }
      split.
      + intros a ->. unfold better in D. destruct (nltb O v (snd a)) eqn:L; [|now apply D].
        apply (T _ v); [easy|]. destruct (HB a eq_refl) as (_ & _ & Na). apply (ol_lt OL) in L. destruct L as (L1 & L2 & L3).
        destruct (ol_total OL v (snd a) L1 L2); congruence.
      + intros y0 ys v0 [<-|Hin] Hn Hf; [|now apply (F y0 ys)]. apply (T _ v); [easy|]. now apply (R4 ys).
  Qed.
  Lemma c60_min dims x n g p v : is_partly_categorical dims = false -> descends O (surface O predict dims) (space_bounds O dims) sp ->
    expected_minimum O G predict below_inf sp dims x n g = Ok (p, v) ->
    exists starts xs, (if (0 <? n)%Z then fst (space_rvs O G dims (Z.to_nat n) g) = Ok starts else starts = []) /\
      p = map (@VFloat N) xs /\ Forall2 (between O) (space_bounds O dims) xs /\ surface O predict dims xs = Ok v /\
      forall x0 ys v0, In x0 (x :: starts) -> nums O x0 = Ok ys -> surface O predict dims ys = Ok v0 -> nleb O v v0 = true.
  Proof.
    intros Hc HD. unfold expected_minimum. rewrite Hc. intro H.
    destruct (if (0 <? n)%Z then fst (space_rvs O G dims (Z.to_nat n) g) else Ok []) as [starts|] eqn:Es; [|discriminate]. cbn [bind] in H.
    destruct (best_of _ _ _ _ _ _ _) as [[b|]|] eqn:E; try discriminate. cbn [bind] in H. destruct b as [xs w]. injection H as <- <-.
    apply (best_ok HD) in E; [|discriminate]. cbn [fst snd] in E. destruct E as (A & B & C & _ & F).
    exists starts, xs. split; [destruct (0 <? n)%Z; congruence|]. split; [easy|]. split; [easy|]. split; [easy|]. exact F.
  Qed.
  Lemma real_space dims xs : real_only dims -> Forall2 (between O) (space_bounds O dims) xs -> in_space O dims (map (@VFloat N) xs).
  Proof.
    intros H. revert xs. induction H as [|d dims Hd H IH]; intros xs F; cbn in F.
    - inversion F. constructor.
    - destruct d as [r| |]; try easy. cbn in F. inversion F as [|? c ? cs [A B] F']; subst. cbn. constructor; [now constructor|]. now apply IH.
  Qed.
  Lemma real_only_cat (dims : list (dim N)) : real_only dims -> is_partly_categorical dims = false.
  Proof. induction 1 as [|d dims Hd H IH]; [easy|]. cbn. unfold is_partly_categorical in IH. rewrite IH. now destruct d. Qed.
End Expected.

(** Float64 *)
Definition f64_below (x : float) : bool := fltb x (B754_infinity false).
Lemma f64_infinite L : infinite (F64 L) f64_below.
Proof.
  intros v w Hv Hw H. unfold f64_below in H. cbn. unfold nisnan in *. cbn in *. unfold fleb, fltb in *.
  destruct w as [s|[]| |s m e B]; try discriminate; destruct v as [s'|[]| |s' m' e' B']; try reflexivity; try discriminate;
    cbn in *; try (destruct s; discriminate); try discriminate.
Qed.

Lemma c60_random L RNG (G : rng_ops float RNG) predict dims n g x v : rng_ok (F64 L) G -> pow_ok L -> dims <> [] -> Forall (samplable L) dims ->
  (forall Xt y, predict Xt = Ok y -> length y = length Xt /\ no_nan (F64 L) y) ->
  expected_minimum_random_sampling (F64 L) G predict dims n g = Ok (x, v) ->
  exists P g' Xt y k, space_rvs (F64 L) G dims n g = (Ok P, g') /\ length P = n /\ space_transform (F64 L) dims P = Ok Xt /\ predict Xt = Ok y /\
    nth_error P k = Some x /\ in_space (F64 L) dims x /\ nth_error y k = Some v /\ forall w, In w y -> fleb v w = true.
Proof.
  intros HG Hp Hd Hs Hpred H. pose proof (random_sampling_inv _ _ _ _ _ _ H) as (P & g' & Xt & y & HP & HX & Hy & Hn).
  destruct (space_samples HG Hp n g Hd Hs) as (P0 & g0 & E0 & Hl & HP0). rewrite E0 in HP. injection HP as <- <-.
  destruct (Hpred _ _ Hy) as [L1 L2]. rewrite (space_transform_length _ _ _ HX) in L1.
  destruct (random_sampling (F64_order L) G predict dims n g E0 HX Hy L1 Hn L2) as (k & x' & v' & E & A & B & C).
  rewrite E in H. injection H as <- <-. exists P0, g0, Xt, y, k. repeat split; auto.
  rewrite Forall_forall in HP0. apply HP0. now apply nth_error_In in A.
Qed.
