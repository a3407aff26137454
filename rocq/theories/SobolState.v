(** What the generator object remembers does not change what it returns. *)
From Coq Require Import String List ZArith Bool Lia.
From Verif Require Import Base BaseLemmas Num Values Dimension Space Sampler Sobol SobolLemmas.
Import ListNotations.
Open Scope nat_scope.
Open Scope list_scope.
Set Implicit Arguments.
Unset Strict Implicit.
Local Arguments Z.pow : simpl never.
Local Arguments Z.of_nat : simpl never.
Local Arguments v_row : simpl never.

Definition vtab (d : nat) : list (list Z) := map drow (seq 0 d) ++ map raw_row (seq d (dim_max - d)).
Definition qrow (d n : nat) : list Z := map (fun i => qn (drow i) n) (seq 0 d).
Definition dims_ok (d : nat) : Prop := 1 <= d <= dim_max.

Lemma drow_len i : i < dim_max -> length (drow i) = maxcol.
Proof. intro H. apply (drow_directions H). Qed.

Lemma xor_cols_ok f pos rest : 1 <= pos <= maxcol -> forall l, Forall (fun i => i < dim_max) l ->
  xor_cols (length l) pos (map drow l ++ rest) (map f l) =
  (map (fun i => Z.lxor (f i) (nth (pos - 1) (drow i) 0%Z)) l, Ok tt).
Proof.
  intros Hp. induction l as [|i l IH]; intro Hl; [reflexivity|]. inversion Hl; subst.
  change (length (i :: l)) with (S (length l)).
  change (map drow (i :: l) ++ rest) with (drow i :: (map drow l ++ rest)). cbn [map xor_cols].
  rewrite (nth_error_nth' (drow i) 0%Z) by (rewrite drow_len by assumption; lia). rewrite IH by assumption. reflexivity.
Qed.
Lemma xor_qrow d n : dims_ok d -> bit_lo0 (Z.of_nat n) <= maxcol ->
  xor_cols d (bit_lo0 (Z.of_nat n)) (vtab d) (qrow d n) = (qrow d (S n), Ok tt).
Proof.
  intros Hd Hb. destruct (lo0_bits (n := Z.of_nat n) ltac:(lia)) as (L & _).
  pose proof (@xor_cols_ok (fun i => qn (drow i) n) (bit_lo0 (Z.of_nat n)) (map raw_row (seq d (dim_max - d))) ltac:(lia) (seq 0 d)) as X.
  rewrite seq_length in X. unfold vtab, qrow. rewrite X; [reflexivity|]. apply Forall_forall. intros i Hi.
  apply in_seq in Hi. destruct Hd. lia.
Qed.
Lemma qrow_0 d : qrow d 0 = repeat 0%Z d.
Proof. unfold qrow. generalize 0 at 2. induction d as [|d IH]; intro a; [reflexivity|]. cbn [seq map repeat]. now rewrite IH. Qed.
Lemma qrow_len d n : length (qrow d n) = d.
Proof. unfold qrow. now rewrite map_length, seq_length. Qed.

Lemma lo0_ok n : (Z.of_nat n < 2 ^ 30 - 1)%Z -> bit_lo0 (Z.of_nat n) <= maxcol.
Proof. intro H. apply lo0_small. unfold maxcol. change (Z.of_nat 30) with 30%Z. lia. Qed.

(** The object is set up for [d] dimensions and at the number [n]. *)
Definition at_ (s : sobol) (d n : nat) : Prop := so_v s = vtab d /\ so_dim s = Z.of_nat d /\ so_lastq s = Some (qrow d n).
Definition same_settings (s s' : sobol) : Prop :=
  so_skip s' = so_skip s /\ so_randomize s' = so_randomize s /\ so_generated s' = so_generated s.
Lemma same_refl s : same_settings s s. Proof. repeat split. Qed.
Lemma same_trans s1 s2 s3 : same_settings s1 s2 -> same_settings s2 s3 -> same_settings s1 s3.
Proof. unfold same_settings. intuition congruence. Qed.

Lemma xor_lastq_ok s d n : dims_ok d -> at_ s d n -> (Z.of_nat n < 2 ^ 30 - 1)%Z ->
  exists s', xor_lastq s d (bit_lo0 (Z.of_nat n)) = (s', Ok tt) /\ at_ s' d (S n) /\ so_seed s' = so_seed s /\ same_settings s s'.
Proof.
  intros Hd (A1 & A2 & A3) Hn. unfold xor_lastq. rewrite A3, A1, (xor_qrow Hd (lo0_ok Hn)).
  eexists. split; [reflexivity|]. unfold at_, with_lastq, same_settings. cbn. auto.
Qed.
Lemma advance_ok c : forall s d n, dims_ok d -> at_ s d n -> (Z.of_nat (n + c) <= 2 ^ 30 - 1)%Z ->
  exists s', advance s d (Z.of_nat n) c = (s', Ok tt) /\ at_ s' d (n + c) /\ so_seed s' = so_seed s /\ same_settings s s'.
Proof.
  induction c as [|c IH]; intros s d n Hd A Hn; cbn [advance].
  - exists s. rewrite Nat.add_0_r. auto using same_refl.
  - destruct (@xor_lastq_ok s d n Hd A ltac:(lia)) as (s1 & -> & A1 & E1 & S1).
    replace (Z.of_nat n + 1)%Z with (Z.of_nat (S n)) by lia.
    destruct (IH s1 d (S n) Hd A1 ltac:(lia)) as (s2 & E2 & A2 & D2 & S2). exists s2.
    rewrite <- plus_n_Sm. split; [exact E2|]. split; [exact A2|]. split; [congruence|eauto using same_trans].
Qed.

Section State.
  Context {N RNG : Type} (O : numops N) (G : rng_ops N RNG).
  Definition quasi_row (d n : nat) : list N := map (fun q => nmul O (nofZ O q) (recipd O)) (qrow d n).
  Definition quasi_rows (d from n : nat) : list (list N) := map (quasi_row d) (seq from n).

  (** The end of a call, once lastq is right. *)
  Lemma finish_ok s d n : dims_ok d -> at_ s d n -> (Z.of_nat n < 2 ^ 30 - 1)%Z ->
    exists s3, xor_lastq s d (bit_lo0 (Z.of_nat n)) = (s3, Ok tt) /\
      at_ (with_lastq s3 (so_lastq s3) (Z.of_nat n)) d (S n) /\ same_settings s (with_lastq s3 (so_lastq s3) (Z.of_nat n)) /\
      map (fun q => nmul O (nofZ O q) (recipd O)) (firstn d (match so_lastq s with Some q => q | None => [] end)) = quasi_row d n.
  Proof.
    intros Hd A Hn. destruct (@xor_lastq_ok s d n Hd A Hn) as (s3 & E & A3 & _ & S3). exists s3. split; [exact E|].
    split. { destruct A3 as (B1 & B2 & B3). unfold at_, with_lastq. cbn. auto. }
    split. { destruct S3 as (B1 & B2 & B3). unfold same_settings, with_lastq. cbn. auto. }
    destruct A as (_ & _ & ->). rewrite <- (qrow_len d n) at 1. now rewrite firstn_all.
  Qed.

  (** Going on. *)
  Lemma next_point s d n : dims_ok d -> at_ s d n -> so_seed s = (Z.of_nat n - 1)%Z -> (Z.of_nat n < 2 ^ 30 - 1)%Z ->
    exists s', sobol_point O s d (Z.of_nat n) = (s', Ok (quasi_row d n, Z.of_nat (S n))) /\ at_ s' d (S n) /\
      so_seed s' = Z.of_nat n /\ same_settings s s'.
  Proof.
    intros Hd A Hs Hn. destruct A as (A1 & A2 & A3). unfold sobol_point. rewrite A2, Z.eqb_refl.
    cbv zeta. rewrite Z.max_r by lia.
    destruct (Z.eqb_spec (Z.of_nat n) 0) as [E0|NE0].
    - assert (n = 0) as -> by lia. change (Z.of_nat 0) with 0%Z.
      assert (A' : at_ (with_lastq s (Some (repeat 0%Z d)) (so_seed s)) d 0) by (unfold at_; cbn; rewrite qrow_0; auto).
      destruct (finish_ok Hd A' ltac:(lia)) as (s3 & F1 & F2 & F3 & F4). change (bit_lo0 (Z.of_nat 0)) with 1 in F1.
      change (maxcol <? 1) with false. cbv iota. rewrite F1, F4. eexists. split; [reflexivity|]. split; [exact F2|].
      split; [reflexivity|]. exact (same_trans (s2 := with_lastq s (Some (repeat 0%Z d)) (so_seed s)) ltac:(now repeat split) F3).
    - rewrite Hs. replace (Z.of_nat n - 1 + 1)%Z with (Z.of_nat n) by lia. rewrite Z.eqb_refl.
      assert (A : at_ s d n) by (unfold at_; auto).
      destruct (finish_ok Hd A Hn) as (s3 & F1 & F2 & F3 & F4). pose proof (lo0_ok Hn) as L.
      destruct (Nat.ltb_spec maxcol (bit_lo0 (Z.of_nat n))); [lia|]. rewrite F1, F4.
      eexists. split; [do 2 f_equal; f_equal; lia|]. split; [exact F2|]. split; [reflexivity|exact F3].
  Qed.
  (** One too many. *)
  Lemma last_point s d n : dims_ok d -> at_ s d n -> so_seed s = (Z.of_nat n - 1)%Z -> (Z.of_nat n = 2 ^ 30 - 1)%Z ->
    sobol_point O s d (Z.of_nat n) = (s, Raise ValueError).
  Proof.
    intros Hd A Hs Hn. destruct A as (A1 & A2 & A3). unfold sobol_point. rewrite A2, Z.eqb_refl.
    cbv zeta. rewrite Z.max_r by lia. destruct (Z.eqb_spec (Z.of_nat n) 0) as [E0|NE0]; [rewrite Hn in E0; discriminate|].
    rewrite Hs. replace (Z.of_nat n - 1 + 1)%Z with (Z.of_nat n) by lia. rewrite Z.eqb_refl.
    rewrite Hn. change 30%Z with (Z.of_nat 30). rewrite (lo0_large 30). reflexivity.
  Qed.

  Lemma next_rows n : forall s d from, dims_ok d -> at_ s d from -> so_seed s = (Z.of_nat from - 1)%Z ->
    (Z.of_nat (from + n) <= 2 ^ 30 - 1)%Z ->
    exists s', sobol_rows O s d (Z.of_nat from) n = (s', Ok (quasi_rows d from n)) /\ at_ s' d (from + n) /\
      so_seed s' = (Z.of_nat (from + n) - 1)%Z /\ same_settings s s'.
  Proof.
    induction n as [|n IH]; intros s d from Hd A Hs Hn; cbn [sobol_rows].
    - exists s. rewrite Nat.add_0_r. auto using same_refl.
    - destruct (next_point Hd A Hs ltac:(lia)) as (s1 & -> & A1 & E1 & S1).
      destruct (IH s1 d (S from) Hd A1 ltac:(lia) ltac:(lia)) as (s2 & -> & A2 & E2 & S2).
      exists s2. rewrite <- plus_n_Sm. split; [reflexivity|]. split; [exact A2|]. split; [exact E2|eauto using same_trans].
  Qed.
  (** ... and what happens when there are too many. *)
  Lemma next_rows_too_many n : forall s d from, dims_ok d -> at_ s d from -> so_seed s = (Z.of_nat from - 1)%Z ->
    (Z.of_nat from <= 2 ^ 30 - 1 < Z.of_nat (from + n))%Z ->
    exists s' to, sobol_rows O s d (Z.of_nat from) n = (s', Raise ValueError) /\ at_ s' d to /\
      so_seed s' = (Z.of_nat to - 1)%Z /\ from <= to /\ same_settings s s'.
  Proof.
    induction n as [|n IH]; intros s d from Hd A Hs Hn; cbn [sobol_rows]; [lia|].
    destruct (Z.eq_dec (Z.of_nat from) (2 ^ 30 - 1)) as [E|NE].
    - rewrite (last_point Hd A Hs E). exists s, from. auto using same_refl.
    - destruct (next_point Hd A Hs ltac:(lia)) as (s1 & -> & A1 & E1 & S1).
      destruct (IH s1 d (S from) Hd A1 ltac:(lia) ltac:(lia)) as (s2 & to & -> & A2 & E2 & L2 & S2).
      exists s2, to. split; [reflexivity|]. split; [exact A2|]. split; [exact E2|]. split; [lia|eauto using same_trans].
  Qed.

  (** ** Whatever was done before *)
  Definition settled (skip : nat) (s : sobol) : Prop :=
    so_skip s = Z.of_nat skip /\
    (forall d, dims_ok d -> so_dim s = Z.of_nat d -> so_v s = vtab d) /\
    ((so_seed s = -1)%Z /\ (forall d, dims_ok d -> so_dim s <> Z.of_nat d) \/ (Z.of_nat skip <= so_seed s)%Z).

  Lemma at_settled skip s d n : so_skip s = Z.of_nat skip -> dims_ok d -> at_ s d n -> (Z.of_nat skip <= so_seed s)%Z -> settled skip s.
  Proof.
    intros H1 Hd (A1 & A2 & A3) H2. split; [exact H1|]. split; [|now right]. intros d' _ E. rewrite A2 in E.
    apply Nat2Z.inj in E. now subst d'.
  Qed.

  Lemma first_point skip s d : settled skip s -> dims_ok d -> (Z.of_nat skip < 2 ^ 30 - 1)%Z ->
    exists s', sobol_point O s d (Z.of_nat skip) = (s', Ok (quasi_row d skip, Z.of_nat (S skip))) /\ at_ s' d (S skip) /\
      so_seed s' = Z.of_nat skip /\ same_settings s s'.
  Proof.
    intros (K & T & P) Hd Hk.
    (* after the initialisation *)
    assert (I : exists s1, (if (Z.of_nat d =? so_dim s)%Z then (s, Ok tt) else sobol_init s d) = (s1, Ok tt) /\
      so_v s1 = vtab d /\ so_dim s1 = Z.of_nat d /\ so_seed s1 = so_seed s /\ same_settings s s1 /\
      ((so_seed s = -1)%Z -> so_lastq s1 = Some (qrow d 0))).
    { destruct (Z.eqb_spec (Z.of_nat d) (so_dim s)) as [E|NE].
      - exists s. split; [reflexivity|]. split; [now apply T|]. split; [auto|]. split; [reflexivity|]. split; [apply same_refl|].
        intro S1. destruct P as [[_ P]|P]; [|lia]. exfalso. now apply (P d Hd).
      - unfold sobol_init. destruct Hd as [D1 D2]. destruct (Nat.ltb_spec d 1); [lia|]. destruct (Nat.ltb_spec dim_max d); [lia|].
        cbn [orb]. eexists. split; [reflexivity|]. cbn [so_v so_dim so_seed so_lastq]. split; [reflexivity|]. split; [reflexivity|].
        split; [reflexivity|]. split; [now repeat split|]. intros _. now rewrite qrow_0. }
    destruct I as (s1 & I0 & I1 & I2 & I3 & I4 & I5). unfold sobol_point. rewrite I0. cbv zeta. rewrite Z.max_r by lia.
    assert (Fin : forall s2 , at_ s2 d skip -> same_settings s1 s2 ->
      exists s3, xor_lastq s2 d (bit_lo0 (Z.of_nat skip)) = (s3, Ok tt) /\
      at_ (with_lastq s3 (so_lastq s3) (Z.of_nat skip)) d (S skip) /\ same_settings s (with_lastq s3 (so_lastq s3) (Z.of_nat skip)) /\
      map (fun q => nmul O (nofZ O q) (recipd O)) (firstn d (match so_lastq s2 with Some q => q | None => [] end)) = quasi_row d skip).
    { intros s2 A S2. destruct (finish_ok Hd A Hk) as (s3 & F1 & F2 & F3 & F4). exists s3. split; [exact F1|]. split; [exact F2|].
      split; [|exact F4]. exact (same_trans (same_trans I4 S2) F3). }
    pose proof (lo0_ok Hk) as L.
    assert (Pos : (maxcol <? bit_lo0 (Z.of_nat skip)) = false) by (apply Nat.ltb_ge; lia).
    destruct (Z.eqb_spec (Z.of_nat skip) 0) as [E0|NE0].
    - assert (skip = 0) as -> by lia. change (Z.of_nat 0) with 0%Z in *.
      assert (A' : at_ (with_lastq s1 (Some (repeat 0%Z d)) (so_seed s1)) d 0) by (unfold at_; cbn; rewrite qrow_0; auto).
      destruct (Fin _ A' ltac:(now repeat split)) as (s3 & F1 & F2 & F3 & F4).
      change (bit_lo0 0) with 1 in F1. change (maxcol <? 1) with false. cbv iota. rewrite F1, F4. eexists. split; [reflexivity|]. auto.
    - destruct (Z.eqb_spec (Z.of_nat skip) (so_seed s1 + 1)) as [E1|NE1]; [destruct P as [[P _]|P]; lia|].
      destruct (Z.leb_spec (Z.of_nat skip) (so_seed s1)) as [Le|Gt].
      + assert (A' : at_ (with_lastq s1 (Some (repeat 0%Z d)) 0) d 0) by (unfold at_; cbn; rewrite qrow_0; auto).
        destruct (@advance_ok skip _ d 0 Hd A' ltac:(lia)) as (s2 & E2 & A2 & _ & S2). change (Z.of_nat 0) with 0%Z in E2.
        rewrite Nat2Z.id, E2. cbn [bind]. rewrite Nat.add_0_l in A2.
        destruct (Fin s2 A2) as (s3 & F1 & F2 & F3 & F4).
        { exact (same_trans (s2 := with_lastq s1 (Some (repeat 0%Z d)) 0) ltac:(now repeat split) S2). }
        rewrite Pos, F1, F4. eexists. split; [do 2 f_equal; f_equal; lia|]. auto.
      + destruct P as [[P P']|P]; [|lia]. specialize (I5 P). rewrite I3, P. change (-1 + 1)%Z with 0%Z.
        assert (A' : at_ s1 d 0) by (unfold at_; auto).
        destruct (@advance_ok skip _ d 0 Hd A' ltac:(lia)) as (s2 & E2 & A2 & _ & S2). change (Z.of_nat 0) with 0%Z in E2.
        rewrite Z.sub_0_r, Nat2Z.id, E2. cbn [bind]. rewrite Nat.add_0_l in A2.
        destruct (Fin s2 A2 S2) as (s3 & F1 & F2 & F3 & F4).
        rewrite Pos, F1, F4. eexists. split; [do 2 f_equal; f_equal; lia|]. auto.
  Qed.

  Definition rows_outcome (skip d n : nat) : res (@design N) :=
    if (Z.of_nat (skip + n) <=? 2 ^ 30 - 1)%Z then Ok (quasi_rows d skip n) else Raise ValueError.
  Lemma rows_all skip s d n : settled skip s -> dims_ok d -> (Z.of_nat skip < 2 ^ 30 - 1)%Z ->
    exists s', sobol_rows O s d (Z.of_nat skip) n = (s', rows_outcome skip d n) /\ settled skip s' /\ same_settings s s'.
  Proof.
    intros Hs Hd Hk. destruct n as [|n]; unfold rows_outcome; cbn [sobol_rows].
    - exists s. rewrite Nat.add_0_r. destruct (Z.leb_spec (Z.of_nat skip) (2 ^ 30 - 1)); [|lia]. auto using same_refl.
    - destruct (first_point Hs Hd Hk) as (s1 & -> & A1 & E1 & S1).
      destruct (Z.leb_spec (Z.of_nat (skip + S n)) (2 ^ 30 - 1)) as [Le|Gt].
      + destruct (@next_rows n s1 d (S skip) Hd A1 ltac:(lia) ltac:(lia)) as (s2 & -> & A2 & E2 & S2).
        exists s2. split; [reflexivity|]. split; [|eauto using same_trans].
        eapply at_settled; [|exact Hd|exact A2|lia]. destruct S2 as (-> & _). destruct S1 as (-> & _). apply Hs.
      + destruct (@next_rows_too_many n s1 d (S skip) Hd A1 ltac:(lia) ltac:(lia)) as (s2 & to & -> & A2 & E2 & L2 & S2).
        exists s2. split; [reflexivity|]. split; [|eauto using same_trans].
        eapply at_settled; [|exact Hd|exact A2|lia]. destruct S2 as (-> & _). destruct S1 as (-> & _). apply Hs.
  Qed.

  Definition design_outcome (skip : nat) (rand : bool) (d n : nat) (g : RNG) : res (@design N) :=
    rows <- rows_outcome skip d n ;; Ok (if rand then random_shift O G rows d g else rows).
  Lemma design_all skip s d n g : settled skip s -> dims_ok d -> (Z.of_nat skip < 2 ^ 30 - 1)%Z ->
    exists s', sobol_design O G s d n g = (s', design_outcome skip (so_randomize s) d n g) /\ settled skip s' /\ same_settings s s'.
  Proof.
    intros Hs Hd Hk. unfold sobol_design. rewrite (proj1 Hs). destruct (@rows_all skip s d n Hs Hd Hk) as (s' & -> & H1 & H2).
    exists s'. split; [reflexivity|]. auto.
  Qed.
  Lemma generate_all skip s dims n g : settled skip s -> dims_ok (length dims) -> (Z.of_nat skip < 2 ^ 30 - 1)%Z ->
    let too_many := (negb (Z.of_nat skip =? 0) && (Z.of_nat skip <? so_generated s + Z.of_nat n))%Z in
    let out := warp_design O dims (design_outcome skip (so_randomize s) (length dims) n g) in
    snd (sobol_generate O G s dims n g) = (if too_many then (dims, Raise ValueError) else out) /\
    settled skip (fst (sobol_generate O G s dims n g)) /\
    so_randomize (fst (sobol_generate O G s dims n g)) = so_randomize s /\
    so_generated (fst (sobol_generate O G s dims n g)) =
      (so_generated s + (if too_many then 0 else match snd out with Ok _ => Z.of_nat n | Raise _ => 0 end))%Z.
  Proof.
    intros Hs Hd Hk too_many out. unfold sobol_generate. rewrite (proj1 Hs). fold too_many. destruct too_many.
    { cbn [fst snd]. rewrite Z.add_0_r. auto. }
    destruct (@design_all skip s (length dims) n g Hs Hd Hk) as (s1 & -> & H1 & H2). fold out.
    destruct out as [dims' pts]. cbn [fst snd]. split; [reflexivity|]. destruct H2 as (E1 & E2 & E3).
    split; [|destruct pts; cbn; split; auto; lia]. destruct pts; [|exact H1]. exact H1.
  Qed.
End State.
