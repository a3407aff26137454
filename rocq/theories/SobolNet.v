(** The points of the Sobol generator are balanced in several dimensions at once. The bits of the direction numbers are sequences
    over GF(2) on which the polynomial of the dimension, read as an operator, acts as a shift of the bits. *)
From Coq Require Import List ZArith Bool Lia Permutation.
From Verif Require Import Base BaseLemmas Sobol SobolLemmas.
Import ListNotations.
Open Scope list_scope.
Open Scope nat_scope.
Set Implicit Arguments.

(** ** Sequences and operators *)
Definition null (s : nat -> bool) : Prop := forall t, s t = false.
(** [p] (coefficients, the constant one first) applied to [s]: the sum of p_l s(t + l). *)
Fixpoint act (p : list bool) (s : nat -> bool) (t : nat) : bool :=
  match p with [] => false | b :: p' => xorb (b && s t) (act p' s (S t)) end.
Definition plus (s s' : nat -> bool) (t : nat) : bool := xorb (s t) (s' t).
Lemma act_ext p s s' : (forall t, s t = s' t) -> forall t, act p s t = act p s' t.
Proof. intro H. induction p as [|b p IH]; intro t; cbn; [easy|]. now rewrite H, IH. Qed.
Lemma act_plus p s s' t : act p (plus s s') t = xorb (act p s t) (act p s' t).
Proof.
  revert t. induction p as [|b p IH]; intro t; cbn; [easy|]. rewrite IH. unfold plus.
  destruct b, (s t), (s' t), (act p s (S t)), (act p s' (S t)); reflexivity.
Qed.
Lemma act_null p s : null s -> null (act p s).
Proof. intros H. induction p as [|b p IH]; intro t; cbn; [easy|]. rewrite H, IH. now destruct b. Qed.
Lemma act_shift p s t : act p (fun t => s (S t)) t = act p s (S t).
Proof. revert t. induction p as [|b p IH]; intro t; cbn; [easy|]. now rewrite IH. Qed.
Lemma act_scale p b s t : act p (fun t => b && s t) t = b && act p s t.
Proof. revert t. induction p as [|c p IH]; intro t; cbn; [now destruct b|]. rewrite IH. destruct b, c, (s t), (act p s (S t)); reflexivity. Qed.
Lemma act_comm p q s t : act p (act q s) t = act q (act p s) t.
Proof.
  revert t. induction p as [|b p IH]; intro t.
  - symmetry. apply act_null. now intro.
  - rewrite (@act_ext q (act (b :: p) s) (plus (fun t => b && s t) (fun t => act p s (S t)))) by reflexivity.
    rewrite act_plus, act_scale. cbn [act]. f_equal. rewrite IH. symmetry. exact (act_shift q (act p s) t).
Qed.
Lemma act_app p q s t : act (p ++ q) s t = xorb (act p s t) (act q s (t + length p)).
Proof.
  revert t. induction p as [|b p IH]; intro t; cbn [app act length]; [now rewrite Nat.add_0_r, xorb_false_l|]. rewrite IH.
  replace (t + S (length p)) with (S t + length p) by lia. now rewrite xorb_assoc.
Qed.
Lemma act_zero p s t : (forall l, l < length p -> s (t + l) = false) -> act p s t = false.
Proof.
  revert t. induction p as [|b p IH]; intros t H; cbn; [easy|].
  rewrite <- (Nat.add_0_r t) at 1. rewrite H by (cbn; lia). rewrite IH; [now destruct b|]. intros l Hl. replace (S t + l) with (t + S l) by lia. apply H. cbn. lia.
Qed.
(** A sequence killed by a polynomial of degree [d] is determined by its first [d] terms. *)
Definition monic (p : list bool) (d : nat) : Prop := exists q, p = q ++ [true] /\ length q = d.
Lemma monic_null p d s : monic p d -> null (act p s) -> (forall t, t < d -> s t = false) -> null s.
Proof.
  intros (q & -> & L) H H0 t. induction t as [t IH] using lt_wf_ind. destruct (Nat.lt_ge_cases t d) as [|G]; [auto|].
  specialize (H (t - d)). rewrite act_app in H. rewrite act_zero in H by (intros l Hl; apply IH; lia).
  rewrite L in H. replace (t - d + d) with t in H by lia. cbn in H. now destruct (s t).
Qed.
Lemma act_first p d s M : monic p d -> (forall t, t < M -> s t = false) -> forall t, t < M - d -> act p s t = false.
Proof. intros (q & -> & L) H t Ht. apply act_zero. intros l Hl. rewrite app_length in Hl. cbn in Hl. apply H. lia. Qed.

Fixpoint acts (ps : list (list bool)) (s : nat -> bool) : nat -> bool :=
  match ps with [] => s | p :: ps' => acts ps' (act p s) end.
Lemma acts_ext ps s s' : (forall t, s t = s' t) -> forall t, acts ps s t = acts ps s' t.
Proof. revert s s'. induction ps as [|p ps IH]; intros s s' H t; cbn; [easy|]. apply IH. now apply act_ext. Qed.
Lemma acts_plus ps s s' t : acts ps (plus s s') t = xorb (acts ps s t) (acts ps s' t).
Proof. revert s s'. induction ps as [|p ps IH]; intros s s'; cbn; [easy|]. rewrite <- IH. apply acts_ext. intro. apply act_plus. Qed.
Lemma acts_null ps s : null s -> null (acts ps s).
Proof. revert s. induction ps as [|p ps IH]; intros s H; cbn; [easy|]. apply IH. now apply act_null. Qed.
Lemma acts_app ps qs s : acts (ps ++ qs) s = acts qs (acts ps s).
Proof. revert s. induction ps as [|p ps IH]; intro s; cbn; [easy|]. apply IH. Qed.
Lemma acts_act ps q s t : acts ps (act q s) t = act q (acts ps s) t.
Proof. revert s. induction ps as [|p ps IH]; intro s; cbn; [easy|]. rewrite <- IH. apply acts_ext. intro. apply act_comm. Qed.
Lemma acts_comm ps qs s t : acts ps (acts qs s) t = acts qs (acts ps s) t.
Proof. revert s t. induction qs as [|q qs IH]; intros s t; cbn; [easy|]. rewrite IH. apply acts_ext. intro. apply acts_act. Qed.
Lemma acts_monic ps ds s M : Forall2 monic ps ds -> null (acts ps s) -> list_sum ds <= M -> (forall t, t < M -> s t = false) -> null s.
Proof.
  intro F. revert s M. induction F as [|p d ps ds Hm F IH]; intros s M H L H0; [exact H|]. cbn in H, L.
  apply (@monic_null p d s Hm); [|intros t Ht; apply H0; lia]. apply (IH _ (M - d) H); [unfold list_sum in *; lia|]. intros t Ht. eapply act_first; eauto.
Qed.

(** ** Coprime polynomials *)
Definition coprime (p q : list bool) : Prop := forall s, null (act p s) -> null (act q s) -> null s.
Lemma coprime_sym p q : coprime p q -> coprime q p.
Proof. intros H s H1 H2. now apply H. Qed.
Lemma coprime_power p q n s : coprime p q -> null (acts (repeat p n) s) -> null (act q s) -> null s.
Proof.
  intros C. revert s. induction n as [|n IH]; intros s H1 H2; [exact H1|]. cbn in H1. apply C; [|exact H2]. apply IH; [exact H1|].
  intro t. rewrite act_comm. now apply act_null.
Qed.
Lemma coprime_all p ps n s : Forall (coprime p) ps -> null (acts (repeat p n) s) -> null (acts ps s) -> null s.
Proof.
  intro F. revert s. induction F as [|q ps C F IH]; intros s H1 H2; [exact H2|]. cbn in H2. apply (@coprime_power p q n s C H1).
  apply IH; [|exact H2]. intro t. rewrite acts_act. now apply act_null.
Qed.
(** Sequences killed by powers of coprime polynomials that add up to nothing are nothing. *)
Definition total (us : list (nat -> bool)) : nat -> bool := fold_right plus (fun _ => false) us.
Definition powers (ps : list (list bool)) (ns : list nat) : list (list bool) := concat (map (fun pn => repeat (fst pn) (snd pn)) (combine ps ns)).
Definition killed (p : list bool) (n : nat) (u : nat -> bool) : Prop := null (acts (repeat p n) u).
Inductive killed_all : list (list bool) -> list nat -> list (nat -> bool) -> Prop :=
| ka_nil : killed_all [] [] []
| ka_cons p n u ps ns us : killed p n u -> killed_all ps ns us -> killed_all (p :: ps) (n :: ns) (u :: us).
Lemma powers_in ps ns q : In q (powers ps ns) -> In q ps.
Proof.
  unfold powers. revert ns. induction ps as [|p ps IH]; intros [|n ns]; cbn; try easy. intro H. apply in_app_or in H. destruct H as [H|H].
  - apply repeat_spec in H. now left.
  - right. eapply IH, H.
Qed.
Lemma powers_kill ps ns us : killed_all ps ns us -> null (acts (powers ps ns) (total us)).
Proof.
  induction 1 as [|p n u ps ns us K KA IH]; [now intro|]. unfold powers in *. cbn [combine map concat fst snd total fold_right]. fold (total us). intro t.
  rewrite acts_app. rewrite (acts_ext _ _ (plus (acts (repeat p n) u) (acts (repeat p n) (total us)))) by (intro; apply acts_plus).
  rewrite acts_plus. rewrite (@acts_null _ _ K t), xorb_false_l. rewrite acts_comm. exact (@acts_null _ _ IH t).
Qed.
Lemma separate ps ns us : killed_all ps ns us -> ForallOrdPairs coprime ps -> null (total us) -> Forall null us.
Proof.
  induction 1 as [|p n u ps ns us K KA IH]; intros C H; [constructor|]. inversion C as [|? ? C1 C2]; subst. change (null (plus u (total us))) in H.
  assert (E : forall t, u t = total us t) by (intro t; specialize (H t); unfold plus in H; destruct (u t), (total us t); easy).
  assert (Hu : null u).
  { apply (@coprime_all p (powers ps ns) n u); [|exact K|].
    - apply Forall_forall. intros q Hq. apply powers_in in Hq. rewrite Forall_forall in C1. auto.
    - intro t. rewrite (@acts_ext _ _ _ E). now apply powers_kill. }
  constructor; [exact Hu|]. apply IH; [exact C2|]. intro t. rewrite <- E. apply Hu.
Qed.
Lemma total_null us : Forall null us -> null (total us).
Proof. induction 1 as [|u us H F IH]; intro t; cbn; [easy|]. unfold plus. rewrite H. now rewrite IH. Qed.

(** Bezout coefficients are a certificate. *)
Fixpoint padd (p q : list bool) : list bool :=
  match p, q with [], _ => q | _, [] => p | a :: p', b :: q' => xorb a b :: padd p' q' end.
Fixpoint pmul (p q : list bool) : list bool :=
  match p with [] => [] | b :: p' => padd (if b then q else []) (false :: pmul p' q) end.
Lemma act_padd p q s t : act (padd p q) s t = xorb (act p s t) (act q s t).
Proof.
  revert q t. induction p as [|a p IH]; intros [|b q] t; cbn [padd act]; try (now rewrite ?xorb_false_l, ?xorb_false_r).
  rewrite IH. destruct a, b, (s t), (act p s (S t)), (act q s (S t)); reflexivity.
Qed.
Lemma act_pmul p q s t : act (pmul p q) s t = act p (act q s) t.
Proof.
  revert t. induction p as [|b p IH]; intro t; [reflexivity|]. cbn [pmul]. rewrite act_padd. cbn [act]. rewrite IH. rewrite andb_false_l, xorb_false_l. now destruct b.
Qed.
Definition is_one (p : list bool) : bool := match p with true :: r => forallb negb r | _ => false end.
Lemma is_one_act p s t : is_one p = true -> act p s t = s t.
Proof.
  destruct p as [|[|] r]; cbn; try easy. intro H. assert (Z : forall t, act r s t = false).
  { induction r as [|b r IH]; intro t'; cbn; [easy|]. cbn in H. apply andb_true_iff in H. destruct H as [Hb Hr]. rewrite IH by exact Hr. now destruct b. }
  rewrite Z. now destruct (s t).
Qed.
Lemma bezout u v p q : is_one (padd (pmul u p) (pmul v q)) = true -> coprime p q.
Proof.
  intros H s Hp Hq t. rewrite <- (@is_one_act _ s t H), act_padd, !act_pmul. now rewrite (@act_null u _ Hp t), (@act_null v _ Hq t).
Qed.

(** ** Counting *)
Definition count {A} (f : A -> bool) (X : list A) : nat := length (filter f X).
Definition balanced {A} (f : A -> bool) (X : list A) : Prop := 2 * count f X = length X.
Fixpoint combine_by {A} (c : list bool) (fs : list (A -> bool)) (x : A) : bool :=
  match c, fs with b :: c', f :: fs' => xorb (b && f x) (combine_by c' fs' x) | _, _ => false end.
Fixpoint agrees {A} (ys : list bool) (fs : list (A -> bool)) (x : A) : bool :=
  match ys, fs with y :: ys', f :: fs' => eqb (f x) y && agrees ys' fs' x | _, _ => true end.
Lemma count_ext A (f g : A -> bool) X : (forall x, In x X -> f x = g x) -> count f X = count g X.
Proof.
  unfold count. induction X as [|x X IH]; intro H; cbn; [easy|]. rewrite (H x) by now left.
  assert (E := IH ltac:(intros; apply H; now right)). destruct (g x); cbn; congruence.
Qed.
Lemma count_four A (f g : A -> bool) X : exists a b c d, length X = a + b + c + d /\ count f X = a + b /\ count g X = a + c /\
  count (fun x => xorb (f x) (g x)) X = b + c /\
  (forall y, length (filter (fun x => eqb (f x) y) X) = if y then a + b else c + d) /\
  (forall y, count g (filter (fun x => eqb (f x) y) X) = if y then a else c).
Proof.
  unfold count. induction X as [|x X (a & b & c & d & H1 & H2 & H3 & H4 & H5 & H6)].
  - exists 0, 0, 0, 0. repeat split; now intros [|].
  - exists (if f x && g x then S a else a), (if f x && negb (g x) then S b else b), (if negb (f x) && g x then S c else c),
      (if negb (f x) && negb (g x) then S d else d). cbn [length filter].
    pose proof (H5 true) as T1. pose proof (H5 false) as T2. pose proof (H6 true) as T3. pose proof (H6 false) as T4. cbn [eqb] in *.
    destruct (f x) eqn:Ef, (g x) eqn:Eg; cbn [andb negb xorb length]; (split; [lia|]); (split; [lia|]); (split; [lia|]); (split; [lia|]);
      (split; intros [|]; cbn [eqb length filter]; rewrite ?Eg; cbn [length]; lia).
Qed.
Lemma balanced_counts A (fs : list (A -> bool)) : forall X,
  (forall c, length c = length fs -> existsb (fun b => b) c = true -> balanced (combine_by c fs) X) ->
  forall ys, length ys = length fs -> count (agrees ys fs) X * 2 ^ length fs = length X.
Proof.
  induction fs as [|f fs IH]; intros X H [|y ys] L; try easy.
  - change (count (fun _ : A => true) X * 1 = length X). unfold count. assert (E : filter (fun _ : A => true) X = X) by (clear; induction X; cbn; congruence). rewrite E. lia.
  - assert (Hf : balanced f X).
    { assert (B := H (true :: repeat false (length fs))). cbn [length] in B. rewrite repeat_length in B. specialize (B eq_refl eq_refl). unfold balanced in *.
      rewrite <- B. f_equal. apply count_ext. intros x _. cbn [combine_by]. rewrite andb_true_l.
      assert (Z : forall gs : list (A -> bool), combine_by (repeat false (length gs)) gs x = false) by (induction gs as [|g gs IHg]; cbn; [easy|]; now rewrite IHg).
      rewrite Z. now rewrite xorb_false_r. }
    injection L as L. cbn [agrees length].
    assert (E : count (agrees (y :: ys) (f :: fs)) X = count (agrees ys fs) (filter (fun x => eqb (f x) y) X)).
    { unfold count. cbn [agrees]. clear. induction X as [|x X IH]; cbn [filter]; [easy|]. destruct (eqb (f x) y); cbn [andb filter]; [|exact IH].
      destruct (agrees ys fs x); cbn [length]; now rewrite IH. }
    cbn [agrees] in E. rewrite E. assert (S1 : 2 * length (filter (fun x => eqb (f x) y) X) = length X).
    { destruct (count_four f f X) as (a & b & c & d & H1 & H2 & _ & _ & H5 & _). unfold balanced in Hf. rewrite H5. destruct y; lia. }
    cbn [Nat.pow]. rewrite <- S1. rewrite <- (IH (filter (fun x => eqb (f x) y) X)) with (ys := ys); [lia| |exact L].
    intros c Lc Hc. set (g := combine_by c fs).
    assert (Bg : balanced g X) by (assert (B := H (false :: c) (f_equal S Lc) Hc); unfold balanced in *; rewrite <- B; f_equal; apply count_ext; intros x _; cbn [combine_by]; now rewrite andb_false_l, xorb_false_l).
    assert (Bfg : balanced (fun x => xorb (f x) (g x)) X).
    { assert (B := H (true :: c) (f_equal S Lc) eq_refl). exact B. }
    destruct (count_four f g X) as (a & b & c' & d & H1 & H2 & H3 & H4 & H5 & H6). unfold balanced in *. rewrite H5, H6. destruct y; lia.
Qed.

(** All lists of [m] bits; sums of bits. *)
Fixpoint bit_lists (m : nat) : list (list bool) :=
  match m with 0 => [[]] | S m' => map (cons false) (bit_lists m') ++ map (cons true) (bit_lists m') end.
Lemma bit_lists_length m : length (bit_lists m) = 2 ^ m.
Proof. induction m as [|m IH]; cbn; [easy|]. rewrite app_length, !map_length, IH. lia. Qed.
Lemma bit_lists_in m x : In x (bit_lists m) <-> length x = m.
Proof.
  revert x. induction m as [|m IH]; intro x; cbn.
  - split; [intros [<-|[]]; reflexivity|]. destruct x; [now left|easy].
  - rewrite in_app_iff, !in_map_iff. split.
    + intros [(y & <- & H)|(y & <- & H)]; cbn; f_equal; now apply IH.
    + destruct x as [|[|] x]; cbn; [easy| |]; intros [= H]; [right|left]; exists x; split; auto; now apply IH.
Qed.
Fixpoint lin (s : nat -> bool) (t : nat) (x : list bool) : bool :=
  match x with [] => false | b :: x' => xorb (b && s t) (lin s (S t) x') end.
Lemma count_app A (f : A -> bool) X Y : count f (X ++ Y) = count f X + count f Y.
Proof. unfold count. now rewrite filter_app, app_length. Qed.
Lemma count_map A B (f : B -> bool) (h : A -> B) X : count f (map h X) = count (fun x => f (h x)) X.
Proof. unfold count. induction X as [|x X IH]; cbn; [easy|]. destruct (f (h x)); cbn; congruence. Qed.
Lemma count_neg A (f : A -> bool) X : count f X + count (fun x => negb (f x)) X = length X.
Proof. unfold count. induction X as [|x X IH]; cbn; [easy|]. destruct (f x); cbn; lia. Qed.
Lemma lin_balanced s m : forall t, (exists i, i < m /\ s (t + i) = true) -> balanced (lin s t) (bit_lists m).
Proof.
  unfold balanced. induction m as [|m IH]; intros t (i & Hi & H); [lia|]. rewrite bit_lists_length. cbn [bit_lists Nat.pow]. rewrite count_app, !count_map. cbn [lin].
  rewrite (@count_ext _ (fun x => xorb (false && s t) (lin s (S t) x)) (lin s (S t))) by (intros; now rewrite andb_false_l, xorb_false_l).
  destruct (s t) eqn:E.
  - rewrite (@count_ext _ (fun x => xorb (true && true) (lin s (S t) x)) (fun x => negb (lin s (S t) x))) by (intros; reflexivity).
    rewrite count_neg, bit_lists_length. lia.
  - rewrite (@count_ext _ (fun x => xorb (true && false) (lin s (S t) x)) (lin s (S t))) by (intros; cbn [andb]; now rewrite xorb_false_l).
    destruct i as [|i]; [rewrite Nat.add_0_r in H; congruence|].
    assert (B : 2 * count (lin s (S t)) (bit_lists m) = 2 ^ m) by (rewrite <- (bit_lists_length m); apply IH; exists i; split; [lia|]; now rewrite plus_Sn_m, plus_n_Sm).
    lia.
Qed.
Lemma lin_plus s s' x : forall t, lin (plus s s') t x = xorb (lin s t x) (lin s' t x).
Proof. induction x as [|b x IH]; intro t; cbn [lin]; [easy|]. rewrite IH. unfold plus. destruct b, (s t), (s' t), (lin s (S t) x), (lin s' (S t) x); reflexivity. Qed.
Lemma lin_null s x : null s -> forall t, lin s t x = false.
Proof. intro H. induction x as [|b x IH]; intro t; cbn; [easy|]. rewrite H, IH. now destruct b. Qed.
(** Independent rows: every choice of values is taken equally often. *)
Fixpoint rows_sum (c : list bool) (rows : list (nat -> bool)) : nat -> bool :=
  match c, rows with b :: c', r :: rows' => plus (fun t => b && r t) (rows_sum c' rows') | _, _ => fun _ => false end.
Lemma lin_scale b s x : forall t, lin (fun t => b && s t) t x = b && lin s t x.
Proof. induction x as [|a x IH]; intro t; cbn [lin]; [now destruct b|]. rewrite IH. destruct a, b, (s t), (lin s (S t) x); reflexivity. Qed.
Lemma rows_sum_lin c : forall rows x t, combine_by c (map (fun r => lin r t) rows) x = lin (rows_sum c rows) t x.
Proof.
  induction c as [|b c IH]; intros [|r rows] x t; cbn [combine_by map rows_sum]; try (symmetry; apply lin_null; now intro).
  rewrite IH, lin_plus, lin_scale. reflexivity.
Qed.
Lemma rows_count rows m : (forall c, length c = length rows -> existsb (fun b => b) c = true -> exists t, t < m /\ rows_sum c rows t = true) ->
  forall ys, length ys = length rows -> count (agrees ys (map (fun r => lin r 0) rows)) (bit_lists m) * 2 ^ length rows = 2 ^ m.
Proof.
  intros H ys L. rewrite <- (bit_lists_length m). rewrite <- (map_length (fun r => lin r 0) rows). apply balanced_counts; [|now rewrite map_length].
  intros c Lc Hc. rewrite map_length in Lc. unfold balanced. rewrite (@count_ext _ _ (lin (rows_sum c rows) 0)) by (intros x _; apply rows_sum_lin).
  apply lin_balanced. exact (H c Lc Hc).
Qed.
