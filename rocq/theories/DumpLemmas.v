(** C37. *)
From Coq Require Import String List Arith Bool Lia.
From Verif Require Import Base BaseLemmas Dump DumpSpec.
Import ListNotations.
Open Scope list_scope.
Set Implicit Arguments.

Lemma set_nth_len {A} n (x : A) l : length (set_nth n x l) = length l.
Proof. revert n. induction l as [|a l IH]; intros [|n]; cbn; auto. Qed.
Lemma set_nth_same {A} n (x : A) l : n < length l -> nth_error (set_nth n x l) n = Some x.
Proof. revert n. induction l as [|a l IH]; intros [|n] H; cbn in *; try lia; auto. apply IH. lia. Qed.
Lemma set_nth_other {A} n m (x : A) l : n <> m -> nth_error (set_nth n x l) m = nth_error l m.
Proof. revert n m. induction l as [|a l IH]; intros [|n] [|m] H; cbn; auto; lia. Qed.
Lemma set_nth_firstn {A} n k (x : A) l : k <= n -> firstn k (set_nth n x l) = firstn k l.
Proof. revert n k. induction l as [|a l IH]; intros [|n] [|k] H; cbn; try lia; auto. f_equal. apply IH. lia. Qed.

Lemma nth_firstn' {A} (l : list A) : forall k n, n < k -> nth_error (firstn k l) n = nth_error l n.
Proof. induction l as [|c l IH]; intros [|k] [|n] Hn; cbn; auto; try lia. apply IH. lia. Qed.
Lemma lookup_in n m (l : memo) : lookup n l = Some m -> In (n, m) l.
Proof.
  induction l as [|[a b] l IH]; cbn; [discriminate|]. destruct (Nat.eqb_spec n a); [|auto].
  intros H. injection H as <-. subst. now left.
Qed.
Lemma lookup_none n (l : memo) : lookup n l = None -> ~ In n (map fst l).
Proof.
  induction l as [|[a b] l IH]; cbn; [auto|]. destruct (Nat.eqb_spec n a); [discriminate|].
  intros H [K|K]; [congruence|]. now apply IH.
Qed.

Definition mrel (mm : memo) (n m : nat) : Prop := In (n, m) mm.
Definition image (mm : memo) (c c' : cell) : Prop :=
  match c, c' with
  | CDict l, CDict l' => Forall2 (fun a b => fst a = fst b /\ related (mrel mm) (snd a) (snd b)) l l'
  | CSeq l, CSeq l' => Forall2 (related (mrel mm)) l l'
  | _, _ => False
  end.
Lemma related_mono (p q : nat -> nat -> Prop) a b : (forall n m, p n m -> q n m) -> related p a b -> related q a b.
Proof. intros H. destruct a, b; cbn; auto. Qed.
Lemma Forall2_mono {A B} (R S : A -> B -> Prop) l l' : (forall a b, R a b -> S a b) -> Forall2 R l l' -> Forall2 S l l'.
Proof. induction 2; constructor; auto. Qed.
Lemma image_mono m1 m2 c c' : incl m1 m2 -> image m1 c c' -> image m2 c c'.
Proof.
  intros H. destruct c, c'; cbn; auto; intros K; (eapply Forall2_mono; [|exact K]).
  - intros a b [E1 E2]. split; [easy|]. eapply related_mono; [|exact E2]. intros n m. apply H.
  - intros a b E2. eapply related_mono; [|exact E2]. intros n m. apply H.
Qed.

Section Copy.
  Variable h0 : heap.
  Hypothesis wf : wf_heap h0.

  (** [opn]: new objects whose items are still being copied. *)
  Record inv (s : heap * memo) (opn : list nat) : Prop := {
    i_old : firstn (length h0) (fst s) = h0;
    i_len : length h0 <= length (fst s);
    i_keys : NoDup (map fst (snd s));
    i_vals : NoDup (map snd (snd s));
    i_range : forall n m, In (n, m) (snd s) -> n < length h0 /\ length h0 <= m < length (fst s);
    i_opn : forall m, In m opn -> m < length (fst s);
    i_done : forall n m, In (n, m) (snd s) -> ~ In m opn ->
      exists c c', nth_error h0 n = Some c /\ nth_error (fst s) m = Some c' /\ image (snd s) c c' }.

  Definition good_copy (opn : list nat) (s s' : heap * memo) : Prop :=
    inv s' opn /\ incl (snd s) (snd s') /\ length (snd s) <= length (snd s') /\ length (fst s) <= length (fst s').

  Lemma keys_bound s opn : inv s opn -> length (snd s) <= length h0.
  Proof.
    intros I. rewrite <- (map_length fst), <- (seq_length (length h0) 0). apply NoDup_incl_length; [apply (i_keys I)|].
    intros n Hn. apply in_map_iff in Hn. destruct Hn as ([a b] & <- & Hin). apply in_seq. apply (i_range I) in Hin. cbn. lia.
  Qed.
  Lemma old_cell s opn n : inv s opn -> n < length h0 -> nth_error (fst s) n = nth_error h0 n.
  Proof.
    intros I Hn. transitivity (nth_error (firstn (length h0) (fst s)) n); [symmetry; now apply nth_firstn'|now rewrite (i_old I)].
  Qed.

  Definition spec (fuel : nat) : Prop := forall s v opn, inv s opn -> wf_ref (length h0) v -> length h0 - length (snd s) <= fuel ->
    exists s' v', deepcopy fuel s v = Ok (s', v') /\ good_copy opn s s' /\ related (mrel (snd s')) v v'.
  Lemma copy_all_ok fuel : spec fuel -> forall l s opn, inv s opn -> (forall v, In v l -> wf_ref (length h0) v) ->
    length h0 - length (snd s) <= fuel ->
    exists s' l', copy_all (deepcopy fuel) s l = Ok (s', l') /\ good_copy opn s s' /\ Forall2 (related (mrel (snd s'))) l l'.
  Proof.
    intros Hf. induction l as [|v l IH]; intros s opn I Hw Hm.
    - exists s, []. split; [easy|]. split; [|constructor]. split; [exact I|]. split; [apply incl_refl|lia].
    - destruct (Hf s v opn I) as (s1 & v' & E1 & (I1 & G1 & G2 & G3) & R1); [apply Hw; now left|exact Hm|].
      destruct (IH s1 opn I1) as (s2 & l' & E2 & (I2 & G4 & G5 & G6) & R2); [intros w Hin; apply Hw; now right|lia|].
      exists s2, (v' :: l'). cbn [copy_all]. rewrite E1. cbn [bind fst snd]. rewrite E2. cbn [bind fst snd]. split; [easy|].
      split; [|constructor; [eapply related_mono; [|exact R1]; intros n m; apply G4|exact R2]].
      split; [exact I2|]. split; [eapply incl_tran; eauto|lia].
  Qed.

  Lemma inv_new s opn n c : inv s opn -> n < length h0 -> ~ In n (map fst (snd s)) ->
    inv (fst s ++ [c], (n, length (fst s)) :: snd s) (length (fst s) :: opn).
  Proof.
    intros I Hn Hfresh. pose proof (i_len I) as Hl. constructor; cbn [fst snd map].
    - rewrite firstn_app. replace (length h0 - length (fst s)) with 0 by lia. rewrite firstn_O, app_nil_r. apply (i_old I).
    - rewrite app_length. lia.
    - constructor; [exact Hfresh|apply (i_keys I)].
    - constructor; [|apply (i_vals I)]. intros H. apply in_map_iff in H. destruct H as ([a b] & E & Hin). cbn in E. subst.
      apply (i_range I) in Hin. lia.
    - intros a b [E|Hin]; rewrite app_length; cbn.
      + injection E as <- <-. lia.
      + apply (i_range I) in Hin. lia.
    - intros m [<-|Hin]; rewrite app_length; cbn; [lia|]. apply (i_opn I) in Hin. lia.
    - intros a b [E|Hin] Ho.
      + injection E as <- <-. exfalso. apply Ho. now left.
      + destruct (i_done I _ _ Hin) as (c1 & c2 & E1 & E2 & E3); [intros K; apply Ho; now right|].
        exists c1, c2. split; [exact E1|]. split.
        * rewrite nth_error_app1; [exact E2|]. apply (i_range I) in Hin. lia.
        * eapply image_mono; [|exact E3]. intros x Hx. now right.
  Qed.
  Lemma inv_close s opn n m c c' : inv s (m :: opn) -> ~ In m opn -> In (n, m) (snd s) -> nth_error h0 n = Some c -> image (snd s) c c' ->
    inv (set_nth m c' (fst s), snd s) opn.
  Proof.
    intros I Hm Hin Hc Hi. pose proof (i_range I _ _ Hin) as Hr. constructor; cbn [fst snd].
    - rewrite set_nth_firstn by lia. apply (i_old I).
    - rewrite set_nth_len. apply (i_len I).
    - apply (i_keys I).
    - apply (i_vals I).
    - intros a b K. rewrite set_nth_len. now apply (i_range I).
    - intros k Hk. rewrite set_nth_len. apply (i_opn I). now right.
    - intros a b K Ho. destruct (Nat.eq_dec m b) as [->|Hne].
      + assert (a = n).
        { pose proof (i_vals I) as Nd. clear -Nd Hin K. induction (snd s) as [|[x y] l IH]; [easy|]. cbn in Nd. inversion Nd; subst.
          destruct Hin as [E|Hin], K as [E'|K].
          - congruence.
          - injection E as -> ->. exfalso. apply H1. apply in_map_iff. now exists (a, b).
          - injection E' as -> ->. exfalso. apply H1. apply in_map_iff. now exists (n, b).
          - auto. }
        subst a. exists c, c'. split; [exact Hc|]. split; [apply set_nth_same; lia|exact Hi].
      + rewrite set_nth_other by exact Hne. destruct (i_done I _ _ K) as (c1 & c2 & E1 & E2 & E3); [|now exists c1, c2].
        intros [E|E]; congruence.
  Qed.
  Lemma deepcopy_spec fuel : spec fuel.
  Proof.
    induction fuel as [|fuel IH]; intros s v opn I Hw Hm.
    - destruct v as [a|n]; cbn [deepcopy].
      + exists s, (RAtom a). split; [easy|]. split; [|easy]. split; [exact I|]. split; [apply incl_refl|lia].
      + destruct (lookup n (snd s)) as [m|] eqn:E.
        * exists s, (RObj m). split; [easy|]. split; [|now apply lookup_in]. split; [exact I|]. split; [apply incl_refl|lia].
        * exfalso. apply lookup_none in E. cbn in Hw. pose proof (inv_new (CSeq []) I Hw E) as I'. apply keys_bound in I'. cbn in I'. lia.
    - destruct v as [a|n]; cbn [deepcopy].
      + exists s, (RAtom a). split; [easy|]. split; [|easy]. split; [exact I|]. split; [apply incl_refl|lia].
      + destruct (lookup n (snd s)) as [m|] eqn:E.
        * exists s, (RObj m). split; [easy|]. split; [|now apply lookup_in]. split; [exact I|]. split; [apply incl_refl|lia].
        * apply lookup_none in E. cbn in Hw. rewrite (old_cell I Hw).
          assert (Hfresh : ~ In (length (fst s)) opn) by (intros K; apply (i_opn I) in K; lia).
          destruct (nth_error h0 n) as [c|] eqn:Ec; [|apply nth_error_None in Ec; lia].
          assert (Hwc : forall w, In w (refs_of c) -> wf_ref (length h0) w) by (intros w; apply wf; eapply nth_error_In; eauto).
          destruct c as [l|l].
          -- destruct (copy_all_ok IH (map snd l) (inv_new (CDict []) I Hw E)) as ([h' mm'] & l' & E1 & (I1 & G1 & G2 & G3) & R1);
               [exact Hwc|cbn; lia|]. cbn [fst snd] in *. rewrite E1. cbn [bind fst snd].
             assert (Him : image mm' (CDict l) (CDict (combine (map fst l) l'))).
             { clear -R1. cbn. revert l' R1. induction l as [|[k v] l IH]; intros l' R1; inversion R1; subst; cbn; constructor; auto. }
             assert (Hin : In (n, length (fst s)) mm') by (apply G1; now left).
             eexists (_, _), _. split; [reflexivity|]. split; [|exact Hin].
             split; [exact (inv_close n _ I1 Hfresh Hin Ec Him)|]. cbn [fst snd length] in *. rewrite set_nth_len. rewrite app_length in G3.
             split; [intros x Hx; apply G1; now right|lia].
          -- destruct (copy_all_ok IH l (inv_new (CSeq []) I Hw E)) as ([h' mm'] & l' & E1 & (I1 & G1 & G2 & G3) & R1);
               [exact Hwc|cbn; lia|]. cbn [fst snd] in *. rewrite E1. cbn [bind fst snd].
             assert (Hin : In (n, length (fst s)) mm') by (apply G1; now left).
             eexists (_, _), _. split; [reflexivity|]. split; [|exact Hin].
             split; [exact (inv_close n _ I1 Hfresh Hin Ec (R1 : image mm' (CSeq l) (CSeq l')))|].
             cbn [fst snd length] in *. rewrite set_nth_len. rewrite app_length in G3.
             split; [intros x Hx; apply G1; now right|lia].
  Qed.
  Lemma inv_start : inv (h0, []) [].
  Proof. constructor; cbn; try constructor; try easy. apply firstn_all. Qed.
End Copy.

Lemma assoc_image mm l l' k v : Forall2 (fun a b => fst a = fst b /\ related (mrel mm) (snd a) (snd b)) l l' ->
  assoc k l = Some v -> exists v', assoc k l' = Some v' /\ related (mrel mm) v v'.
Proof.
  induction 1 as [|[a x] [b y] l l' [E R] _ IH]; cbn; [discriminate|]. cbn in E, R. subst b. destruct (String.eqb k a); [|exact IH].
  intros H. injection H as <-. eauto.
Qed.
Lemma filter_image mm k l l' : Forall2 (fun a b => fst a = fst b /\ related (mrel mm) (snd a) (snd b)) l l' ->
  Forall2 (fun a b => fst a = fst b /\ related (mrel mm) (snd a) (snd b)) (remove_key k l) (remove_key k l').
Proof.
  induction 1 as [|[a x] [b y] l l' [E R] _ IH]; cbn; [constructor|]. cbn in E, R. subst b. destruct (String.eqb k a); cbn; [exact IH|].
  constructor; auto.
Qed.
Lemma filter_all {A} (f : A -> bool) l : (forall x, In x l -> f x = true) -> filter f l = l.
Proof. induction l as [|a l IH]; intros H; cbn; [easy|]. rewrite H by (now left). f_equal. apply IH. intros x Hx. apply H. now right. Qed.

Section Dump.
  Variables (h : heap) (r specs : ref) (args : nat).
  Hypothesis wf : wf_heap h.
  Hypothesis wf_r : wf_ref (length h) r.
  Hypothesis Hspecs : get_attr h r "specs" = Ok specs.
  Hypothesis Hargs : get_item h specs "args" = Ok (RObj args).

  Lemma c37_copy : has_key h (RObj args) "func" = Ok true ->
    exists h' r', dump h r false = Ok (h', (h', r')) /\ firstn (length h) h' = h /\
      copy_without "func" args (length h) h r h' r'.
  Proof.
    intros Hf. unfold dump. rewrite Hspecs. cbn [bind]. rewrite Hargs. cbn [bind]. rewrite Hf. cbn [bind].
    destruct (deepcopy_spec wf (fuel := length h) r (inv_start h)) as ([h1 mm] & r1 & E1 & (I1 & _ & _ & _) & R1); [exact wf_r|cbn; lia|].
    rewrite E1. cbn [bind fst snd] in *.
    assert (Hstep : forall n m, In (n, m) mm -> exists c c', nth_error h n = Some c /\ nth_error h1 m = Some c' /\ image mm c c').
    { intros n m Hin. apply (i_done I1 _ _ Hin). easy. }
    (* specs of the copy *)
    destruct r as [a|rn]; [discriminate|]. destruct r1 as [a|rm]; [easy|]. cbn in R1.
    destruct (Hstep _ _ R1) as (c & c' & Ec & Ec' & Him). cbn [get_attr] in Hspecs. rewrite Ec in Hspecs.
    destruct c as [l|l]; [|discriminate]. destruct c' as [l'|l']; [|easy]. cbn in Him.
    destruct (assoc "specs" l) as [sp|] eqn:Es; [|discriminate]. injection Hspecs as ->.
    destruct (assoc_image _ _ Him Es) as (sp' & Es' & Rs). cbn [get_attr]. rewrite Ec', Es'. cbn [bind].
    destruct specs as [a|sn]; [discriminate|]. destruct sp' as [a|sm]; [easy|]. cbn in Rs.
    destruct (Hstep _ _ Rs) as (d & d' & Ed & Ed' & Hid). cbn [get_item] in Hargs. rewrite Ed in Hargs.
    destruct d as [k|k]; [|discriminate]. destruct d' as [k'|k']; [|easy]. cbn in Hid.
    destruct (assoc "args" k) as [ar|] eqn:Ea; [|discriminate]. injection Hargs as ->.
    destruct (assoc_image _ _ Hid Ea) as (ar' & Ea' & Ra). cbn [get_item]. rewrite Ed', Ea'. cbn [bind].
    destruct ar' as [a|am]; [easy|]. cbn in Ra.
    destruct (Hstep _ _ Ra) as (e & e' & Ee & Ee' & Hie). cbn [has_key] in Hf. rewrite Ee in Hf.
    destruct e as [q|q]; [|discriminate]. destruct e' as [q'|q']; [|easy]. cbn in Hie.
    destruct (assoc "func" q) as [fu|] eqn:Ef; [|discriminate].
    destruct (assoc_image _ _ Hie Ef) as (fu' & Ef' & Rf). cbn [del_item]. rewrite Ee', Ef'. cbn [bind].
    pose proof (i_range I1) as Hr. cbn [fst snd] in Hr.
    eexists _, _. split; [reflexivity|]. split.
    { rewrite set_nth_firstn; [apply (i_old I1)|]. now apply Hr in Ra. }
    exists (mrel mm).
    assert (Inj : forall n n' m, mrel mm n m -> mrel mm n' m -> n = n').
    { pose proof (i_vals I1) as Nd. cbn in Nd. unfold mrel. clear -Nd. induction mm as [|[x y] l IH]; intros n n' m H H'; [easy|]. cbn in Nd. inversion Nd; subst.
      destruct H as [E|H], H' as [E'|H'].
      - congruence.
      - injection E as -> ->. exfalso. apply H2. apply in_map_iff. now exists (n', m).
      - injection E' as -> ->. exfalso. apply H2. apply in_map_iff. now exists (n, m).
      - eauto. }
    split.
    { pose proof (i_keys I1) as Nd. cbn in Nd. unfold mrel. clear -Nd. induction mm as [|[x y] l IH]; intros n m m' H H'; [easy|]. cbn in Nd. inversion Nd; subst.
      destruct H as [E|H], H' as [E'|H'].
      - congruence.
      - injection E as -> ->. exfalso. apply H2. apply in_map_iff. now exists (n, m').
      - injection E' as -> ->. exfalso. apply H2. apply in_map_iff. now exists (n, m).
      - eauto. }
    split; [exact Inj|]. split; [intros n m H; apply Hr in H; lia|]. split; [exact R1|].
    intros n m Hnm. destruct (Nat.eq_dec m am) as [->|Hne].
    - assert (n = args) by (eapply Inj; eauto). subst n. rewrite Ee, set_nth_same by (apply Hr in Ra; lia). rewrite Nat.eqb_refl. cbn [andb].
      apply filter_image. exact Hie.
    - rewrite set_nth_other by congruence. destruct (Hstep _ _ Hnm) as (x & x' & Ex & Ex' & Hix). rewrite Ex, Ex'.
      destruct x as [w|w], x' as [w'|w']; cbn in Hix; try easy.
      assert (Hna : n <> args).
      { intros ->. apply Hne. pose proof (i_keys I1) as Nd. cbn in Nd. clear -Nd Ra Hnm. unfold mrel in Hnm. induction mm as [|[a b] l IH]; [easy|]. cbn in Nd. inversion Nd; subst.
        destruct Hnm as [E|H], Ra as [E'|H'].
        - congruence.
        - injection E as -> ->. exfalso. apply H1. apply in_map_iff. now exists (args, am).
        - injection E' as -> ->. exfalso. apply H1. apply in_map_iff. now exists (args, m).
        - eauto. }
      rewrite filter_all; [exact Hix|]. intros p _. apply Nat.eqb_neq in Hna. now rewrite Hna.
  Qed.
  Lemma c37_absent : has_key h (RObj args) "func" = Ok false -> dump h r false = Ok (h, (h, r)).
  Proof. intros Hf. unfold dump. rewrite Hspecs. cbn [bind]. rewrite Hargs. cbn [bind]. now rewrite Hf. Qed.
End Dump.
