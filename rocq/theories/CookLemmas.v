(** Lemmas about surrogates and generators asked for by name: letters, parameters, the heap (C84, C85, C86). *)
From Coq Require Import String List ZArith Bool Ascii Reals Lra Lia.
From Coquelicot Require Import Coquelicot.
From Verif Require Import Base BaseLemmas Num NumLaws Values Transformers Dimension Space CheckDim Switch SwitchSpec SwitchProps
  Optimizer Kernels Gpr GprSpec KernelPsdSpec NamedLemmas Cook CookSpec.
Import ListNotations.
Open Scope list_scope.
Set Implicit Arguments.

(** *** Letters *)
Lemma of_nat_inj n m : (n < 256)%nat -> (m < 256)%nat -> (ascii_of_nat n = ascii_of_nat m <-> n = m).
Proof. intros Hn Hm. split; [|congruence]. intro H. apply (f_equal nat_of_ascii) in H. now rewrite !nat_ascii_embedding in H. Qed.
Lemma same_letter_nat n m : (n < 256)%nat -> (m < 256)%nat ->
  (same_letter (ascii_of_nat n) (ascii_of_nat m) <-> n = m \/ (n + 32 = m /\ 65 <= n <= 90)%nat \/ (m + 32 = n /\ 65 <= m <= 90)%nat).
Proof.
  intros Hn Hm. unfold same_letter. rewrite (@of_nat_inj n m Hn Hm). split.
  - intros [H|(k & K & [(A & B)|(A & B)])]; [now left| |]; rewrite of_nat_inj in A, B by lia; subst; lia.
  - intros [H|[(A & B)|(A & B)]]; [now left| |].
    + right. exists (n - 65)%nat. split; [lia|]. left. rewrite !of_nat_inj by lia. lia.
    + right. exists (m - 65)%nat. split; [lia|]. right. rewrite !of_nat_inj by lia. lia.
Qed.
Lemma up_iff c d : up c = up d <-> same_letter c d.
Proof.
  rewrite <- (ascii_nat_embedding c), <- (ascii_nat_embedding d). pose proof (nat_ascii_bounded c) as Hc. pose proof (nat_ascii_bounded d) as Hd.
  revert Hc Hd. generalize (nat_of_ascii c) as n, (nat_of_ascii d) as m. intros n m Hn Hm. rewrite (@same_letter_nat n m Hn Hm). unfold up. rewrite !nat_ascii_embedding by assumption.
  destruct (Nat.leb_spec 97 n), (Nat.leb_spec n 122), (Nat.leb_spec 97 m), (Nat.leb_spec m 122); cbn [andb]; rewrite of_nat_inj by lia; lia.
Qed.
Lemma low_iff c d : low c = low d <-> same_letter c d.
Proof.
  rewrite <- (ascii_nat_embedding c), <- (ascii_nat_embedding d). pose proof (nat_ascii_bounded c) as Hc. pose proof (nat_ascii_bounded d) as Hd.
  revert Hc Hd. generalize (nat_of_ascii c) as n, (nat_of_ascii d) as m. intros n m Hn Hm. rewrite (@same_letter_nat n m Hn Hm). unfold low. rewrite !nat_ascii_embedding by assumption.
  destruct (Nat.leb_spec 65 n), (Nat.leb_spec n 90), (Nat.leb_spec 65 m), (Nat.leb_spec m 90); cbn [andb]; rewrite of_nat_inj by lia; lia.
Qed.
Lemma smap_iff f : (forall c d, f c = f d <-> same_letter c d) -> forall s w, smap f s = smap f w <-> spelled s w.
Proof.
  intros H. unfold spelled. induction s as [|c s IH]; intros [|d w]; cbn; split; intro E; try easy; try (now inversion E).
  - injection E as E1 E2. constructor; [now apply H|now apply IH].
  - inversion E as [|? ? ? ? E1 E2]; subst. f_equal; [now apply H|now apply IH].
Qed.
Lemma upper_iff s w : upper w = w -> (upper s = w <-> spelled s w).
Proof. intro H. rewrite <- H at 1. apply smap_iff, up_iff. Qed.
Lemma lower_iff s w : lower w = w -> (lower s = w <-> spelled s w).
Proof. intro H. rewrite <- H at 1. apply smap_iff, low_iff. Qed.

(** *** Parameters *)
Lemma set_params_class : forall kw e e', set_params e kw = Ok e' -> e_class e' = e_class e.
Proof.
  induction kw as [|[k v] kw IH]; cbn [map fst set_params dict_get In]; intros e e' H; [now injection H as ->|]. destruct (param e k); [|easy]. now apply IH in H.
Qed.
Lemma param_set c ps k v s : param (Est c (dict_set String.eqb ps k v)) s = if String.eqb k s then Some v else param (Est c ps) s.
Proof.
  unfold param. cbn. destruct (String.eqb_spec k s) as [->|n]; [apply get_set_same|apply get_set_other; congruence].
Qed.
Lemma set_params_get : forall kw e e' s, NoDup (map fst kw) -> set_params e kw = Ok e' ->
  param e' s = match dict_get String.eqb kw s with Some v => Some v | None => param e s end.
Proof.
  induction kw as [|[k v] kw IH]; cbn [map fst set_params dict_get In]; intros e e' s D H; [now injection H as ->|]. inversion D as [|? ? I D']; subst.
  destruct (param e k); [|easy]. rewrite (IH _ _ s D' H). destruct e as [c ps]. cbn [e_class e_params]. rewrite param_set.
  destruct (String.eqb_spec k s) as [->|n]; [|reflexivity].
  destruct (dict_get String.eqb kw s) as [w|] eqn:G; [|reflexivity]. apply dict_get_in in G as (k' & I' & Q). apply String.eqb_eq in Q. subst k'.
  exfalso. apply I. change s with (fst (s, w)). now apply in_map.
Qed.
Lemma set_params_total : forall kw e, (forall k, In k (map fst kw) -> param e k <> None) -> exists e', set_params e kw = Ok e'.
Proof.
  induction kw as [|[k v] kw IH]; cbn [map fst set_params dict_get In]; intros e H; [now exists e|]. destruct (param e k) eqn:E; [|exfalso; now apply (H k); [left|]].
  apply IH. intros s I. destruct e as [c ps]. cbn [e_class e_params]. rewrite param_set. destruct (String.eqb k s); [easy|]. apply H. now right.
Qed.
Lemma set_params_refused : forall kw e k, In k (map fst kw) -> param e k = None -> set_params e kw = Raise ValueError.
Proof.
  induction kw as [|[k v] kw IH]; cbn [map fst set_params dict_get In]; intros e s I H; [easy|]. destruct (String.eqb_spec k s) as [->|n]; [now rewrite H|].
  destruct (param e k); [|reflexivity]. apply IH with s; [now destruct I as [->|]|]. destruct e as [c ps]. cbn [e_class e_params]. rewrite param_set.
  now rewrite (proj2 (String.eqb_neq k s) n).
Qed.
Lemma dict_get_nodup (A : Type) (kw : list (string * A)) k v : NoDup (map fst kw) -> In (k, v) kw -> dict_get String.eqb kw k = Some v.
Proof.
  induction kw as [|[k' v'] kw IH]; cbn; intros D I; [easy|]. inversion D as [|? ? N D']; subst.
  destruct I as [E|I]; [injection E as -> ->; now rewrite String.eqb_refl|].
  destruct (String.eqb_spec k' k) as [->|n]; [|now apply IH]. exfalso. apply N. change k with (fst (k, v)). now apply in_map.
Qed.
Lemma dict_get_none (A : Type) (kw : list (string * A)) k : ~ In k (map fst kw) -> dict_get String.eqb kw k = None.
Proof.
  induction kw as [|[k' v'] kw IH]; cbn; intros H; [reflexivity|]. destruct (String.eqb_spec k' k) as [->|n]; [tauto|]. apply IH. tauto.
Qed.
Lemma filter_fst (A : Type) p (kw : list (string * A)) : map fst (filter (fun kv => p (fst kv)) kw) = filter p (map fst kw).
Proof. induction kw as [|[k v] kw IH]; cbn; [reflexivity|]. destruct (p k); cbn; now rewrite IH. Qed.

(** An estimator with the parameters of a name *)
Definition fits (n : surrogate_name) (e : est) : Prop :=
  e_class e = class_for n /\ (forall k, In k (known n) <-> param e k <> None) /\
  (forall k v, In (k, v) (promised n) -> param e k = Some v) /\ (param e "n_jobs" = None <-> n = NGP).
Lemma keys_iff (A : Type) (ps : list (string * A)) k : In k (map fst ps) <-> dict_get String.eqb ps k <> None.
Proof.
  induction ps as [|[k' v'] ps IH]; cbn; [easy|]. destruct (String.eqb_spec k' k) as [->|n].
  - split; [easy|now left].
  - rewrite <- IH. split; [now intros [|]|now right].
Qed.
Ltac fit := split; [reflexivity|split; [intro; unfold param; rewrite <- keys_iff; cbn; tauto|split; [let a := fresh in let b := fresh in let I := fresh in intros a b I; cbn in I; decompose [or] I; try easy;
   match goal with H : _ = (_, _) |- _ => injection H as <- <-; reflexivity end|cbn; split; easy]]].
Lemma fits_gp k : fits NGP (gp_est k). Proof. fit. Qed.
Lemma fits_rf : fits NRF (Est CRF (forest_params true)). Proof. fit. Qed.
Lemma fits_et : fits NET (Est CET (forest_params false)). Proof. fit. Qed.
Lemma fits_gbrt : fits NGBRT gbrt_est. Proof. fit. Qed.

Definition passed (n : surrogate_name) (kw : list (string * pval)) := match n with NGP => filter (fun kv => negb (String.eqb (fst kv) "n_jobs")) kw | _ => kw end.
Lemma drop_passed n e kw : fits n e -> drop_n_jobs e kw = passed n kw.
Proof. intros (_ & _ & _ & H). unfold drop_n_jobs. destruct (param e "n_jobs") eqn:E; destruct n; cbn; try reflexivity; destruct H as [H1 H2]; try (specialize (H2 eq_refl); discriminate); specialize (H1 eq_refl); discriminate. Qed.
Lemma passed_in n kw k v : In (k, v) (passed n kw) <-> In (k, v) kw /\ (n = NGP -> k <> "n_jobs"%string).
Proof.
  destruct n; cbn; try (intuition easy). rewrite filter_In. cbn. rewrite negb_true_iff, String.eqb_neq. intuition.
Qed.
Lemma passed_keys n kw k : In k (map fst (passed n kw)) <-> In k (map fst kw) /\ (n = NGP -> k <> "n_jobs"%string).
Proof.
  destruct n; cbn; try (intuition easy). rewrite (@filter_fst _ (fun s => negb (String.eqb s "n_jobs"))), filter_In, negb_true_iff, String.eqb_neq. intuition.
Qed.
Lemma passed_nodup n kw : NoDup (map fst kw) -> NoDup (map fst (passed n kw)).
Proof. destruct n; cbn; try easy. rewrite (@filter_fst _ (fun s => negb (String.eqb s "n_jobs"))). apply NoDup_filter. Qed.
Lemma no_jobs : ~ In "n_jobs"%string (known NGP).
Proof. cbn. intuition discriminate. Qed.

Lemma finish_ok n e kw e' : fits n e -> NoDup (map fst kw) -> finish_cook e kw = Ok e' -> exists x, e' = Some x /\ e_class x = class_for n /\
  (forall k v, In (k, v) kw -> In k (known n) -> param x k = Some v) /\
  (forall k v, In (k, v) (promised n) -> ~ In k (map fst kw) -> param x k = Some v) /\
  (forall k, ~ In k (map fst kw) -> param x k = param e k).
Proof.
  intros F D H. unfold finish_cook in H. rewrite (@drop_passed n e kw F) in H. destruct (set_params e (passed n kw)) as [x|] eqn:E; [|easy]. injection H as <-.
  exists x. split; [reflexivity|]. destruct F as (Fc & Fk & Fp & Fj). split; [rewrite (set_params_class _ _ E); exact Fc|].
  pose proof (set_params_get (passed n kw) e ) as G. assert (D' := passed_nodup n kw D). split; [|split].
  - intros k v I K. rewrite (G _ k D' E). rewrite (@dict_get_nodup _ (passed n kw) k v D'); [reflexivity|]. apply passed_in. split; [exact I|].
    intros -> ->. now apply no_jobs.
  - intros k v I K. rewrite (G _ k D' E). rewrite (@dict_get_none _ (passed n kw) k); [now apply Fp|]. rewrite passed_keys. tauto.
  - intros k K. rewrite (G _ k D' E). rewrite (@dict_get_none _ (passed n kw) k); [reflexivity|]. rewrite passed_keys. tauto.
Qed.
Lemma finish_total n e kw : fits n e -> (forall k, In k (map fst kw) -> In k (known n) \/ k = "n_jobs"%string) -> exists e', finish_cook e kw = Ok (Some e').
Proof.
  intros F H. unfold finish_cook. rewrite (@drop_passed n e kw F). destruct (@set_params_total (passed n kw) e) as (x & E).
  - intros k I. apply passed_keys in I as (I & J). destruct F as (_ & Fk & _ & Fj). destruct (H k I) as [K| ->]; [now apply Fk|].
    intro Q. apply Fj in Q. now apply J.
  - rewrite E. now exists x.
Qed.
Lemma finish_refused n e kw k : fits n e -> In k (map fst kw) -> ~ In k (known n) -> k <> "n_jobs"%string -> finish_cook e kw = Raise ValueError.
Proof.
  intros F I K J. unfold finish_cook. rewrite (@drop_passed n e kw F). rewrite (@set_params_refused (passed n kw) e k); [reflexivity| |].
  - apply passed_keys. split; [exact I|easy].
  - destruct F as (_ & Fk & _). destruct (param e k) eqn:E; [|reflexivity]. exfalso. apply K, Fk. congruence.
Qed.

(** *** The heap *)
Section Heap.
  Context {N : Type} (O : numops N).
  Notation obj := (dobj N).
  Implicit Types (h : heap N) (ds : list (harg N)) (o : obj).

  Lemma update_length : forall h a o, length (update h a o) = length h.
  Proof. induction h as [|x h IH]; intros [|a] o; cbn; auto. Qed.
  Lemma update_same : forall h a o, (a < length h)%nat -> nth_error (update h a o) a = Some o.
  Proof. induction h as [|x h IH]; intros [|a] o H; cbn in *; try lia; [reflexivity|]. apply IH. lia. Qed.
  Lemma update_other : forall h a b o, a <> b -> nth_error (update h a o) b = nth_error h b.
  Proof. induction h as [|x h IH]; intros [|a] [|b] o H; cbn; try easy. apply IH. congruence. Qed.

  Definition normal o : obj := fst (set_transformer "normalize" o).
  Lemma set_normal o : set_transformer "normalize" o = (normal o, Ok tt).
  Proof.
    unfold normal. destruct (@set_offered N "normalize" o) as (o' & E); [destruct (ob_dim o); cbn; auto 10|]. now rewrite E.
  Qed.
  Lemma normal_facts o : ob_label (normal o) = "normalize"%string /\ honest (normal o) /\ alike (ob_dim o) (ob_dim (normal o)).
  Proof. destruct (set_ok _ _ (set_normal o)) as (A & B & C & _). auto. Qed.
  Lemma normal_kind o : dim_kind (ob_dim (normal o)) = KNormalize.
  Proof. destruct (normal_facts o) as (L & (_ & H) & _). rewrite L in H. destruct (dim_kind (ob_dim (normal o))); easy. Qed.
  Lemma normal_twice o : normal (normal o) = normal o.
  Proof.
    destruct (normal_facts (normal o)) as (L & _ & A). destruct (normal_facts o) as (L' & _ & _).
    destruct (normal (normal o)) as [l2 d2] eqn:E2, (normal o) as [l1 d1] eqn:E1. cbn in *. subst. f_equal. symmetry. apply alike_kind; [exact A|].
    pose proof (normal_kind o) as K1. pose proof (normal_kind (normal o)) as K2. rewrite E1 in K1, K2. rewrite E2 in K2. cbn in *. congruence.
  Qed.
  Lemma normal_size o : obj_tsize (normal o) = 1%nat /\ tsize (ob_dim (normal o)) = 1%nat.
  Proof.
    destruct (normal_facts o) as (_ & H & _). destruct (honest_bounds O H) as (_ & ->). pose proof (normal_kind o) as K.
    destruct (ob_dim (normal o)) as [r|i|c]; cbn in *; try easy. now rewrite K.
  Qed.
  Lemma normal_cat o : is_cat (ob_dim (normal o)) = is_cat (ob_dim o).
  Proof. destruct (normal_facts o) as (_ & _ & A). destruct (ob_dim o), (ob_dim (normal o)); cbn in A; easy. Qed.

  (** normalize_all never fails on existing objects, and normalises these and no others. *)
  Lemma normalize_all_ok : forall l h, (forall a, In a l -> (a < length h)%nat) -> exists h',
    normalize_all h l = (h', Ok tt) /\ length h' = length h /\
    (forall a, ~ In a l -> nth_error h' a = nth_error h a) /\
    (forall a, In a l -> nth_error h' a = option_map normal (nth_error h a)).
  Proof.
    induction l as [|a l IH]; intros h H; cbn [normalize_all In]; [exists h; repeat split; easy|].
    assert (Ha : (a < length h)%nat) by (apply H; now left). unfold at_.
    destruct (nth_error h a) as [o|] eqn:E; [|apply nth_error_None in E; lia]. rewrite set_normal.
    destruct (IH (update h a (normal o))) as (h' & E' & L & F & G); [intros b B; rewrite update_length; apply H; now right|].
    exists h'. rewrite E'. split; [reflexivity|]. rewrite update_length in L. split; [exact L|]. split.
    - intros b B. rewrite F, update_other; tauto.
    - intros b B. destruct (in_dec Nat.eq_dec b l) as [I|I].
      + rewrite (G b I). destruct (Nat.eq_dec a b) as [<-|n]; [rewrite update_same by exact Ha; rewrite E; cbn; now rewrite normal_twice|now rewrite update_other].
      + destruct B as [<-|B]; [|tauto]. rewrite (F _ I), update_same by exact Ha. now rewrite E.
  Qed.
  (** ... and in any case only what is listed changes. *)
  Lemma normalize_all_frame : forall l h h' r, normalize_all h l = (h', r) -> forall a, ~ In a l -> nth_error h' a = nth_error h a.
  Proof.
    induction l as [|b l IH]; cbn [normalize_all In]; intros h h' r E a I; [now injection E as <- <-|]. destruct (at_ h b) as [o|]; [|now injection E as <- <-].
    rewrite set_normal in E. rewrite (IH _ _ _ E a) by tauto. apply update_other. tauto.
  Qed.

  Lemma check_arg_grows h d h' r : check_arg O h d = (h', r) -> exists ext, h' = h ++ ext.
  Proof.
    destruct d as [a|l|]; cbn [check_arg]; intro E; [injection E as <- <-; exists []; now rewrite app_nil_r| |injection E as <- <-; exists []; now rewrite app_nil_r].
    destruct (check_dimension O None (CSeq l)); injection E as <- <-; [now eexists|exists []; now rewrite app_nil_r].
  Qed.
  Lemma make_space_grows : forall ds h h' r, make_space O h ds = (h', r) -> exists ext, h' = h ++ ext.
  Proof.
    induction ds as [|d ds IH]; cbn [make_space In]; intros h h' r E; [injection E as <- <-; exists []; now rewrite app_nil_r|].
    destruct (check_arg O h d) as [h1 [a|e]] eqn:E1; destruct (check_arg_grows _ _ E1) as (x & ->); [|injection E as <- <-; now exists x].
    destruct (make_space O (h ++ x) ds) as [h2 r2] eqn:E2. destruct (IH _ _ _ E2) as (y & ->). exists (x ++ y).
    destruct r2; injection E as <- <-; now rewrite app_assoc.
  Qed.
  Lemma grows_untouched h ext : untouched h (h ++ ext).
  Proof. intros a o H. rewrite nth_error_app1; [exact H|]. apply nth_error_Some. congruence. Qed.
  (** Addresses in a space: given by the caller, or new *)
  Lemma make_space_addresses : forall ds h h' l, make_space O h ds = (h', Ok l) -> forall a, In a l -> (a < length h')%nat /\ (given ds a \/ (length h <= a)%nat).
  Proof.
    unfold given. induction ds as [|d ds IH]; cbn [make_space In]; intros h h' l E a I; [injection E as <- <-; easy|].
    destruct (check_arg O h d) as [h1 [b|e]] eqn:E1; [|easy]. destruct (make_space O h1 ds) as [h2 [l2|]] eqn:E2; [|easy]. injection E as <- <-.
    destruct (check_arg_grows _ _ E1) as (x & ->). destruct (make_space_grows _ _ E2) as (y & ->). destruct I as [<-|I].
    - destruct d as [c|s|]; cbn [check_arg] in E1; [| |easy].
      + destruct (Nat.ltb_spec c (length h)); [|easy]. injection E1 as E1 <-. rewrite !app_length. split; [lia|now left; left].
      + destruct (check_dimension O None (CSeq s)); [|easy]. injection E1 as E1 <-. apply app_inv_head in E1. subst x. rewrite !app_length. cbn. split; [lia|right; lia].
    - destruct (IH _ _ _ E2 _ I) as (A & B). split; [exact A|]. destruct B as [B|B]; [left; now right|right]. rewrite app_length in B. lia.
  Qed.
  (** The object an argument stands for *)
  Definition arg_obj h (d : harg N) (o : obj) : Prop :=
    match d with HObj a => nth_error h a = Some o | HSeq l => exists dm, check_dimension O None (CSeq l) = Ok dm /\ o = new_obj dm | HOther => False end.
  Lemma arg_obj_stands h d o : arg_obj h d o -> stands_for O h d (ob_dim o).
  Proof. destruct d as [a|l|]; cbn [arg_obj]; intro H; [now constructor| |easy]. destruct H as (dm & E & ->). now constructor. Qed.
  Lemma stands_arg_obj h d dm : stands_for O h d dm -> exists o, arg_obj h d o /\ ob_dim o = dm.
  Proof. destruct 1 as [a o H|l dm H]; [now exists o|]. exists (new_obj dm). split; [|reflexivity]. cbn [arg_obj]. eauto. Qed.
  Lemma make_space_ok : forall ds h os, Forall2 (arg_obj h) ds os -> exists h' l, make_space O h ds = (h', Ok l) /\ Forall2 (fun a o => nth_error h' a = Some o) l os.
  Proof.
    assert (G : forall ds h ext os, Forall2 (arg_obj h) ds os -> exists h' l, make_space O (h ++ ext) ds = (h', Ok l) /\ Forall2 (fun a o => nth_error h' a = Some o) l os).
    - induction ds as [|d ds IH]; intros h ext os F; inversion F as [|? o ? os' A F']; subst; [exists (h ++ ext), []; split; [reflexivity|constructor]|].
      cbn [make_space]. assert (Q : exists ext' a, check_arg O (h ++ ext) d = (h ++ ext ++ ext', Ok a) /\ nth_error (h ++ ext ++ ext') a = Some o).
      { destruct d as [a|s|]; cbn [arg_obj check_arg] in A |- *; [| |easy].
        - exists [], a. assert (a < length h)%nat by (apply nth_error_Some; congruence). rewrite app_length, app_nil_r.
          rewrite (proj2 (Nat.ltb_lt _ _)) by lia. split; [reflexivity|]. now rewrite nth_error_app1.
        - destruct A as (dm & -> & ->). exists [new_obj dm], (length (h ++ ext)). rewrite <- app_assoc. split; [reflexivity|].
          rewrite app_assoc, nth_error_app2, Nat.sub_diag by lia. reflexivity. }
      destruct Q as (ext' & a & -> & Ha). destruct (IH h (ext ++ ext') os' F') as (h' & l & E & Fl). rewrite E. exists h', (a :: l). split; [reflexivity|].
      constructor; [|exact Fl]. destruct (make_space_grows _ _ E) as (y & ->). now apply grows_untouched.
    - intros ds h os F. destruct (G ds h [] os F) as (h' & l & E & Fl). rewrite app_nil_r in E. eauto.
  Qed.
End Heap.
Arguments make_space_ok {N O ds h os} _.
