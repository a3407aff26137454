(** The designs have the right shape, and their entries are as good as single entries are. *)
From Coq Require Import String List ZArith Bool Lia Permutation Sorting.Sorted.
From Verif Require Import Base BaseLemmas Num Values Transformers Dimension Space Sampler SamplerSpec PrimeLemmas.
Import ListNotations.
Open Scope nat_scope.
Open Scope list_scope.
Set Implicit Arguments.
Local Arguments Z.pow : simpl never.

(** ** mapM *)
Lemma mapM_all {A B} (f : A -> res B) (P : B -> Prop) l : (forall x, In x l -> exists y, f x = Ok y /\ P y) ->
  exists ys, mapM f l = Ok ys /\ length ys = length l /\ Forall P ys.
Proof.
  induction l as [|x l IH]; intro H; [exists []; repeat split; constructor|].
  destruct (H x (or_introl eq_refl)) as (y & E & Py).
  destruct IH as (ys & Es & Hl & Hp); [intros z Hz; apply H; now right|].
  exists (y :: ys). cbn [mapM]. rewrite E. cbn [bind]. rewrite Es. cbn [bind]. split; [reflexivity|].
  split; [simpl; lia|]. now constructor.
Qed.
Lemma mapM_nth {A B} (f : A -> res B) : forall l ys, mapM f l = Ok ys ->
  length ys = length l /\ forall i x, nth_error l i = Some x -> exists y, nth_error ys i = Some y /\ f x = Ok y.
Proof.
  induction l as [|x l IH]; intros ys H; cbn [mapM] in H.
  - injection H as <-. split; [reflexivity|]. intros [|i] x Hx; discriminate Hx.
  - destruct (f x) as [y|] eqn:E; [|discriminate H]. cbn [bind] in H. destruct (mapM f l) as [ys'|]; [|discriminate H].
    cbn [bind] in H. injection H as <-. destruct (IH ys' eq_refl) as [Hl Hn]. split; [simpl; lia|].
    intros [|i] z Hz; [injection Hz as <-; now exists y|]. now apply Hn.
Qed.

Lemma nth_error_enumerate_from {A} : forall (l : list A) s i,
  nth_error (enumerate_from s l) i = option_map (fun x => (s + i, x)) (nth_error l i).
Proof.
  induction l as [|x l IH]; intros s [|i]; cbn [enumerate_from nth_error option_map]; try reflexivity.
  - now rewrite Nat.add_0_r.
  - rewrite IH. destruct (nth_error l i); cbn; [|reflexivity]. repeat f_equal. lia.
Qed.
Lemma nth_error_enumerate {A} (l : list A) i : nth_error (enumerate l) i = option_map (fun x => (i, x)) (nth_error l i).
Proof. unfold enumerate. rewrite nth_error_enumerate_from. reflexivity. Qed.
Lemma in_enumerate {A} (l : list A) i x : In (i, x) (enumerate l) -> nth_error l i = Some x.
Proof.
  intro H. apply In_nth_error in H. destruct H as [k H]. rewrite nth_error_enumerate in H.
  destruct (nth_error l k) eqn:E; [|discriminate H]. injection H as <- <-. exact E.
Qed.
Lemma enumerate_length {A} (l : list A) : length (enumerate l) = length l.
Proof. unfold enumerate. generalize 0. induction l; intro s; cbn; [reflexivity|now rewrite IHl]. Qed.

Section Shapes.
  Context {N RNG : Type} (O : numops N) (G : rng_ops N RNG) (Gok : rng_ok O G).
  Context (ok : N -> Prop).

  (** [n] rows of width [d] with acceptable entries *)
  Definition shaped (d n : nat) (h : list (list N)) : Prop :=
    length h = n /\ Forall (fun r => length r = d) h /\ Forall (Forall ok) h.

  Lemma shaped_rows {A} (f : A -> res (list N)) l d n : length l = n ->
    (forall x, In x l -> exists r, f x = Ok r /\ length r = d /\ Forall ok r) ->
    exists h, mapM f l = Ok h /\ shaped d n h.
  Proof.
    intros Hl H. destruct (@mapM_all _ _ f (fun r => length r = d /\ Forall ok r) l) as (h & E & L & F).
    { intros x Hx. destruct (H x Hx) as (r & ? & ? & ?). now exists r. }
    exists h. split; [exact E|]. split; [lia|]. split; eapply Forall_impl; try exact F; now intros r [].
  Qed.

  (** ** Halton *)
  Definition bases_ok (a : halton_args) (n : nat) : Prop :=
    match h_primes a with None => True | Some l => length l < n \/ length l = n /\ Forall (fun p => 2 <= p) l end.
  (** The argument combinations for which numpy can choose a start. *)
  Definition skips_ok (a : halton_args) : Prop :=
    h_min a = h_max a \/ (h_min a < 0 /\ h_max a < 0)%Z \/ (0 <= h_min a < h_max a)%Z.
  Definition skip_range (a : halton_args) (s : Z) : Prop := (h_min a = h_max a /\ s = h_min a) \/ (0 <= s)%Z.

  Lemma halton_primes_ok a n : bases_ok a n ->
    exists ps, halton_primes (h_primes a) n = Ok ps /\ length ps = n /\ (forall p, In p ps -> 2 <= p).
  Proof.
    intro Hb. assert (D : (match h_primes a with None => True | Some l => length l < n end) \/
      exists l, h_primes a = Some l /\ length l = n /\ Forall (fun p => 2 <= p) l).
    { unfold bases_ok in Hb. destruct (h_primes a) as [l|]; [|now left]. destruct Hb as [Hb|Hb]; [now left|]. right. now exists l. }
    destruct D as [D|(l & E & L & F)].
    - destruct (halton_primes_spec _ _ D) as (ps & E & L & _ & P & _). exists ps. split; [exact E|]. split; [exact L|].
      intros p Hp. now destruct (P p Hp).
    - exists l. rewrite E. unfold halton_primes. rewrite L, Nat.ltb_irrefl. cbn [bind]. rewrite L, Nat.eqb_refl.
      split; [reflexivity|]. split; [first [exact L|reflexivity]|]. now apply Forall_forall.
  Qed.
  Lemma halton_skip_range a ps g : skips_ok a -> ps <> [] ->
    exists s g', halton_skip G (h_min a) (h_max a) ps g = (Ok s, g') /\ skip_range a s.
  Proof.
    intros Ha Hps. unfold halton_skip, skip_range.
    destruct (Z.eqb_spec (h_min a) (h_max a)) as [E|NE].
    - do 2 eexists. split; [reflexivity|]. now left.
    - destruct (Z.ltb_spec (h_min a) 0) as [L1|L1], (Z.ltb_spec (h_max a) 0) as [L2|L2]; cbn [andb orb].
      + destruct ps as [|p ps]; [contradiction|]. do 2 eexists. split; [reflexivity|lia].
      + destruct Ha; lia.
      + destruct Ha; lia.
      + destruct (Z.leb_spec (h_max a) (h_min a)) as [L3|L3]; [destruct Ha; lia|].
        destruct (rg_randint G g (h_min a) (h_max a)) as [s g'] eqn:E. do 2 eexists. split; [reflexivity|].
        destruct Gok as (_ & HG & _). pose proof (HG g (h_min a) (h_max a) L3) as B. rewrite E in B. simpl in B. lia.
  Qed.

  Lemma halton_design_ok a d n g : 0 < d -> bases_ok a d -> skips_ok a ->
    (forall ps p s j, halton_primes (h_primes a) d = Ok ps -> In p ps -> skip_range a s -> j < n ->
       exists x, vdc O (Z.of_nat p) (Z.of_nat j + s) = Ok x /\ ok x) ->
    exists h g', halton_design O G a d n g = (Ok h, g') /\ shaped d n h.
  Proof.
    intros Hd Hb Hs Hv. destruct (halton_primes_ok _ _ Hb) as (ps & E & L & P). unfold halton_design. rewrite E.
    destruct (@halton_skip_range a ps g Hs) as (s & g' & E2 & Hr).
    { intros ->. simpl in L. lia. }
    rewrite E2. cbn [bind].
    destruct (@shaped_rows nat (fun j => mapM (fun p => vdc O (Z.of_nat p) (Z.of_nat j + s)) ps) (seq 0 n) d n) as (h & Eh & Sh).
    - apply seq_length.
    - intros j Hj. apply in_seq in Hj.
      destruct (@mapM_all _ _ (fun p => vdc O (Z.of_nat p) (Z.of_nat j + s)) ok ps) as (r & Er & Lr & Fr).
      + intros p Hp. apply (Hv ps p s j E Hp Hr). lia.
      + exists r. split; [exact Er|]. split; [congruence|exact Fr].
    - exists h, g'. split; [|exact Sh]. f_equal. exact Eh.
  Qed.

  (** ** np.linspace *)
  Lemma linspace01_length n : length (linspace01 O n) = S n.
  Proof. unfold linspace01. now rewrite map_length, seq_length. Qed.
  Definition lin (n i : nat) : N :=
    if Nat.eqb i n then nofZ O (if Nat.eqb n 0 then 0 else 1)
    else nmul O (nofZ O (Z.of_nat i)) (ndiv O (nofZ O 1) (nofZ O (Z.of_nat n))).
  Lemma linspace01_nth n i : i <= n -> nth_error (linspace01 O n) i = Some (lin n i).
  Proof.
    intro H. unfold linspace01. rewrite nth_error_map, (nth_error_nth' _ 0) by (rewrite seq_length; lia).
    rewrite seq_nth by lia. reflexivity.
  Qed.
  Lemma linspace01_init n : removelast (linspace01 O n) = map (lin n) (seq 0 n).
  Proof.
    unfold linspace01. fold (lin n). change (fun i => _) with (lin n). rewrite seq_S, map_app. apply removelast_last.
  Qed.

  Lemma hammersly_design_ok a d n g : 0 < d -> bases_ok a (if Nat.eqb d 1 then 1 else d - 1) -> skips_ok a ->
    (forall ps p s j, halton_primes (h_primes a) (if Nat.eqb d 1 then 1 else d - 1) = Ok ps -> In p ps -> skip_range a s -> j < n ->
       exists x, vdc O (Z.of_nat p) (Z.of_nat j + s) = Ok x /\ ok x) ->
    (forall i, i < n -> ok (lin n i)) ->
    exists h, hammersly_design O G a d n g = Ok h /\ shaped d n h.
  Proof.
    intros Hd Hb Hs Hv Hl. unfold hammersly_design. destruct (Nat.eqb_spec d 1) as [->|H1].
    - destruct (@halton_design_ok a 1 n g ltac:(lia) Hb Hs Hv) as (h & g' & E & Sh). rewrite E. now exists h.
    - destruct (@halton_design_ok a (d - 1) n g ltac:(lia) Hb Hs Hv) as (h & g' & E & (L1 & L2 & L3)). rewrite E. cbn [fst bind].
      eexists. split; [reflexivity|]. rewrite linspace01_init. split; [|split].
      + rewrite map_length, combine_length, map_length, seq_length. lia.
      + apply Forall_map, Forall_forall. intros [r x] Hin. apply in_combine_l in Hin. cbn [fst snd]. rewrite app_length. simpl length.
        rewrite Forall_forall in L2. specialize (L2 r Hin). lia.
      + apply Forall_map, Forall_forall. intros [r x] Hin. cbn [fst snd]. apply Forall_app. split.
        * apply in_combine_l in Hin. rewrite Forall_forall in L3. now apply L3.
        * constructor; [|constructor]. apply in_combine_r in Hin. apply in_map_iff in Hin. destruct Hin as (i & <- & Hi).
          apply in_seq in Hi. apply Hl. lia.
  Qed.

  (** ** Latin hypercube *)
  Lemma draws_all' {A} (P : A -> Prop) (f : RNG -> A * RNG) n : forall g, (forall g, P (fst (f g))) ->
    length (fst (draws f n g)) = n /\ Forall P (fst (draws f n g)).
  Proof.
    induction n as [|n IH]; intros g H; simpl; [split; [reflexivity|constructor]|].
    destruct (f g) as [x g1] eqn:E. destruct (IH g1 H) as [Hl Hf].
    destruct (draws f n g1) as [xs g2]. simpl in *. split; [lia|]. constructor; [|exact Hf].
    specialize (H g). now rewrite E in H.
  Qed.
  Definition unit_draw (u : N) : Prop := nleb O (nofZ O 0) u = true /\ nltb O u (nofZ O 1) = true.
  Lemma rand_matrix_ok n d g : length (fst (rand_matrix G n d g)) = n /\
    Forall (fun r => length r = d /\ Forall unit_draw r) (fst (rand_matrix G n d g)).
  Proof.
    unfold rand_matrix. apply draws_all'. intro g1. destruct (@draws_all' N unit_draw (rg_random G) d g1) as [A B].
    - intro g2. destruct Gok as [H _]. exact (H g2).
    - now split.
  Qed.
  Lemma permute_columns_ok n : forall d g, length (fst (permute_columns G d n g)) = d /\
    Forall (fun p => Permutation p (seq 0 n)) (fst (permute_columns G d n g)).
  Proof.
    induction d as [|d IH]; intro g; cbn [permute_columns]; [split; [reflexivity|constructor]|].
    destruct (rg_perm G g n) as [p g1] eqn:E. specialize (IH g1). destruct (permute_columns G d n g1) as [ps g2].
    cbn [fst] in *. destruct IH. split; [simpl; lia|]. constructor; [|assumption].
    destruct Gok as (_ & _ & _ & HP & _). specialize (HP g n). now rewrite E in HP.
  Qed.

  (** Entry (i, j) of the permuted matrix. *)
  Lemma permuted_spec (h : list (list N)) (orders : list (list nat)) d : Forall (fun r => length r = d) h -> length orders = d ->
    Forall (fun p => Permutation p (seq 0 (length h))) orders ->
    exists h', permuted h orders = Ok h' /\ length h' = length h /\ Forall (fun r => length r = d) h' /\
      forall i j r', nth_error h' i = Some r' -> forall o, nth_error orders j = Some o ->
        exists k (r : list N) (v : N), nth_error o i = Some k /\ nth_error h k = Some r /\ nth_error r j = Some v /\ nth_error r' j = Some v.
  Proof.
    intros Hh Ho Hp. rewrite Forall_forall in Hp, Hh.
    set (cell := fun i (jo : nat * list nat) => match nth_error (snd jo) i with
                                   | None => Raise IndexError
                                   | Some k => match nth_error h k with
                                               | None => Raise IndexError
                                               | Some row => match nth_error row (fst jo) with
                                                             | None => Raise IndexError | Some v => Ok v end
                                               end
                                   end).
    assert (C : forall i j o, i < length h -> nth_error orders j = Some o ->
       exists k (r : list N) (v : N), nth_error o i = Some k /\ nth_error h k = Some r /\ nth_error r j = Some v /\ cell i (j, o) = Ok v).
    { intros i j o Hi Hj. assert (Po := Hp o (nth_error_In _ _ Hj)).
      assert (Lj : j < d) by (rewrite <- Ho; apply nth_error_Some; congruence).
      assert (Lo : length o = length h) by (rewrite (Permutation_length Po), seq_length; reflexivity).
      destruct (nth_error o i) as [k|] eqn:Ek; [|apply nth_error_None in Ek; lia].
      assert (Hk : In k (seq 0 (length h))) by (apply (Permutation_in _ Po); now apply nth_error_In in Ek). apply in_seq in Hk.
      destruct (nth_error h k) as [r|] eqn:Er; [|apply nth_error_None in Er; lia].
      assert (Lr := Hh r (nth_error_In _ _ Er)).
      destruct (nth_error r j) as [v|] eqn:Ev; [|apply nth_error_None in Ev; lia].
      exists k, r, v. unfold cell. cbn [fst snd]. rewrite Ek, Er, Ev. repeat split; congruence. }
    assert (R : forall i, In i (seq 0 (length h)) -> exists r, mapM (cell i) (enumerate orders) = Ok r /\ length r = d).
    { intros i Hi. apply in_seq in Hi. destruct (@mapM_all _ _ (cell i) (fun _ => True) (enumerate orders)) as (r & E & L & _).
      - intros [j o] Hjo. apply in_enumerate in Hjo. destruct (C i j o ltac:(lia) Hjo) as (k & r & v & _ & _ & _ & E). now exists v.
      - exists r. split; [exact E|]. rewrite L, enumerate_length. exact Ho. }
    destruct (@mapM_all _ _ (fun i => mapM (cell i) (enumerate orders)) (fun r => length r = d) (seq 0 (length h)) R) as (h' & E & L & F).
    rewrite seq_length in L. exists h'. split; [exact E|]. split; [exact L|]. split; [exact F|].
    intros i j r' Hr' o Hj. assert (Li : i < length h) by (rewrite <- L; apply nth_error_Some; congruence).
    destruct (C i j o Li Hj) as (k & r & v & A1 & A2 & A3 & A4).
    exists k, r, v. split; [exact A1|]. split; [exact A2|]. split; [exact A3|].
    destruct (mapM_nth _ _ E) as [_ Hn]. destruct (Hn i i) as (r2 & E2 & E3).
    { rewrite (nth_error_nth' _ 0) by (rewrite seq_length; lia). now rewrite seq_nth by lia. }
    rewrite E2 in Hr'. injection Hr' as ->. destruct (mapM_nth _ _ E3) as [_ Hn']. 
    destruct (Hn' j (j, o)) as (v' & E4 & E5); [rewrite nth_error_enumerate, Hj; reflexivity|]. congruence.
  Qed.

  (** Each column of the result holds one value from each stratum; [cellok i v] says that [v] is a value of stratum [i]. *)
  Definition latin (cellok : nat -> N -> Prop) (d n : nat) (h : list (list N)) : Prop :=
    length h = n /\ Forall (fun r => length r = d) h /\
    forall j, j < d -> exists o, Permutation o (seq 0 n) /\
      forall i r, nth_error h i = Some r -> exists k v, nth_error o i = Some k /\ nth_error r j = Some v /\ cellok k v.

  Lemma lhs_normalized_latin t d n g (cellok : nat -> N -> Prop) :
    (forall k u, k < n -> unit_draw u -> exists v, lhs_cell O t (lin n k) (lin n (S k)) u = Ok v /\ cellok k v) ->
    exists h g', lhs_normalized O G t d n g = (Ok h, g') /\ latin cellok d n h.
  Proof.
    intro Hc. unfold lhs_normalized. destruct (rand_matrix_ok n d g) as [U1 U2].
    destruct (rand_matrix G n d g) as [u g1]. cbn [fst] in U1, U2. rewrite Forall_forall in U2.
    destruct (@mapM_all _ _ (fun iu => match nth_error (linspace01 O n) (fst iu), nth_error (linspace01 O n) (S (fst iu)) with
                    | Some lo, Some hi => mapM (lhs_cell O t lo hi) (snd iu)
                    | _, _ => Raise IndexError
                    end) (fun r => length r = d) (enumerate u)) as (h & E & L & F).
    { intros [k us] Hk. apply in_enumerate in Hk. assert (Lk : k < n) by (rewrite <- U1; apply nth_error_Some; congruence).
      cbn [fst snd]. rewrite !linspace01_nth by lia. destruct (U2 us (nth_error_In _ _ Hk)) as [L1 F1]. rewrite Forall_forall in F1.
      destruct (@mapM_all _ _ (lhs_cell O t (lin n k) (lin n (S k))) (fun _ => True) us) as (r & Er & Lr & _).
      - intros x Hx. destruct (Hc k x Lk (F1 x Hx)) as (v & Ev & _). now exists v.
      - exists r. split; [exact Er|congruence]. }
    rewrite enumerate_length in L.
    assert (Hrow : forall k r j v, nth_error h k = Some r -> nth_error r j = Some v -> cellok k v).
    { intros k r j v Hk Hj. destruct (mapM_nth _ _ E) as [_ Hn].
      assert (Lk : k < length u) by (rewrite <- L; apply nth_error_Some; congruence).
      destruct (nth_error u k) as [us|] eqn:Eu; [|apply nth_error_None in Eu; lia].
      destruct (Hn k (k, us)) as (r' & Er' & Ef); [rewrite nth_error_enumerate, Eu; reflexivity|].
      cbn [fst snd] in Ef. rewrite !linspace01_nth in Ef by lia.
      assert (r' = r) as -> by congruence. destruct (U2 us (nth_error_In _ _ Eu)) as [L1 F1]. rewrite Forall_forall in F1.
      destruct (mapM_nth _ _ Ef) as [Lr Hn'].
      destruct (nth_error us j) as [x|] eqn:Ex.
      - destruct (Hn' j x Ex) as (v' & Ev' & Ec). destruct (Hc k x ltac:(lia) (F1 x (nth_error_In _ _ Ex))) as (v'' & Ev'' & Ok'').
        assert (v'' = v) as -> by congruence. exact Ok''.
      - apply nth_error_None in Ex. assert (j < length r) by (apply nth_error_Some; congruence). lia. }
    unfold lhs_rows. rewrite E. destruct (permute_columns_ok (length h) d g1) as [P1 P2].
    replace n with (length h) by lia.
    destruct (permute_columns G d (length h) g1) as [orders g2]. cbn [fst] in P1, P2.
    destruct (@permuted_spec h orders d F P1 P2) as (h' & Eh & Lh & Fh & Hh). rewrite Eh.
    exists h', g2. split; [reflexivity|]. split; [lia|]. split; [exact Fh|]. intros j Hj.
    destruct (nth_error orders j) as [o|] eqn:Eo; [|apply nth_error_None in Eo; lia].
    exists o. split; [rewrite Forall_forall in P2; apply P2; now apply nth_error_In in Eo|].
    intros i r' Hr'. destruct (Hh i j r' Hr' o Eo) as (k & r & v & A1 & A2 & A3 & A4).
    exists k, v. split; [exact A1|]. split; [exact A4|]. now apply (Hrow k r j v).
  Qed.

  Lemma lhs_search_latin S t c d n (cellok : nat -> N -> Prop) :
    (forall k u, k < n -> unit_draw u -> exists v, lhs_cell O t (lin n k) (lin n (Datatypes.S k)) u = Ok v /\ cellok k v) ->
    forall its best h0 g h g', latin cellok d n h0 -> lhs_search O G S t c d n its best h0 g = (Ok h, g') -> latin cellok d n h.
  Proof.
    intro Hc. induction its as [|its IH]; intros best h0 g h g' H0 H; cbn [lhs_search] in H.
    - injection H as <- _. exact H0.
    - destruct (@lhs_normalized_latin t d n g cellok Hc) as (h1 & g1 & E1 & L1). rewrite E1 in H.
      destruct (lhs_better O S c best h1) as [[b|]|e]; [| |discriminate H].
      + eapply IH; [|exact H]. exact L1.
      + eapply IH; [|exact H]. exact H0.
  Qed.

  Lemma lhs_design_latin S t c its d n g h g' (cellok : nat -> N -> Prop) :
    (forall k u, k < n -> unit_draw u -> exists v, lhs_cell O t (lin n k) (lin n (Datatypes.S k)) u = Ok v /\ cellok k v) ->
    lhs_design O G S t c its d n g = (Ok h, g') -> latin cellok d n h.
  Proof.
    intros Hc H. unfold lhs_design in H. destruct (@lhs_normalized_latin t d n g cellok Hc) as (h1 & g1 & E1 & L1).
    rewrite E1 in H. destruct c; try (injection H as <- _; exact L1);
      destruct (Nat.eqb n 1); try (injection H as <- _; exact L1); try discriminate H;
      (eapply lhs_search_latin; [exact Hc|exact L1|exact H]).
  Qed.

  Lemma latin_shaped (cellok : nat -> N -> Prop) d n h : (forall k v, k < n -> cellok k v -> ok v) -> latin cellok d n h -> shaped d n h.
  Proof.
    intros Hc (L1 & L2 & L3). split; [exact L1|]. split; [exact L2|]. rewrite Forall_forall in L2.
    apply Forall_forall. intros r Hr. apply Forall_forall. intros v Hv.
    apply In_nth_error in Hr, Hv. destruct Hr as [i Hi], Hv as [j Hj].
    assert (Hd : j < d) by (rewrite <- (L2 r (nth_error_In _ _ Hi)); apply nth_error_Some; congruence).
    destruct (L3 j Hd) as (o & Po & Ho). destruct (Ho i r Hi) as (k & v' & A & B & C).
    assert (v' = v) as -> by congruence. apply (Hc k v); [|exact C].
    apply nth_error_In in A. apply (Permutation_in _ Po) in A. apply in_seq in A. lia.
  Qed.

  (** ** Grid *)
  Lemma quadrature_from d0 : forall (rest : list (list N)) (out : list (list N)) len0, length out = len0 ->
    Forall (fun r => length r = d0) out -> Forall (Forall ok) out -> Forall (Forall ok) rest ->
    shaped (d0 + length rest) (fold_left (fun p x => p * length x) rest len0)
      (fold_left (fun out arg => flat_map (fun row => map (fun v => row ++ [v]) arg) out) rest out).
  Proof.
    intros rest. revert d0. induction rest as [|arg rest IH]; intros d0 out len0 Hl Hr Ho Hk; cbn [fold_left length].
    - rewrite Nat.add_0_r. now split.
    - inversion Hk as [|? ? Ha Hk']; subst. rewrite Nat.add_succ_r, <- Nat.add_succ_l. apply IH.
      + clear. induction out as [|r out IH]; [reflexivity|]. cbn [flat_map length]. rewrite app_length, map_length, IH. simpl. lia.
      + apply Forall_flat_map. eapply Forall_impl; [|exact Hr]. intros r Lr. apply Forall_map, Forall_forall. intros v _.
        rewrite app_length. simpl. cbv beta in Lr. lia.
      + apply Forall_flat_map. eapply Forall_impl; [|exact Ho]. intros r Fr. apply Forall_map. eapply Forall_impl; [|exact Ha].
        intros v Hv. apply Forall_app. split; [exact Fr|]. now constructor.
      + exact Hk'.
  Qed.
End Shapes.
