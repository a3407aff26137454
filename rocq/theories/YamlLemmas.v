(** Proofs about Space.from_yaml. *)
From Coq Require Import String List ZArith Bool Ascii Lia.
From Verif Require Import Base BaseLemmas Num Values Transformers Dimension CheckDim Switch Optimizer NamedLemmas Cook CookSpec CookLemmas Yaml YamlSpec.
Import ListNotations.
Open Scope list_scope.
Set Implicit Arguments.

Section Lasts.
  Context {A : Type}.
  Notation get := (dict_get String.eqb).
  Lemma get_app : forall (l m : list (string * A)) s, get (l ++ m) s = match get l s with Some v => Some v | None => get m s end.
  Proof. induction l as [|[k v] l IH]; intros m s; cbn; [reflexivity|]. destruct (String.eqb k s); [reflexivity|apply IH]. Qed.
  Lemma get_fold : forall (l d : list (string * A)) s,
    get (fold_left (fun d kv => dict_set String.eqb d (fst kv) (snd kv)) l d) s = match get (rev l) s with Some v => Some v | None => get d s end.
  Proof.
    induction l as [|[k v] l IH]; intros d s; cbn [fold_left rev fst snd]; [reflexivity|]. rewrite IH, get_app. destruct (get (rev l) s); [reflexivity|]. cbn [dict_get].
    destruct (String.eqb_spec k s) as [->|n]; [apply get_set_same|apply get_set_other; congruence].
  Qed.
  Lemma get_of (l : list (string * A)) s : get (dict_of String.eqb l) s = get (rev l) s.
  Proof. unfold dict_of. rewrite get_fold. cbn. now destruct (get (rev l) s). Qed.
  Lemma get_rev_cons k v (l : list (string * A)) s :
    get (rev ((k, v) :: l)) s = match get (rev l) s with Some w => Some w | None => if String.eqb k s then Some v else None end.
  Proof. cbn [rev]. now rewrite get_app. Qed.
End Lasts.

Section Yaml.
  Context {N : Type} (O : numops N).
  Notation val := (pyval N).
  Notation node := (ynode N).
  Notation body := (list (val * node)).

  Definition strings (b : body) : Prop := forall k v, In (k, v) b -> exists s, k = VStr s.
  Definition lows (b : body) : list (string * node) := map (fun kv => (match fst kv with VStr s => lower s | _ => EmptyString end, snd kv)) b.
  Definition kw_of (b : body) : list (string * node) := dict_of String.eqb (lows b).

  Lemma strings_cons k v (b : body) : strings ((k, v) :: b) <-> (exists s, k = VStr s) /\ strings b.
  Proof.
    split.
    - intro H. split; [eapply H; now left|intros k' v' I; eapply H; right; exact I].
    - intros [H1 H2] k' v' [E|I]; [injection E as <- <-; exact H1|eapply H2; exact I].
  Qed.
  Lemma lowered_ok : forall (b : body) vs, mapM (@lowered N) b = Ok vs <-> strings b /\ vs = lows b.
  Proof.
    induction b as [|[k v] b IH]; intro vs; cbn [mapM lows map].
    - split; [intro E; injection E as <-; split; [intros k v []|reflexivity]|now intros [_ ->]].
    - rewrite strings_cons. cbn [fst snd]. unfold lowered at 1. cbn [fst snd]. split.
      + destruct k; cbn; try discriminate. destruct (mapM (@lowered N) b) as [ws|] eqn:E; [|discriminate]. cbn. intro Q. injection Q as <-.
        destruct (proj1 (IH ws) eq_refl) as [S ->]. split; [split; [now eexists|exact S]|reflexivity].
      + intros [[[s ->] S] ->]. cbn. rewrite (proj2 (IH _) (conj S eq_refl)). reflexivity.
  Qed.

  Section Names.
    Variable name : string.
    Hypothesis Low : lower name = name.
    Lemma absent_cons s v (b : body) : absent ((VStr s, v) :: b) name <-> ~ spelled s name /\ absent b name.
    Proof.
      split; [intro H; split; [eapply H; now left|intros k w I; eapply H; right; exact I]|].
      intros [H1 H2] k w [E|I]; [injection E as <- <-; exact H1|eapply H2; exact I].
    Qed.
    Lemma eqb_spelled s : String.eqb (lower s) name = true <-> spelled s name.
    Proof. rewrite String.eqb_eq. now apply lower_iff. Qed.
    Lemma arg_none : forall b, strings b -> (dict_get String.eqb (rev (lows b)) name = None <-> absent b name).
    Proof.
      induction b as [|[k v] b IH]; intro S; [split; [intros _ k v []|reflexivity]|]. apply strings_cons in S as [[s ->] S]. cbn [lows map fst snd].
      rewrite get_rev_cons, absent_cons, <- IH by assumption. fold (lows b). rewrite <- eqb_spelled.
      destruct (dict_get String.eqb (rev (lows b)) name), (String.eqb (lower s) name); split; try easy; intuition.
    Qed.
    Lemma given_cons s w (b : body) v : given ((VStr s, w) :: b) name v <-> given b name v \/ (absent b name /\ spelled s name /\ v = w).
    Proof.
      split.
      - intros [b1 k b2 E S A]. destruct b1 as [|x b1]; cbn in E; injection E as <- ->; [subst; now right|]. left. now econstructor.
      - intros [[b1 k b2 -> S A]|(A & S & ->)]; [now apply (@given_as _ _ _ _ ((VStr s, w) :: b1) k b2)|now apply (@given_as _ _ _ _ [] s b)].
    Qed.
    Lemma given_present (b : body) v : given b name v -> ~ absent b name.
    Proof. intros [b1 k b2 -> S A] H. apply (H k v); [apply in_or_app; right; now left|exact S]. Qed.
    Lemma arg_some : forall b, strings b -> forall v, (dict_get String.eqb (rev (lows b)) name = Some v <-> given b name v).
    Proof.
      induction b as [|[k w] b IH]; intros S v; [split; [easy|intros [b1 k b2 E _ _]; now destruct b1]|]. apply strings_cons in S as [[s ->] S]. cbn [lows map fst snd].
      rewrite get_rev_cons, given_cons. fold (lows b). rewrite <- IH, <- (arg_none S), <- eqb_spelled by assumption.
      destruct (dict_get String.eqb (rev (lows b)) name), (String.eqb (lower s) name); split; try (intuition congruence).
    Qed.
    Lemma arg_is b : strings b -> forall o, arg (kw_of b) name = o <-> match o with Some v => given b name v | None => absent b name end.
    Proof. intros S [v|]; unfold arg, kw_of; rewrite get_of; [now apply arg_some|now apply arg_none]. Qed.
    Lemma setting_is b A (d : A) means a : strings b ->
      (setting b name d means a <-> match arg (kw_of b) name with None => a = d | Some v => means v a end).
    Proof.
      intro S. destruct (arg (kw_of b) name) as [v|] eqn:E; apply (arg_is S) in E.
      - split; [|intro H; now apply set_given with v]. intros [H|w x G M]; [now apply given_present in E|].
        apply (arg_is S (Some v)) in E. apply (arg_is S (Some w)) in G. congruence.
      - split; [|intros ->; now constructor]. intros [H|w x G M]; [reflexivity|]. now apply given_present in G.
    Qed.
    Lemma required_is b v : strings b -> (required (kw_of b) name = Ok v <-> given b name v).
    Proof.
      intro S. rewrite <- (arg_is S (Some v)). unfold required. destruct (arg (kw_of b) name); split; try discriminate; intro H; injection H as ->; reflexivity.
    Qed.
  End Names.

  Lemma expects_is b names : strings b -> Forall (fun w => lower w = w) names -> (expects names (kw_of b) = Ok tt <-> no_others b names).
  Proof.
    intros S L. unfold expects. destruct (forallb _ (kw_of b)) eqn:E; split; try discriminate; try reflexivity.
    - intros _ k v I. destruct (S _ _ I) as [s ->]. exists s. rewrite forallb_forall in E.
      assert (P : dict_get String.eqb (kw_of b) (lower s) <> None).
      { unfold kw_of. rewrite get_of. assert (M : In (lower s, v) (rev (lows b))) by (rewrite <- in_rev; unfold lows; apply in_map_iff; now exists (VStr s, v)).
        intro Q. assert (K : In (lower s) (map fst (rev (lows b)))) by (apply in_map_iff; now exists (lower s, v)). now apply keys_iff in K. }
      apply keys_iff in P. apply in_map_iff in P as ([k' w] & Q & I'). cbn in Q. subst k'. apply E in I'. cbn in I'. apply existsb_exists in I' as (x & Ix & Q). apply String.eqb_eq in Q.
      exists x. split; [reflexivity|]. split; [exact Ix|]. rewrite Forall_forall in L. apply lower_iff; [now apply L|exact Q].
    - intro H. exfalso. apply Bool.not_true_iff_false in E. apply E, forallb_forall. intros [k v] I. cbn. apply dict_of_keys in I as [I _]. apply in_map_iff in I as ([k' w] & Q & I). cbn in Q. subst k'.
      apply in_map_iff in I as ([u w'] & Q & I). cbn in Q. injection Q as <- ->. destruct (H _ _ I) as (s & x & -> & Ix & Sp). apply existsb_exists. exists x. split; [exact Ix|].
      apply String.eqb_eq. rewrite Forall_forall in L. apply lower_iff; [now apply L|exact Sp].
  Qed.

  (** *** Options *)
  Lemma to_num_is v x : to_num O v = Some x <-> number O (YVal v) x.
  Proof.
    split.
    - destruct v; cbn; intro H; try discriminate; injection H as <-; constructor.
    - inversion 1; subst; cbn; reflexivity.
  Qed.
  Lemma as_int_is v z : as_int v = Some z <-> whole (N:=N) (YVal v) z.
  Proof.
    split.
    - destruct v; cbn; intro H; try discriminate; injection H as <-; constructor.
    - inversion 1; subst; cbn; reflexivity.
  Qed.
  Lemma prior_is v p : prior_of v = Some p <-> word (N:=N) priors (YVal v) p.
  Proof.
    split.
    - destruct v; cbn; try discriminate. destruct (String.eqb_spec s "uniform") as [->|_]; [intro H; injection H as <-; constructor; now left|].
      destruct (String.eqb_spec s "log-uniform") as [->|_]; [intro H; injection H as <-; constructor; right; now left|discriminate].
    - inversion 1 as [s a I]; subst. cbn in I. destruct I as [I|[I|[]]]; injection I as <- <-; reflexivity.
  Qed.


  Lemma prior_arg_is b p : strings b -> (prior_arg (kw_of b) = Ok p <-> setting b "prior" PUniform (word priors) p).
  Proof.
    intro S. rewrite (@setting_is "prior" eq_refl b _ PUniform (word priors) p S). unfold prior_arg.
    destruct (arg (kw_of b) "prior") as [[v|l|l]|]; [|split; [discriminate|now inversion 1]..|split; [intro H; now injection H as ->|now intros ->]].
    rewrite <- prior_is. destruct (prior_of v); split; try discriminate; intro H; injection H as ->; reflexivity.
  Qed.
  Lemma base_arg_is b x : strings b -> (base_arg O (kw_of b) = Ok x <-> setting b "base" (nofZ O 10) (number O) x).
  Proof.
    intro S. rewrite (@setting_is "base" eq_refl b _ (nofZ O 10) (number O) x S). unfold base_arg.
    destruct (arg (kw_of b) "base") as [[v|l|l]|]; [|split; [discriminate|now inversion 1]..|split; [intro H; now injection H as <-|now intros ->]].
    rewrite <- to_num_is. destruct (to_num O v); split; try discriminate; intro H; injection H as ->; reflexivity.
  Qed.
  Lemma name_arg_is b n : strings b -> (name_arg (kw_of b) = Ok n <-> setting b "name" None (or_null None (@text N)) n).
  Proof.
    intro S. rewrite (@setting_is "name" eq_refl b _ None (or_null None (@text N)) n S). unfold name_arg.
    destruct (arg (kw_of b) "name") as [[v|l|l]|].
    - destruct v; try (split; [discriminate|inversion 1 as [|? ? T]; subst; now inversion T]).
      + split; [intro H; injection H as <-; right; constructor|inversion 1 as [|? ? T]; subst; now inversion T].
      + split; [intro H; injection H as <-; left|inversion 1 as [|? ? T]; subst; [reflexivity|now inversion T]].
    - split; [discriminate|inversion 1 as [|? ? T]; subst; now inversion T].
    - split; [discriminate|inversion 1 as [|? ? T]; subst; now inversion T].
    - split; [intro H; now injection H as <-|now intros ->].
  Qed.
  Lemma float_dtype_is s t : float_dtype s = Some t <-> In (s, t) float_types.
  Proof.
    unfold float_dtype, float_types. split.
    - destruct (String.eqb_spec s "float") as [->|_]; cbn [orb]; [intro H; injection H as <-; now left|].
      destruct (String.eqb_spec s "float64") as [->|_]; [intro H; injection H as <-; right; now left|].
      destruct (String.eqb_spec s "float32") as [->|_]; [intro H; injection H as <-; right; right; now left|].
      destruct (String.eqb_spec s "float16") as [->|_]; [intro H; injection H as <-; right; right; right; now left|discriminate].
    - intros [E|[E|[E|[E|[]]]]]; injection E as <- <-; reflexivity.
  Qed.
  Lemma int_dtype_is s t : int_dtype s = Some t <-> In (s, t) int_types.
  Proof.
    unfold int_dtype, int_types. split.
    - repeat match goal with |- context [String.eqb s ?w] => destruct (String.eqb_spec s w) as [->|_]; cbn [orb]; [intro H; injection H as <-; cbn; tauto|] end. discriminate.
    - intros [E|[E|[E|[E|[E|[E|[E|[E|[E|[]]]]]]]]]]; injection E as <- <-; reflexivity.
  Qed.
  Lemma fdtype_arg_is b t : strings b -> (fdtype_arg (kw_of b) = Ok t <-> setting b "dtype" DT64 (word float_types) t).
  Proof.
    intro S. rewrite (@setting_is "dtype" eq_refl b _ DT64 (word float_types) t S). unfold fdtype_arg.
    destruct (arg (kw_of b) "dtype") as [[v|l|l]|]; [|split; [discriminate|now inversion 1]..|split; [intro H; now injection H as ->|now intros ->]].
    destruct v; try (split; [discriminate|now inversion 1]). split.
    - destruct (float_dtype s) eqn:E; [|discriminate]. intro H. injection H as <-. constructor. now apply float_dtype_is.
    - inversion 1 as [s' a I]; subst. apply float_dtype_is in I. now rewrite I.
  Qed.
  Lemma idtype_arg_is b t : strings b -> (idtype_arg (kw_of b) = Ok t <-> setting b "dtype" int64 (word int_types) t).
  Proof.
    intro S. rewrite (@setting_is "dtype" eq_refl b _ int64 (word int_types) t S). unfold idtype_arg.
    destruct (arg (kw_of b) "dtype") as [[v|l|l]|]; [|split; [discriminate|now inversion 1]..|split; [intro H; now injection H as ->|now intros ->]].
    destruct v; try (split; [discriminate|now inversion 1]). split.
    - destruct (int_dtype s) eqn:E; [|discriminate]. intro H. injection H as <-. constructor. now apply int_dtype_is.
    - inversion 1 as [s' a I]; subst. apply int_dtype_is in I. now rewrite I.
  Qed.
  Lemma kind_of_is s k : kind_of s = Some k <-> In (s, k) encodings.
  Proof.
    unfold kind_of, encodings, scalings. cbn [app]. split.
    - repeat match goal with |- context [String.eqb s ?w] => destruct (String.eqb_spec s w) as [->|_]; [intro H; injection H as <-; cbn; tauto|] end. discriminate.
    - intros [E|[E|[E|[E|[E|[]]]]]]; injection E as <- <-; reflexivity.
  Qed.
  (** For Real and Integer the names of encodings are refused. *)
  Lemma kind_arg_cat b k : strings b ->
    ((exists ko, kind_arg (kw_of b) = Ok ko /\ k = match ko with None => KOnehot | Some k => k end) <-> setting b "transform" KOnehot (or_null KOnehot (word encodings)) k).
  Proof.
    intro S. rewrite (@setting_is "transform" eq_refl b _ KOnehot (or_null KOnehot (word encodings)) k S). unfold kind_arg.
    destruct (arg (kw_of b) "transform") as [[v|l|l]|].
    - destruct v; try (split; [intros (ko & H & _); discriminate|inversion 1 as [|? ? T]; subst; now inversion T]).
      + split.
        * intros (ko & H & ->). destruct (kind_of s) eqn:E; [|discriminate]. injection H as <-. right. constructor. now apply kind_of_is.
        * inversion 1 as [|? ? T]; subst. inversion T as [s' a I]; subst. apply kind_of_is in I. rewrite I. now eexists.
      + split; [intros (ko & H & ->); injection H as <-; left|inversion 1 as [|? ? T]; subst; [now exists None|now inversion T]].
    - split; [intros (ko & H & _); discriminate|inversion 1 as [|? ? T]; subst; now inversion T].
    - split; [intros (ko & H & _); discriminate|inversion 1 as [|? ? T]; subst; now inversion T].
    - split; [intros (ko & H & ->); now injection H as <-|intros ->; now exists None].
  Qed.
  Lemma kind_arg_number b k : strings b ->
    ((exists ko, kind_arg (kw_of b) = Ok ko /\ k = match ko with None => KIdentity | Some k => k end /\ (k = KIdentity \/ k = KNormalize)) <->
     setting b "transform" KIdentity (or_null KIdentity (word scalings)) k).
  Proof.
    intro S. rewrite (@setting_is "transform" eq_refl b _ KIdentity (or_null KIdentity (word scalings)) k S). unfold kind_arg.
    destruct (arg (kw_of b) "transform") as [[v|l|l]|].
    - destruct v; try (split; [intros (ko & H & _); discriminate|inversion 1 as [|? ? T]; subst; now inversion T]).
      + split.
        * intros (ko & H & E & D). destruct (kind_of s) as [k'|] eqn:Q; [|discriminate]. injection H as <-. subst k'. right. constructor. apply kind_of_is in Q. unfold encodings in Q. apply in_app_or in Q as [Q|Q]; [exact Q|].
          exfalso. cbn in Q. destruct D as [-> | ->]; destruct Q as [Q|[Q|[Q|[]]]]; discriminate.
        * inversion 1 as [|? ? T]; subst. inversion T as [s' a I]; subst. exists (Some k). split; [|split; [reflexivity|cbn in I; destruct I as [I|[I|[]]]; injection I as _ <-; tauto]].
          rewrite (proj2 (kind_of_is s k)); [reflexivity|]. apply in_or_app. now left.
      + split; [intros (ko & H & -> & _); injection H as <-; left|inversion 1 as [|? ? T]; subst; [exists None; tauto|now inversion T]].
    - split; [intros (ko & H & _); discriminate|inversion 1 as [|? ? T]; subst; now inversion T].
    - split; [intros (ko & H & _); discriminate|inversion 1 as [|? ? T]; subst; now inversion T].
    - split; [intros (ko & H & -> & _); now injection H as <-|intros ->; exists None; tauto].
  Qed.

  (** *** Bounds *)
  Lemma real_bounds_is l h x y : real_bounds O l h = Ok (x, y) <-> number O l x /\ number O h y /\ nleb O y x = false.
  Proof.
    unfold real_bounds. split.
    - destruct l as [a| |], h as [c| |]; try discriminate. destruct (to_num O a) as [u|] eqn:E, (to_num O c) as [w|] eqn:F; try (destruct a, c; discriminate).
      destruct (nleb O w u) eqn:G; [discriminate|]. intro H. injection H as -> ->. rewrite <- !to_num_is. tauto.
    - intros (A & B & C). assert (exists a c, l = YVal a /\ h = YVal c) as (a & c & -> & ->) by (inversion A; inversion B; now eexists _, _).
      apply to_num_is in A, B. now rewrite A, B, C.
  Qed.
  Lemma int_bounds_is l h x y : int_bounds (N:=N) l h = Ok (x, y) <-> whole l x /\ whole h y /\ (x < y)%Z.
  Proof.
    unfold int_bounds. split.
    - destruct l as [a| |], h as [c| |]; try discriminate. destruct (as_int a) as [u|] eqn:E, (as_int c) as [w|] eqn:F; try (destruct a, c; discriminate).
      destruct (Z.leb_spec w u); [discriminate|]. intro H0. injection H0 as -> ->. rewrite <- !as_int_is. repeat split; try assumption; lia.
    - intros (A & B & C). assert (exists a c, l = YVal a /\ h = YVal c) as (a & c & -> & ->) by (inversion A; inversion B; now eexists _, _).
      apply as_int_is in A, B. rewrite A, B. destruct (Z.leb_spec y x); [lia|reflexivity].
  Qed.
  Lemma number_names_low : Forall (fun w => lower w = w) number_options.
  Proof. repeat constructor. Qed.
  Lemma category_names_low : Forall (fun w => lower w = w) category_options.
  Proof. repeat constructor. Qed.

  Lemma bind_ok A B (r : res A) (f : A -> res B) y : bind r f = Ok y <-> exists x, r = Ok x /\ f x = Ok y.
  Proof. destruct r; cbn; split; [intro H; now exists a|intros (x & E & H); now injection E as <-|discriminate|now intros (x & E & _)]. Qed.

  Lemma real_of_is b d : strings b -> (real_of O (kw_of b) = Ok d <-> describes O "real" b d).
  Proof.
    intro S. unfold real_of. rewrite bind_ok. split.
    - intros ([] & E & H). apply (expects_is S number_names_low) in E. apply bind_ok in H as (lo & Hlo & H). apply bind_ok in H as (hi & Hhi & H). apply bind_ok in H as ([x y] & Hb & H).
      apply bind_ok in H as (p & Hp & H). apply bind_ok in H as (base & Hbase & H). apply bind_ok in H as (n & Hn & H). apply bind_ok in H as (t & Ht & H). apply bind_ok in H as (ko & Hk & H).
      apply real_bounds_is in Hb as (B1 & B2 & B3). cbn [fst snd] in H. unfold make_real in H. rewrite B3 in H. cbn [set_kind] in H.
      apply (@required_is "low" eq_refl _ _ S) in Hlo. apply (@required_is "high" eq_refl _ _ S) in Hhi.
      assert (K : exists k, k = match ko with None => KIdentity | Some k => k end /\ (k = KIdentity \/ k = KNormalize) /\ d = DReal (mkReal x y p base k n t)).
      { eexists. split; [reflexivity|]. destruct (match ko with None => KIdentity | Some k => k end); try discriminate; cbn in H; injection H as <-; tauto. }
      destruct K as (k & K1 & K2 & ->). apply describes_real with lo hi; try assumption; try (now apply prior_arg_is); try (now apply base_arg_is); try (now apply name_arg_is); try (now apply fdtype_arg_is).
      apply kind_arg_number; [exact S|]. now exists ko.
    - inversion 1 as [b' low high p base k n t lo hi E G1 M1 G2 M2 B Sp Sb Sk Sn St| |]; subst. exists tt. split; [now apply (expects_is S number_names_low)|].
      apply bind_ok. exists lo. split; [now apply (@required_is "low" eq_refl _ _ S)|]. apply bind_ok. exists hi. split; [now apply (@required_is "high" eq_refl _ _ S)|].
      apply bind_ok. exists (low, high). split; [now apply real_bounds_is|]. apply bind_ok. exists p. split; [now apply prior_arg_is|]. apply bind_ok. exists base. split; [now apply base_arg_is|].
      apply bind_ok. exists n. split; [now apply name_arg_is|]. apply bind_ok. exists t. split; [now apply fdtype_arg_is|]. apply (kind_arg_number k S) in Sk as (ko & K & -> & D).
      apply bind_ok. exists ko. split; [exact K|]. cbn [fst snd]. unfold make_real. rewrite B. cbn [set_kind]. now destruct D as [-> | ->].
  Qed.
  Lemma integer_of_is b d : strings b -> (integer_of O (kw_of b) = Ok d <-> describes O "integer" b d).
  Proof.
    intro S. unfold integer_of. rewrite bind_ok. split.
    - intros ([] & E & H). apply (expects_is S number_names_low) in E. apply bind_ok in H as (lo & Hlo & H). apply bind_ok in H as (hi & Hhi & H). apply bind_ok in H as ([x y] & Hb & H).
      apply bind_ok in H as (p & Hp & H). apply bind_ok in H as (base & Hbase & H). apply bind_ok in H as (n & Hn & H). apply bind_ok in H as (t & Ht & H). apply bind_ok in H as (ko & Hk & H).
      apply int_bounds_is in Hb as (B1 & B2 & B3). cbn [fst snd] in H. unfold make_int in H. rewrite (proj2 (Z.leb_gt y x) B3) in H. cbn [set_kind] in H.
      apply (@required_is "low" eq_refl _ _ S) in Hlo. apply (@required_is "high" eq_refl _ _ S) in Hhi.
      assert (K : exists k, k = match ko with None => KIdentity | Some k => k end /\ (k = KIdentity \/ k = KNormalize) /\ d = DInt (mkInt x y p base k n t)).
      { eexists. split; [reflexivity|]. destruct (match ko with None => KIdentity | Some k => k end); try discriminate; cbn in H; injection H as <-; tauto. }
      destruct K as (k & K1 & K2 & ->). apply describes_integer with lo hi; try assumption; try (now apply prior_arg_is); try (now apply base_arg_is); try (now apply name_arg_is); try (now apply idtype_arg_is).
      apply kind_arg_number; [exact S|]. now exists ko.
    - inversion 1 as [|b' low high p base k n t lo hi E G1 M1 G2 M2 B Sp Sb Sk Sn St|]; subst. exists tt. split; [now apply (expects_is S number_names_low)|].
      apply bind_ok. exists lo. split; [now apply (@required_is "low" eq_refl _ _ S)|]. apply bind_ok. exists hi. split; [now apply (@required_is "high" eq_refl _ _ S)|].
      apply bind_ok. exists (low, high). split; [now apply int_bounds_is|]. apply bind_ok. exists p. split; [now apply prior_arg_is|]. apply bind_ok. exists base. split; [now apply base_arg_is|].
      apply bind_ok. exists n. split; [now apply name_arg_is|]. apply bind_ok. exists t. split; [now apply idtype_arg_is|]. apply (kind_arg_number k S) in Sk as (ko & K & -> & D).
      apply bind_ok. exists ko. split; [exact K|]. cbn [fst snd]. unfold make_int. rewrite (proj2 (Z.leb_gt high low) B). cbn [set_kind]. now destruct D as [-> | ->].
  Qed.

  Lemma plain_is : forall l vs, mapM (@plain N) l = Ok vs <-> l = map YVal vs.
  Proof.
    induction l as [|n l IH]; intro vs; cbn [mapM].
    - split; [intro H; injection H as <-; reflexivity|destruct vs; [reflexivity|discriminate]].
    - rewrite bind_ok. split.
      + intros (x & H & Q). destruct n; try discriminate. injection H as ->. apply bind_ok in Q as (ys & Hy & Q). injection Q as <-. cbn. f_equal. now apply IH.
      + destruct vs as [|v vs]; [discriminate|]. cbn. intro E. injection E as -> E. exists v. split; [reflexivity|]. now rewrite (proj2 (IH vs) E).
  Qed.
  Lemma categories_of_is c cats : categories_of (N:=N) c = Ok cats <-> choices c cats.
  Proof.
    split.
    - destruct c as [v|l|l]; cbn.
      + destruct v; try discriminate. intro H. injection H as <-. constructor.
      + intro H. apply plain_is in H as ->. constructor.
      + intro H. injection H as <-. constructor.
    - destruct 1 as [l|l|s]; [now apply plain_is|reflexivity..].
  Qed.
  Lemma probability_is n x : probability O n = Ok x <-> number O n x.
  Proof.
    unfold probability. split.
    - destruct n; try discriminate. destruct (to_num O v) eqn:E; [|discriminate]. intro H. injection H as <-. now apply to_num_is.
    - intro H. assert (exists v, n = YVal v) as (v & ->) by (inversion H; now eexists). apply to_num_is in H. now rewrite H.
  Qed.
  Lemma probabilities_is : forall l ps, mapM (probability O) l = Ok ps <-> Forall2 (number O) l ps.
  Proof.
    induction l as [|n l IH]; intro ps; cbn [mapM].
    - split; [intro H; injection H as <-; constructor|now inversion 1].
    - rewrite bind_ok. split.
      + intros (x & H & Q). apply bind_ok in Q as (ys & Hy & Q). injection Q as <-. constructor; [now apply probability_is|now apply IH].
      + inversion 1 as [|? x ? ys Hx Hy]; subst. exists x. split; [now apply probability_is|]. now rewrite (proj2 (IH ys) Hy).
  Qed.
  Lemma weights_arg_is b ps : strings b -> (weights_arg O (kw_of b) = Ok ps <-> setting b "prior" None (or_null None (weights O)) ps).
  Proof.
    intro S. rewrite (@setting_is "prior" eq_refl b _ None (or_null None (weights O)) ps S). unfold weights_arg.
    destruct (arg (kw_of b) "prior") as [[v|l|l]|].
    - destruct v; try (split; [discriminate|inversion 1 as [|? ? T]; subst; now inversion T]).
      split; [intro H; injection H as <-; left|inversion 1 as [|? ? T]; subst; [reflexivity|now inversion T]].
    - rewrite bind_ok. split.
      + intros (x & H & Q). injection Q as <-. right. constructor. now apply probabilities_is.
      + inversion 1 as [|? ? T]; subst. inversion T as [l' xs F]; subst. exists xs. split; [now apply probabilities_is|reflexivity].
    - split; [discriminate|inversion 1 as [|? ? T]; subst; now inversion T].
    - split; [intro H; now injection H as <-|now intros ->].
  Qed.
  Lemma check_weights_is cats ps ko : let k := match ko with None => KOnehot | Some k => k end in
    check_weights O cats ps ko = Ok tt <-> (forall l, ps = Some l -> k <> KNormalize -> length l = length cats /\ allclose O (np_sum O l) (nofZ O 1) = true).
  Proof.
    intro k. destruct ps as [l|]; cbn; [|split; [easy|reflexivity]].
    assert (Q : (if (length l =? length cats) && allclose O (np_sum O l) (nofZ O 1) then Ok tt else Raise ValueError) = Ok tt <-> length l = length cats /\ allclose O (np_sum O l) (nofZ O 1) = true).
    { destruct (Nat.eqb_spec (length l) (length cats)), (allclose O (np_sum O l) (nofZ O 1)); cbn; split; try easy; intuition. }
    assert (D : k = KNormalize \/ k <> KNormalize) by (destruct k; tauto || (now right)).
    destruct D as [D|D].
    - assert (ko = Some KNormalize) as -> by (destruct ko as [[]|]; cbn in *; try discriminate; reflexivity). split; [|reflexivity]. intros _ l' _ n. now elim n.
    - transitivity (length l = length cats /\ allclose O (np_sum O l) (nofZ O 1) = true).
      + rewrite <- Q. destruct ko as [[]|]; try reflexivity. now elim D.
      + split; [intros H l' E _; now injection E as <-|intro H; now apply H].
  Qed.
  Lemma categorical_of_is b d : strings b -> (categorical_of O (kw_of b) = Ok d <-> describes O "categorical" b d).
  Proof.
    intro S. unfold categorical_of. rewrite bind_ok. split.
    - intros ([] & E & H). apply (expects_is S category_names_low) in E. apply bind_ok in H as (c & Hc & H). apply bind_ok in H as (cats & Hcats & H). apply bind_ok in H as (n & Hn & H).
      apply bind_ok in H as (ps & Hps & H). apply bind_ok in H as ([] & Hz & H). apply bind_ok in H as (ko & Hk & H). apply bind_ok in H as ([] & Hw & H).
      apply (@required_is "categories" eq_refl _ _ S) in Hc. apply categories_of_is in Hcats. pose proof (proj1 (check_weights_is cats ps ko) Hw) as Hw'.
      assert (NE : ps = None -> cats <> []) by (intros -> ->; discriminate).
      assert (D : d = DCat (mkCat cats ps (match ko with None => KOnehot | Some k => k end) n)).
      { unfold make_cat in H. destruct cats, ps; try (injection H as <-; reflexivity). discriminate. }
      subst d. apply describes_categorical with c; try assumption; [now apply weights_arg_is| |now apply name_arg_is]. apply kind_arg_cat; [exact S|]. now exists ko.
    - inversion 1 as [| |b' cats c ps k n E G M Sp Sk Sn NE W]; subst. exists tt. split; [now apply (expects_is S category_names_low)|].
      apply bind_ok. exists c. split; [now apply (@required_is "categories" eq_refl _ _ S)|]. apply bind_ok. exists cats. split; [now apply categories_of_is|].
      apply bind_ok. exists n. split; [now apply name_arg_is|]. apply bind_ok. exists ps. split; [now apply weights_arg_is|].
      apply bind_ok. exists tt. split; [destruct cats, ps; try reflexivity; now elim (NE eq_refl)|]. apply (kind_arg_cat k S) in Sk as (ko & K & ->).
      apply bind_ok. exists ko. split; [exact K|]. apply bind_ok. exists tt. split; [exact (proj2 (check_weights_is cats ps ko) W)|].
      unfold make_cat. destruct cats, ps; try reflexivity. now elim (NE eq_refl).
  Qed.

  (** *** Entries *)
  Lemma read_entry_ok e o : read_entry O e = Ok o <->
    exists key b more, e = YDict ((VStr key, YDict b) :: more) /\ strings b /\
      match o with
      | Some d => exists kind, spelled key kind /\ describes O kind b d
      | None => forall kind, In kind ["real"; "integer"; "categorical"]%string -> ~ spelled key kind
      end.
  Proof.
    split.
    - destruct e as [v|l|[|[key body] more]]; try discriminate. cbn [read_entry]. intro H. apply bind_ok in H as (c & Hc & H). apply bind_ok in H as (kvs & Hb & H). apply bind_ok in H as (vs & Hv & H).
      destruct key; try discriminate. injection Hc as <-. destruct body as [| |b]; try discriminate. injection Hb as <-. apply lowered_ok in Hv as [S ->]. fold (kw_of b) in H.
      exists s, b, more. split; [reflexivity|]. split; [exact S|].
      destruct (String.eqb (lower s) "real") eqn:E1; [|destruct (String.eqb (lower s) "integer") eqn:E2; [|destruct (String.eqb (lower s) "categorical") eqn:E3]].
      + apply bind_ok in H as (d & Hd & H). injection H as <-. exists "real"%string. split; [now apply eqb_spelled in E1|now apply real_of_is].
      + apply bind_ok in H as (d & Hd & H). injection H as <-. exists "integer"%string. split; [now apply eqb_spelled in E2|now apply integer_of_is].
      + apply bind_ok in H as (d & Hd & H). injection H as <-. exists "categorical"%string. split; [now apply eqb_spelled in E3|now apply categorical_of_is].
      + injection H as <-. intros kind [<-|[<-|[<-|[]]]] Sp; apply eqb_spelled in Sp; try reflexivity; congruence.
    - intros (key & b & more & -> & S & H). cbn [read_entry lower_key bind]. rewrite (proj2 (lowered_ok b (lows b)) (conj S eq_refl)). cbn [bind]. fold (kw_of b). destruct o as [d|].
      + destruct H as (kind & Sp & D). pose proof D as D'. destruct D'; apply (@eqb_spelled _ eq_refl) in Sp; apply String.eqb_eq in Sp; rewrite Sp; cbn [String.eqb Ascii.eqb Bool.eqb].
        * apply (real_of_is _ S) in D. now rewrite D.
        * apply (integer_of_is _ S) in D. now rewrite D.
        * apply (categorical_of_is _ S) in D. now rewrite D.
      + destruct (String.eqb (lower key) "real") eqn:E1; [apply eqb_spelled in E1; [|reflexivity]; exfalso; eapply H; [|exact E1]; cbn; tauto|].
        destruct (String.eqb (lower key) "integer") eqn:E2; [apply eqb_spelled in E2; [|reflexivity]; exfalso; eapply H; [|exact E2]; cbn; tauto|].
        destruct (String.eqb (lower key) "categorical") eqn:E3; [apply eqb_spelled in E3; [|reflexivity]; exfalso; eapply H; [|exact E3]; cbn; tauto|]. reflexivity.
  Qed.
  Lemma describes_strings kind b d : describes O kind b d -> strings b.
  Proof.
    destruct 1; match goal with H : no_others b _ |- _ => intros k0 v0 I; destruct (H _ _ I) as (s & w & -> & _); now exists s end.
  Qed.
  Lemma reads_is : forall es ds, (exists os, mapM (read_entry O) es = Ok os /\ somes os = ds) <-> reads O es ds.
  Proof.
    induction es as [|e es IH]; intro ds; cbn [mapM].
    - split; [intros (os & H & <-); injection H as <-; constructor|inversion 1; now exists []].
    - split.
      + intros (os & H & <-). apply bind_ok in H as (o & Ho & H). apply bind_ok in H as (os' & Hos & H). injection H as <-. apply read_entry_ok in Ho as (key & b & more & -> & S & H).
        assert (R : reads O es (somes os')) by (apply IH; now exists os'). destruct o as [d|]; cbn [somes].
        * destruct H as (kind & Sp & D). now apply reads_dim with kind.
        * now apply reads_other.
      + inversion 1 as [|key kind b more d es' ds' Sp D R|key b more es' ds' Sp St R]; subst.
        * apply IH in R as (os & H1 & <-). exists (Some d :: os). split; [|reflexivity]. rewrite (proj2 (read_entry_ok _ (Some d))); [cbn [bind]; now rewrite H1|].
          exists key, b, more. split; [reflexivity|]. split; [eapply describes_strings; exact D|]. now exists kind.
        * apply IH in R as (os & H1 & <-). exists (None :: os). split; [|reflexivity]. rewrite (proj2 (read_entry_ok _ None)); [cbn [bind]; now rewrite H1|].
          exists key, b, more. split; [reflexivity|]. split; [exact St|exact Sp].
  Qed.
  Lemma item_of_app s l : forall (before : body) after, (forall v, ~ In (VStr s, v) before) -> item_of O (before ++ (VStr s, l) :: after) s = Ok l.
  Proof.
    induction before as [|[k v] before IH]; intros after H; cbn [app item_of]; [now rewrite (String.eqb_refl s) || (cbn; now rewrite String.eqb_refl)|].
    destruct (py_eqb O k (VStr s)) eqn:E; [|apply IH; intros w I; apply (H w); now right]. exfalso. destruct k; cbn in E; try discriminate. apply String.eqb_eq in E. subst. apply (H v). now left.
  Qed.
  Theorem c89_entries config ns entries ds : lists config ns entries -> (from_yaml O config ns = Ok ds <-> reads O entries ds).
  Proof.
    intro L. assert (E : from_yaml O config ns = (os <- mapM (read_entry O) entries ;; Ok (somes os))).
    { destruct L; cbn; try reflexivity. unfold from_yaml. cbn [options_of]. rewrite item_of_app by assumption. reflexivity. }
    rewrite E, <- reads_is, bind_ok. split; intros (os & H & Q); exists os; (split; [exact H|]); [now injection Q|now rewrite Q].
  Qed.
End Yaml.
