(** Lemmas for C08-C12: distance, validation, equality, lookup, inference. *)
From Coq Require Import String List ZArith Bool Lia Reals Lra DecimalString.
From Verif Require Import Base BaseLemmas Num Values Transformers Dimension Space SpaceSpec CheckDim.
Import ListNotations.
Open Scope list_scope.
Set Implicit Arguments.

(** ** C09 *)
Section Validation.
  Context {N : Type} (O : numops N).
  Notation val := (pyval N).

  Lemma leb_chain_spec lo hi v : leb_chain O lo hi v = Ok true <->
    (py_leb O lo v = Some true /\ py_leb O v hi = Some true).
  Proof.
    unfold leb_chain. destruct (py_leb O lo v) as [[|]|]; [|split; [easy|intros [? ?]; easy]..].
    destruct (py_leb O v hi) as [[|]|]; split; try easy; now intros [_ ?].
  Qed.

  Lemma contains_accepts d v : contains O d v = Ok true <-> accepts O d v.
  Proof.
    destruct d as [r|i|c]; simpl.
    - rewrite leb_chain_spec. split.
      + intros [H1 H2]. destruct v; simpl in *; try discriminate; injection H1 as H1; injection H2 as H2;
          econstructor; simpl; eauto.
      + intros H. inversion H as [r' v' x Hn H1 H2 E1 E2| | |]. subst.
        destruct v; simpl in *; try discriminate; injection Hn as <-; now rewrite H1, H2.
    - rewrite leb_chain_spec. split.
      + intros [H1 H2]. destruct v; simpl in *; try discriminate; injection H1 as H1; injection H2 as H2.
        * apply acc_int. lia.
        * eapply acc_int_num; simpl; eauto. discriminate.
        * eapply acc_int_num; simpl; eauto. discriminate.
      + intros H. inversion H as [|i' z Hz E1 E2|i' v' x Hv Hn H1 H2 E1 E2|]; subst.
        * simpl. split; f_equal; apply Z.leb_le; lia.
        * destruct v as [z|y|b|s|]; simpl in *; try discriminate; [now elim (Hv z)| |];
            injection Hn as <-; now rewrite H1, H2.
    - split.
      + intros H. injection H as H. apply existsb_exists in H. destruct H as [w [Hw E]]. econstructor; eauto.
      + intros H. inversion H as [| | |c' v' w Hw E E1 E2]; subst. f_equal. apply existsb_exists. eauto.
  Qed.

  Lemma contains_defined d v : comparable O d v -> exists b, contains O d v = Ok b.
  Proof.
    destruct d as [r|i|c]; simpl; intros H.
    - destruct v; simpl in *; try (now elim H);
        unfold leb_chain, py_leb; simpl; destruct (nleb _ _ _); eauto.
    - destruct v; simpl in *; try (now elim H);
        unfold leb_chain, py_leb; simpl; destruct (nleb _ _ _) || destruct (Z.leb _ _); eauto.
    - eauto.
  Qed.

  Lemma space_contains_defined dims p : (forall k d v, nth_error dims k = Some d -> nth_error p k = Some v -> comparable O d v) ->
    exists b, space_contains O dims p = Ok b.
  Proof.
    revert p. induction dims as [|d dims IH]; intros [|v p] H; simpl; eauto.
    destruct (contains_defined d v (H 0 d v eq_refl eq_refl)) as [[|] ->]; simpl; eauto.
    apply IH. intros k. exact (H (S k)).
  Qed.

  Lemma space_contains_true dims p : length p = length dims ->
    (space_contains O dims p = Ok true <-> Forall2 (accepts O) dims p).
  Proof.
    revert p. induction dims as [|d dims IH]; intros [|v p] H; simpl in *; try lia.
    - split; [constructor|easy].
    - split.
      + intros E. destruct (contains O d v) as [[|]|] eqn:Ec; try discriminate. simpl in E.
        constructor; [now apply contains_accepts|]. apply IH; [lia|exact E].
      + intros E. inversion E; subst. rewrite (proj2 (contains_accepts d v)) by assumption. simpl.
        apply IH; [lia|assumption].
  Qed.

  Lemma check_point_ok dims p : check_x_in_space O (X1 p) dims = Ok tt <-> Forall2 (accepts O) dims p.
  Proof.
    unfold check_x_in_space. split.
    - intros H. destruct (space_contains O dims p) as [[|]|] eqn:E; try discriminate. simpl in H.
      destruct (Nat.eqb (length p) (length dims)) eqn:El; [|discriminate].
      apply Nat.eqb_eq in El. now apply space_contains_true.
    - intros H. pose proof (Forall2_len H) as Hl.
      rewrite (proj2 (space_contains_true dims p (eq_sym Hl))) by assumption. simpl.
      now rewrite Hl, Nat.eqb_refl.
  Qed.

  Lemma check_point_raises dims p :
    (forall k d v, nth_error dims k = Some d -> nth_error p k = Some v -> comparable O d v) ->
    ~ Forall2 (accepts O) dims p -> check_x_in_space O (X1 p) dims = Raise ValueError.
  Proof.
    intros Hc Hn. pose proof (check_point_ok dims p) as Hk. unfold check_x_in_space in *.
    destruct (space_contains_defined _ _ Hc) as [b E]. rewrite E in *. simpl in *.
    destruct b; simpl in *; [|easy]. destruct (Nat.eqb _ _); simpl in *; [|easy]. now elim Hn; apply Hk.
  Qed.

  Lemma check_batch_ok dims ps :
    check_x_in_space O (X2 ps) dims = Ok tt <-> Forall (fun p => Forall2 (accepts O) dims p) ps.
  Proof.
    unfold check_x_in_space, allM. split.
    - intros H. destruct (mapM (space_contains O dims) ps) as [bs|] eqn:E; try discriminate. simpl in H.
      destruct (forallb (fun b => b) bs) eqn:Ea; [|discriminate]. simpl in H.
      match type of H with (if ?c then _ else _) = _ => destruct c eqn:Ex end; [discriminate|]. clear H.
      revert bs E Ea. induction ps as [|p ps IH]; intros bs E Ea; [constructor|].
      simpl in E. destruct (space_contains O dims p) as [b|] eqn:Ep; [|discriminate]. simpl in E.
      destruct (mapM (space_contains O dims) ps) as [bs'|] eqn:E'; [|discriminate]. simpl in E.
      injection E as <-. simpl in Ea. apply andb_true_iff in Ea. destruct Ea as [-> Ea].
      simpl in Ex. apply orb_false_iff in Ex. destruct Ex as [Ex1 Ex2].
      apply negb_false_iff, Nat.eqb_eq in Ex1.
      constructor; [now apply space_contains_true|]. now apply (IH Ex2 bs').
    - intros H.
      assert (E : mapM (space_contains O dims) ps = Ok (map (fun _ => true) ps)).
      { induction H as [|p ps Hp H IH]; [reflexivity|]. simpl.
        rewrite (proj2 (space_contains_true dims p (eq_sym (Forall2_len Hp)))) by assumption.
        simpl. now rewrite IH. }
      rewrite E. simpl.
      assert (Ea : forallb (fun b => b) (map (fun _ => true) ps) = true)
        by (apply forallb_forall; intros b Hb; apply in_map_iff in Hb; destruct Hb as [? [<- ?]]; reflexivity).
      rewrite Ea. simpl.
      assert (Ex : existsb (fun p => negb (Nat.eqb (length p) (length dims))) ps = false).
      { clear E Ea. induction H as [|p ps Hp H IH]; [reflexivity|]. simpl.
        rewrite IH, (Forall2_len Hp), Nat.eqb_refl. reflexivity. }
      match goal with |- (if ?c then _ else _) = _ => change c with (existsb (fun p => negb (Nat.eqb (length p) (length dims))) ps) end. now rewrite Ex.
  Qed.

  (** *** C11 *)
  Lemma get_from_name s (dims : list (dim N)) : forall i,
    match get_from i dims (GName s) with
    | Some (j, d) => exists k, j = i + k /\ nth_error dims k = Some d /\ dim_name d = Some s /\
        forall k' d', k' < k -> nth_error dims k' = Some d' -> dim_name d' <> Some s
    | None => forall d, In d dims -> dim_name d <> Some s
    end.
  Proof.
    induction dims as [|d dims IH]; intros i; [easy|]. simpl.
    assert (Hrec : dim_name d <> Some s ->
      match get_from (S i) dims (GName s) with
      | Some (j, d0) => exists k, j = i + k /\ nth_error (d :: dims) k = Some d0 /\ dim_name d0 = Some s /\
          forall k' d', k' < k -> nth_error (d :: dims) k' = Some d' -> dim_name d' <> Some s
      | None => forall d0, d = d0 \/ In d0 dims -> dim_name d0 <> Some s
      end).
    { intros Hd. specialize (IH (S i)). destruct (get_from (S i) dims (GName s)) as [[j d0]|].
      - destruct IH as [k [E1 [E2 [E3 E4]]]]. exists (S k). split; [lia|]. split; [exact E2|]. split; [exact E3|].
        intros [|k'] d' Hk Hn; simpl in Hn; [injection Hn as <-; exact Hd|]. apply (E4 k' d'); [lia|exact Hn].
      - intros d0 [<-|Hin]; [exact Hd|]. now apply IH. }
    destruct (dim_name d) as [s'|] eqn:En; [|apply Hrec; congruence].
    destruct (String.eqb_spec s s') as [<-|Hs]; [|apply Hrec; congruence].
    exists 0. split; [lia|]. split; [reflexivity|]. split; [exact En|]. intros k' d' Hk. lia.
  Qed.
  Lemma get_name s (dims : list (dim N)) :
    match space_get dims (GName s) with
    | Some (j, d) => nth_error dims j = Some d /\ dim_name d = Some s /\
        forall k' d', k' < j -> nth_error dims k' = Some d' -> dim_name d' <> Some s
    | None => forall d, In d dims -> dim_name d <> Some s
    end.
  Proof.
    pose proof (get_from_name s dims 0) as H. unfold space_get.
    destruct (get_from 0 dims (GName s)) as [[j d]|]; [|exact H]. destruct H as [k [-> H]]. exact H.
  Qed.
  Lemma get_from_index z (dims : list (dim N)) : forall i, (Z.of_nat i <= z)%Z ->
    get_from i dims (GIndex z) = option_map (fun d => (Z.to_nat z, d)) (nth_error dims (Z.to_nat z - i)).
  Proof.
    induction dims as [|d dims IH]; intros i Hi.
    - simpl. now destruct (Z.to_nat z - i).
    - simpl. destruct (Z.eqb_spec z (Z.of_nat i)) as [->|Hz].
      + rewrite Nat2Z.id, Nat.sub_diag. reflexivity.
      + rewrite IH by lia. replace (Z.to_nat z - i) with (S (Z.to_nat z - S i)) by lia. reflexivity.
  Qed.
  Lemma get_index (dims : list (dim N)) i : 
    space_get dims (GIndex (Z.of_nat i)) = option_map (fun d => (i, d)) (nth_error dims i).
  Proof.
    unfold space_get. rewrite get_from_index by lia. rewrite Nat2Z.id, Nat.sub_0_r. reflexivity.
  Qed.
  Lemma get_negative (dims : list (dim N)) z : (z < 0)%Z -> space_get dims (GIndex z) = None.
  Proof.
    intros Hz. unfold space_get. generalize 0. induction dims as [|d dims IH]; intros i; [reflexivity|].
    simpl. destruct (Z.eqb_spec z (Z.of_nat i)); [lia|]. apply IH.
  Qed.
  Lemma enumerate_from_nth {A} (l : list A) : forall i k,
    nth_error (enumerate_from i l) k = option_map (fun x => (i + k, x)) (nth_error l k).
  Proof.
    induction l as [|x l IH]; intros i [|k]; simpl; try reflexivity.
    - now rewrite Nat.add_0_r.
    - rewrite IH. destruct (nth_error l k); simpl; [|reflexivity]. now rewrite Nat.add_succ_r.
  Qed.
  Lemma names_nth (dims : list (dim N)) k d : nth_error dims k = Some d ->
    nth_error (dimension_names dims) k =
    Some (match dim_name d with Some s => s | None => ("X_" ++ NilZero.string_of_uint (Nat.to_uint k))%string end).
  Proof.
    intros H. unfold dimension_names, enumerate.
    rewrite nth_error_map, enumerate_from_nth, H. reflexivity.
  Qed.
  Lemma names_length (dims : list (dim N)) : length (dimension_names dims) = length dims.
  Proof.
    unfold dimension_names, enumerate. rewrite map_length. generalize 0.
    induction dims; intros i; simpl; [reflexivity|now rewrite IHdims].
  Qed.

  (** *** C12 *)
  Definition kind_ok (k : option tkind) : Prop := k = None \/ k = Some KIdentity \/ k = Some KNormalize.
  Definition kind_of (k : option tkind) : tkind := match k with Some k => k | None => KIdentity end.

  Lemma make_int_ok a b p (base : N) k : (a < b)%Z -> kind_ok k ->
    make_int a b p base k None int64 = Ok (DInt (mkInt a b p base (kind_of k) None int64)).
  Proof.
    intros H Hk. unfold make_int. destruct (Z.leb_spec b a); [lia|].
    destruct Hk as [-> | [-> | ->]]; reflexivity.
  Qed.
  Lemma make_real_ok x y p base k : nleb O y x = false -> kind_ok k ->
    make_real O x y p base k None DT64 = Ok (DReal (mkReal x y p base (kind_of k) None DT64)).
  Proof. intros H Hk. unfold make_real. rewrite H. destruct Hk as [-> | [-> | ->]]; reflexivity. Qed.

  Lemma infer_int2 k a b : kind_ok k -> (a < b)%Z ->
    check_dimension O k (CSeq [VInt a; VInt b]) = Ok (DInt (mkInt a b PUniform (nofZ O 10) (kind_of k) None int64)).
  Proof. intros Hk H. simpl. now apply make_int_ok. Qed.
  Lemma infer_int2_bad k a b : (b <= a)%Z ->
    check_dimension O k (CSeq [VInt a; VInt b]) = Raise ValueError.
  Proof. intros H. simpl. unfold make_int. destruct (Z.leb_spec b a); [reflexivity|lia]. Qed.

  Definition one_float (a b : val) : Prop := exists x, a = VFloat x \/ b = VFloat x.
  Definition plain_num (v : val) : Prop := (exists z, v = VInt z) \/ (exists x, v = VFloat x).

  Lemma infer_real2 k a b x y : kind_ok k -> plain_num a -> plain_num b -> one_float a b ->
    to_num O a = Some x -> to_num O b = Some y -> nleb O y x = false ->
    check_dimension O k (CSeq [a; b]) = Ok (DReal (mkReal x y PUniform (nofZ O 10) (kind_of k) None DT64)).
  Proof.
    intros Hk [[z ->]|[x' ->]] [[z' ->]|[y' ->]] [w Hw] E1 E2 Hlt; simpl in *;
      injection E1 as <-; injection E2 as <-;
      try (destruct Hw; discriminate); simpl; unfold call_real; simpl; now apply make_real_ok.
  Qed.

  Definition prior_str (p : prior) : string :=
    (match p with PUniform => "uniform" | PLogUniform => "log-uniform" end)%string.
  Lemma prior_of_str p : prior_of (@VStr N (prior_str p)) = Some p.
  Proof. now destruct p. Qed.

  Lemma infer_int3 k a b p : kind_ok k -> (a < b)%Z ->
    check_dimension O k (CSeq [VInt a; VInt b; VStr (prior_str p)])
    = Ok (DInt (mkInt a b p (nofZ O 10) (kind_of k) None int64)).
  Proof. intros Hk H. unfold check_dimension. rewrite prior_of_str. simpl. now apply make_int_ok. Qed.
  Lemma infer_real3 k x y p : kind_ok k -> nleb O y x = false ->
    check_dimension O k (CSeq [VFloat x; VFloat y; VStr (prior_str p)])
    = Ok (DReal (mkReal x y p (nofZ O 10) (kind_of k) None DT64)).
  Proof. intros Hk H. unfold check_dimension. rewrite prior_of_str. simpl. now apply make_real_ok. Qed.
  Lemma infer_int4 k a b base : kind_ok k -> (a < b)%Z ->
    check_dimension O k (CSeq [VInt a; VInt b; VStr "log-uniform"; VInt base])
    = Ok (DInt (mkInt a b PLogUniform (nofZ O base) (kind_of k) None int64)).
  Proof. intros Hk H. simpl. now apply make_int_ok. Qed.
  Lemma infer_real4 k x y base : kind_ok k -> nleb O y x = false ->
    check_dimension O k (CSeq [VFloat x; VFloat y; VStr "log-uniform"; VInt base])
    = Ok (DReal (mkReal x y PLogUniform (nofZ O base) (kind_of k) None DT64)).
  Proof. intros Hk H. simpl. now apply make_real_ok. Qed.

  Lemma prior_of_named v p : prior_of (N:=N) v = Some p -> prior_named v p.
  Proof.
    destruct v as [| | |s|]; simpl; try discriminate.
    destruct (String.eqb_spec s "uniform") as [->|]; [intros [= <-]; reflexivity|].
    destruct (String.eqb_spec s "log-uniform") as [->|]; [intros [= <-]; reflexivity|discriminate].
  Qed.
  Lemma some_num a b : existsb (@is_int N) [a; b] = true \/ existsb (@is_real N) [a; b] = true ->
    num_like a = true \/ num_like b = true.
  Proof. destruct a, b; simpl; intuition. Qed.

  Lemma infer_cat k l : l <> [] -> ~ numeric_shorthand l ->
    check_dimension O k (CSeq l)
    = Ok (DCat (mkCat l None (match k with Some k => k | None => KOnehot end) None)).
  Proof.
    intros Hl Hn.
    assert (M : make_cat l None k None
      = Ok (DCat (mkCat l None (match k with Some k => k | None => KOnehot end) None)))
      by (destruct l; [easy|reflexivity]).
    destruct l as [|a [|b [|c [|d [|e l]]]]]; [easy|exact M| | | |exact M]; cbn [check_dimension].
    - destruct (existsb _ _) eqn:E; [exact M|]. elim Hn. simpl in E.
      apply orb_false_iff in E. destruct E as [E1 E2]. apply orb_false_iff in E2. destruct E2 as [E2 _].
      constructor; intros ? ->; discriminate.
    - destruct (prior_of c) as [p|] eqn:Ep; [|exact M].
      destruct (existsb (@is_int N) [a; b]) eqn:E1;
        [elim Hn; apply (@ns3 N a b c p); [apply some_num; now left|now apply prior_of_named]|].
      destruct (existsb (@is_real N) [a; b]) eqn:E2;
        [elim Hn; apply (@ns3 N a b c p); [apply some_num; now right|now apply prior_of_named]|]. exact M.
    - destruct (prior_of c) as [[|]|] eqn:Ep; try exact M.
      destruct (is_int d) eqn:Ei; [|exact M]. destruct (to_num O d) as [bs|] eqn:Et; [|exact M].
      assert (Hd : (exists z, d = VInt z) \/ (exists t, d = VBool t)) by (destruct d; simpl in Ei; try discriminate; eauto).
      destruct (existsb (@is_int N) [a; b]) eqn:E1;
        [elim Hn; apply (@ns4 N a b c d); [apply some_num; now left|now apply prior_of_named|exact Hd]|].
      destruct (existsb (@is_real N) [a; b]) eqn:E2;
        [elim Hn; apply (@ns4 N a b c d); [apply some_num; now right|now apply prior_of_named|exact Hd]|]. exact M.
  Qed.
End Validation.

(** ** C08 over the reals *)
Lemma Rleb_le x y : Rleb' x y = true <-> (x <= y)%R.
Proof. unfold Rleb'. destruct (Rle_dec x y); split; easy. Qed.
Lemma neqb_R x y : neqb Rops x y = true <-> x = y.
Proof.
  unfold neqb. simpl. rewrite andb_true_iff, !Rleb_le. split; [lra|intros ->; lra].
Qed.

Lemma fop_in {A} (R : A -> A -> Prop) (l : list A) : ForallOrdPairs R l -> forall x y, In x l -> In y l ->
  x = y \/ R x y \/ R y x.
Proof. intros H x y Hx Hy. now apply (ForallOrdPairs_In H). Qed.

Section Metric.
  Notation val := (pyval R).

  Lemma in_contains d v : wf_dim Rops d -> in_dim Rops d v -> contains Rops d v = Ok true.
  Proof.
    intros Hw H. apply contains_accepts. inversion H as [r x H1 H2|i z H1|c v' H1]; subst.
    - econstructor; simpl; eauto.
    - now constructor.
    - econstructor; [exact H1|]. destruct Hw as [_ [_ [Hr _]]]. rewrite Forall_forall in Hr. auto.
  Qed.

  (** Distance in one dimension. *)
  Definition gap (d : dim R) (a b : val) (g : R) : Prop := dim_distance Rops d a b = Ok g.

  Lemma gap_ex d a b : wf_dim Rops d -> in_dim Rops d a -> in_dim Rops d b ->
    exists g, gap d a b g /\ gap d b a g /\ (0 <= g)%R /\ (g = 0%R <-> a = b).
  Proof.
    intros Hw Ha Hb. pose proof (in_contains Hw Ha) as Ca. pose proof (in_contains Hw Hb) as Cb.
    unfold gap, dim_distance. rewrite Ca, Cb. cbn [bind].
    inversion Ha as [r x H1 H2|i z H1|c v' H1]; subst; inversion Hb as [r' x' H1' H2'|i' z' H1'|c' v'' H1']; subst.
    - exists (Rabs (x - x')). cbn [to_num nabs nsub Rops]. split; [reflexivity|].
      split; [now rewrite Rabs_minus_sym|]. split; [apply Rabs_pos|].
      split; [intros E|intros [= <-]].
      + f_equal. revert E. unfold Rabs. destruct (Rcase_abs _); lra.
      + rewrite Rminus_diag_eq by reflexivity. apply Rabs_R0.
    - exists (IZR (Z.abs (z - z'))). cbn [nofZ Rops]. split; [reflexivity|].
      split; [now rewrite <- Z.abs_opp, Z.opp_sub_distr, Z.add_comm|].
      split; [apply IZR_le; lia|]. split; [intros E|intros [= <-]].
      + f_equal. apply eq_IZR in E. lia.
      + now rewrite Z.sub_diag.
    - destruct Hw as [_ [_ [Hr Hp]]]. rewrite Forall_forall in Hr.
      destruct (fop_in Hp _ _ H1 H1') as [->|Hd].
      + exists 0%R. rewrite Hr by assumption. cbn [nofZ Rops]. repeat split; lra || easy.
      + assert (E : py_eqb Rops a b = false /\ py_eqb Rops b a = false /\ a <> b).
        { assert (S : forall u v, py_eqb Rops u v = py_eqb Rops v u).
          { intros u v. destruct u, v; simpl; try reflexivity;
              try (unfold neqb; apply andb_comm); try apply Z.eqb_sym; try apply String.eqb_sym.
            now destruct b0, b1. }
          assert (Q : py_eqb Rops a b = false) by (destruct Hd as [Hd|Hd]; [|rewrite S]; exact Hd).
          split; [exact Q|]. split; [now rewrite S|]. intros ->. rewrite Hr in Q by assumption. discriminate. }
        destruct E as [E1 [E2 E3]]. rewrite E1, E2. exists 1%R. cbn [nofZ Rops].
        repeat split; try lra. intros E. now elim E3.
  Qed.

  Lemma gap_triangle d a b c g h k : wf_dim Rops d -> in_dim Rops d a -> in_dim Rops d b -> in_dim Rops d c ->
    gap d a b g -> gap d b c h -> gap d a c k -> (k <= g + h)%R.
  Proof.
    intros Hw Ha Hb Hc.
    destruct (gap_ex Hw Ha Hb) as [g' [Eg [_ [Pg Zg]]]]. destruct (gap_ex Hw Hb Hc) as [h' [Eh [_ [Ph Zh]]]].
    intros G1 G2 G3. unfold gap in *. rewrite Eg in G1. rewrite Eh in G2. injection G1 as <-. injection G2 as <-.
    pose proof (in_contains Hw Ha) as Ca. pose proof (in_contains Hw Hb) as Cb. pose proof (in_contains Hw Hc) as Cc.
    unfold dim_distance in *. rewrite Ca, Cb, Cc in *. cbn [bind] in *.
    inversion Ha; subst; inversion Hb; subst; inversion Hc; subst; cbn [to_num nabs nsub nofZ Rops] in *;
      injection Eg as <-; injection Eh as <-; injection G3 as <-.
    - unfold Rabs. repeat destruct (Rcase_abs _); lra.
    - rewrite <- plus_IZR. apply IZR_le. lia.
    - destruct (py_eqb Rops a c) eqn:Eac; [lra|].
      destruct (py_eqb Rops a b) eqn:Eab; [|lra]. destruct (py_eqb Rops b c) eqn:Ebc; [|lra].
      pose proof (proj1 Zg eq_refl) as E1. pose proof (proj1 Zh eq_refl) as E2. subst b. subst c. congruence.
  Qed.

  Lemma distance_acc dims : forall acc a b,
    distance_from Rops acc dims a b = rmap (Rplus acc) (distance_from Rops 0%R dims a b).
  Proof.
    induction dims as [|d dims IH]; intros acc [|x a] [|y b]; simpl; try (f_equal; lra).
    destruct (dim_distance Rops d x y) as [v|]; [|reflexivity]. cbn [bind].
    rewrite IH, (IH (0 + v)%R). destruct (distance_from Rops 0%R dims a b); [|reflexivity]. simpl. f_equal. lra.
  Qed.
  Lemma distance_cons d dims x a y b : 
    space_distance Rops (d :: dims) (x :: a) (y :: b) =
    (g <- dim_distance Rops d x y ;; rmap (Rplus g) (space_distance Rops dims a b)).
  Proof.
    unfold space_distance. cbn [distance_from]. destruct (dim_distance Rops d x y) as [v|]; [|reflexivity].
    cbn [bind]. rewrite distance_acc. cbn [nofZ Rops nadd]. destruct (distance_from _ _ _ _ _); [|reflexivity].
    simpl. f_equal. lra.
  Qed.

  Lemma distance_metric dims : Forall (wf_dim Rops) dims -> forall a b,
    in_space Rops dims a -> in_space Rops dims b ->
    exists s, space_distance Rops dims a b = Ok s /\ space_distance Rops dims b a = Ok s /\
              (0 <= s)%R /\ (s = 0%R <-> a = b).
  Proof.
    induction 1 as [|d dims Hd H IH]; intros a b Ha Hb; inversion Ha as [|d1 v l1 a' Hv Ha']; subst;
      inversion Hb as [|d2 w l2 b' Hw Hb']; subst.
    - exists 0%R. repeat split; try reflexivity; lra.
    - destruct (IH a' b' Ha' Hb') as [s [E1 [E2 [P Z]]]].
      destruct (gap_ex Hd Hv Hw) as [g [G1 [G2 [Pg Zg]]]]. unfold gap in *.
      exists (g + s)%R. rewrite !distance_cons, G1, G2. cbn [bind]. rewrite E1, E2.
      repeat split; try reflexivity; try lra.
      + intros E. f_equal; [apply Zg|apply Z]; lra.
      + intros [= -> ->]. rewrite (proj2 Zg eq_refl), (proj2 Z eq_refl). lra.
  Qed.

  Lemma distance_triangle dims : Forall (wf_dim Rops) dims -> forall a b c,
    in_space Rops dims a -> in_space Rops dims b -> in_space Rops dims c ->
    forall s t u, space_distance Rops dims a b = Ok s -> space_distance Rops dims b c = Ok t ->
    space_distance Rops dims a c = Ok u -> (u <= s + t)%R.
  Proof.
    induction 1 as [|d dims Hd H IH]; intros a b c Ha Hb Hc s t u;
      inversion Ha as [|d1 v l1 a' Hv Ha']; subst; inversion Hb as [|d2 w l2 b' Hw Hb']; subst;
      inversion Hc as [|d3 x l3 c' Hx Hc']; subst.
    - intros [= <-] [= <-] [= <-]. lra.
    - rewrite !distance_cons.
      destruct (distance_metric H Ha' Hb') as [s' [Es _]].
      destruct (distance_metric H Hb' Hc') as [t' [Et _]].
      destruct (distance_metric H Ha' Hc') as [u' [Eu _]].
      destruct (gap_ex Hd Hv Hw) as [g1 [G1 _]]. destruct (gap_ex Hd Hw Hx) as [g2 [G2 _]].
      destruct (gap_ex Hd Hv Hx) as [g3 [G3 _]].
      pose proof (IH _ _ _ Ha' Hb' Hc' _ _ _ Es Et Eu). pose proof (gap_triangle Hd Hv Hw Hx G1 G2 G3).
      unfold gap in *. rewrite G1, G2, G3. cbn [bind]. rewrite Es, Et, Eu.
      intros [= <-] [= <-] [= <-]. lra.
  Qed.

  (** Points with a coordinate outside are rejected. *)
  Lemma gap_outside d a b : comparable Rops d a -> comparable Rops d b ->
    ~ (accepts Rops d a /\ accepts Rops d b) -> dim_distance Rops d a b = Raise RuntimeError.
  Proof.
    intros Ca Cb H. unfold dim_distance. rewrite <- !contains_accepts in H.
    destruct (contains_defined Rops d a Ca) as [[|] E]; rewrite E in *; [|reflexivity].
    destruct (contains_defined Rops d b Cb) as [[|] E']; rewrite E' in *; [|reflexivity]. now elim H.
  Qed.
  Lemma gap_inside d a b : comparable Rops d a -> comparable Rops d b -> accepts Rops d a -> accepts Rops d b ->
    exists g, dim_distance Rops d a b = Ok g.
  Proof.
    intros Ca Cb Ha Hb. unfold dim_distance.
    rewrite (proj2 (contains_accepts Rops d a) Ha), (proj2 (contains_accepts Rops d b) Hb). cbn [bind].
    destruct d as [r|i|c]; [| |eauto]; simpl in Ca, Cb;
      destruct a; try (now elim Ca); destruct b; try (now elim Cb); simpl; eauto.
  Qed.
  Lemma distance_outside dims : forall a b,
    Forall2 (comparable Rops) dims a -> Forall2 (comparable Rops) dims b ->
    ~ (Forall2 (accepts Rops) dims a /\ Forall2 (accepts Rops) dims b) ->
    space_distance Rops dims a b = Raise RuntimeError.
  Proof.
    induction dims as [|d dims IH]; intros a b Ha Hb H; inversion Ha as [|d1 v l1 a' Hv Ha']; subst;
      inversion Hb as [|d2 w l2 b' Hw Hb']; subst.
    - elim H. split; constructor.
    - rewrite distance_cons.
      assert (D : {contains Rops d v = Ok true /\ contains Rops d w = Ok true} +
                  {~ (contains Rops d v = Ok true /\ contains Rops d w = Ok true)}).
      { destruct (contains Rops d v) as [[|]|]; [|right; intuition discriminate..].
        destruct (contains Rops d w) as [[|]|]; [|right; intuition discriminate..]. now left. }
      destruct D as [D|D]; rewrite !contains_accepts in D; [destruct D as [D1 D2]|].
      + destruct (gap_inside Hv Hw D1 D2) as [g ->]. cbn [bind]. rewrite IH; auto.
        intros [Q1 Q2]. apply H. split; now constructor.
      + rewrite gap_outside by assumption. reflexivity.
  Qed.
End Metric.

(** ** C10 *)
Lemma allclose_R a b : allclose Rops a b = true <-> close a b.
Proof.
  unfold allclose, close. cbn [nleb nabs nsub nadd neps nmul ndiv nofZ Rops]. rewrite Rleb_le.
  unfold Rdiv. now rewrite Rmult_1_l.
Qed.
Lemma list_eqb_Forall2 {A} (f : A -> A -> bool) l : forall m,
  list_eqb f l m = true <-> Forall2 (fun x y => f x y = true) l m.
Proof.
  induction l as [|x l IH]; intros [|y m]; simpl; split; try easy; try (intros H; inversion H; fail).
  - intros H. apply andb_true_iff in H. destruct H. constructor; [assumption|]. now apply IH.
  - intros H. inversion H; subst. apply andb_true_iff. split; [assumption|]. now apply IH.
Qed.
Lemma close_int a b : close (IZR a) (IZR b) -> (Z.abs b < 99999)%Z -> a = b.
Proof.
  unfold close. intros H Hb.
  assert (Hr : (Rabs (IZR b) <= 99998)%R).
  { rewrite <- abs_IZR. apply IZR_le. lia. }
  assert (Hd : (Rabs (IZR a - IZR b) < 1)%R) by lra.
  rewrite <- minus_IZR, <- abs_IZR in Hd. apply lt_IZR in Hd. lia.
Qed.
Lemma dim_eqb_same a b : dim_eqb Rops a b = true -> same_dim a b.
Proof.
  destruct a as [x|x|x], b as [y|y|y]; cbn [dim_eqb]; try discriminate; intros H.
  - rewrite !andb_true_iff, !allclose_R in H. destruct H as [[[H1 H2] H3] H4].
    constructor; auto; [destruct (r_prior x), (r_prior y)|destruct (r_kind x), (r_kind y)]; easy.
  - rewrite andb_true_iff in H. destruct H as [H1 H2]. apply allclose_R in H1, H2.
    constructor; now apply close_int.
  - rewrite andb_true_iff in H. destruct H as [H1 _]. apply list_eqb_Forall2 in H1. now constructor.
Qed.
Lemma space_eqb_same a : forall b, length a = length b -> space_eqb Rops a b = true -> Forall2 same_dim a b.
Proof.
  unfold space_eqb. induction a as [|x a IH]; intros [|y b] Hl H; try discriminate Hl; constructor.
  - simpl in H. apply andb_true_iff in H. now apply dim_eqb_same.
  - simpl in H. apply andb_true_iff in H. apply IH; [now injection Hl|easy].
Qed.
Lemma close_refl x : close x x.
Proof.
  unfold close. rewrite Rminus_diag_eq, Rabs_R0 by reflexivity.
  pose proof (Rabs_pos x). assert (0 <= / 100000 * Rabs x)%R by (apply Rmult_le_pos; lra). lra.
Qed.
Lemma Forall2_diag {A} (R : A -> A -> Prop) l : Forall (fun x => R x x) l -> Forall2 R l l.
Proof. induction 1; constructor; auto. Qed.
Lemma dim_eqb_refl d : wf_dim Rops d -> dim_eqb Rops d d = true.
Proof.
  assert (C : forall x, allclose Rops x x = true) by (intros x; apply allclose_R, close_refl).
  destruct d as [x|x|x]; intros Hw; cbn [dim_eqb].
  - rewrite !C. destruct (r_prior x), (r_kind x); reflexivity.
  - now rewrite !C.
  - destruct Hw as [_ [_ [Hr _]]]. apply andb_true_iff. split; apply list_eqb_Forall2, Forall2_diag.
    + exact Hr.
    + apply Forall_forall. intros p _. apply C.
Qed.
Lemma space_eqb_refl a : Forall (wf_dim Rops) a -> space_eqb Rops a a = true.
Proof.
  unfold space_eqb. induction 1 as [|d a Hd H IH]; [reflexivity|]. simpl. now rewrite dim_eqb_refl, IH.
Qed.
