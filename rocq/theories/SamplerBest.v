(** What the criteria of Lhs choose, and the remaining statements about the generators. *)
From Coq Require Import String List ZArith Bool Reals Lra Lia Permutation Sorting.Sorted.
From Flocq Require Import Core.Core.
From Verif Require Import Base BaseLemmas Num NumLaws NormLaws Values Transformers Dimension Space SpaceSpec DimLemmas
  Sampler SamplerSpec VdcLemmas PrimeLemmas HaltonLemmas WarpLemmas DesignLemmas GridLemmas SamplerProps Samples SpaceProps SpaceProps2 SamplerSamples.
Import ListNotations.
Open Scope nat_scope.
Open Scope list_scope.
Set Implicit Arguments.

Section Best.
  Context {N RNG : Type} (O : numops N) (OL : order_laws O) (G : rng_ops N RNG).

  (** The designs Lhs without a criterion generates one after the other from the same random state. *)
  Fixpoint plain_designs (S : @lhs_stats N) (t : lhs_type) (d n k : nat) (g : RNG) : list (@design N) :=
    match k with
    | 0 => []
    | Datatypes.S k' => match lhs_design O G S t CNone 0 d n g with
                        | (Ok h, g') => h :: plain_designs S t d n k' g'
                        | (Raise _, _) => []
                        end
    end.

  Lemma lt_trans x y z : nltb O x y = true -> nltb O y z = true -> nltb O x z = true.
  Proof. intros A B. apply (lt_le_trans OL) with y; [exact A|now apply (lt_le OL)]. Qed.

  Lemma search_maximin S t d n : forall its b h0 g h g',
    lhs_search O G S t CMaximin d n its (Some b) h0 g = (Ok h, g') ->
    nleb O b b = true ->
    (forall h x, st_min S h = Ok x -> nleb O x x = true) ->
    let cs := plain_designs S t d n its g in
    length cs = its /\
    ((h = h0 /\ forall c x, In c cs -> st_min S c = Ok x -> nleb O x b = true) \/
     (In h cs /\ exists x, st_min S h = Ok x /\ nltb O b x = true /\
        forall c y, In c cs -> st_min S c = Ok y -> nleb O y x = true)).
  Proof.
    induction its as [|its IH]; intros b h0 g h g' H Hb HS; cbn [lhs_search plain_designs lhs_design] in *.
    - injection H as <- _. split; [reflexivity|]. left. split; [reflexivity|]. intros c x [].
    - destruct (lhs_normalized O G t d n g) as [[h1|e] g1]; [|discriminate H]. cbn [lhs_better] in H.
      destruct (st_min S h1) as [x1|e] eqn:E1; [|discriminate H]. cbn [bind] in H. pose proof (HS _ _ E1) as N1.
      destruct (nltb O b x1) eqn:Lt.
      + destruct (IH x1 h1 g1 h g' H N1 HS) as (L & [[-> A]|(I & x & Ex & Lx & A)]).
        * split; [simpl; now rewrite L|]. right. split; [now left|]. exists x1. split; [exact E1|]. split; [exact Lt|].
          intros c y [<-|Hc] Ey; [|now apply A with c]. assert (y = x1) as -> by congruence. exact N1.
        * split; [simpl; now rewrite L|]. right. split; [now right|]. exists x. split; [exact Ex|].
          split; [now apply lt_trans with x1|]. intros c y [<-|Hc] Ey; [|now apply A with c].
          assert (y = x1) as -> by congruence. now apply (lt_le OL).
      + destruct (IH b h0 g1 h g' H Hb HS) as (L & [[-> A]|(I & x & Ex & Lx & A)]).
        * split; [simpl; now rewrite L|]. left. split; [reflexivity|].
          intros c y [<-|Hc] Ey; [|now apply A with c]. assert (y = x1) as -> by congruence. now apply (nlt_le OL).
        * split; [simpl; now rewrite L|]. right. split; [now right|]. exists x. split; [exact Ex|]. split; [exact Lx|].
          intros c y [<-|Hc] Ey; [|now apply A with c]. assert (y = x1) as -> by congruence.
          apply (ol_trans OL) with b; [now apply (nlt_le OL)|now apply (lt_le OL)].
  Qed.
  Lemma design_search S t c its d n g : c <> CNone -> n <> 1 ->
    lhs_design O G S t c its d n g =
    match lhs_normalized O G t d n g with
    | (Raise e, g1) => (Raise e, g1)
    | (Ok h, g1) => match c with
                    | CCorrelation | CRatio => lhs_search O G S t c d n its None h g1
                    | CMaximin => lhs_search O G S t c d n its (Some (nofZ O 0)) h g1
                    | _ => (Raise ValueError, g1)
                    end
    end.
  Proof. intros Hc Hn. unfold lhs_design. apply Nat.eqb_neq in Hn. rewrite Hn. now destruct c. Qed.

  Lemma c65_maximin S t its d n g h g' : n <> 1 -> (forall h x, st_min S h = Ok x -> nleb O (nofZ O 0) x = true) ->
    lhs_design O G S t CMaximin its d n g = (Ok h, g') ->
    exists first rest, plain_designs S t d n (Datatypes.S its) g = first :: rest /\ length rest = its /\
      In h (first :: rest) /\
      forall c x y, In c rest -> st_min S h = Ok x -> st_min S c = Ok y -> nleb O y x = true.
  Proof.
    intros Hn HS H. rewrite design_search in H by (discriminate || exact Hn). cbn [plain_designs lhs_design].
    destruct (lhs_normalized O G t d n g) as [[h0|e] g1]; [|discriminate H].
    destruct (@search_maximin S t d n its (nofZ O 0) h0 g1 h g' H) as (L & C).
    - apply (ol_Z OL). lia.
    - intros h1 x E. apply (ol_num_r OL) with (nofZ O 0). now apply (HS h1).
    - exists h0, (plain_designs S t d n its g1). split; [reflexivity|]. split; [exact L|].
      destruct C as [[-> A]|(I & x & Ex & _ & A)].
      + split; [now left|]. intros c x y Hc Ex Ey. apply (ol_trans OL) with (nofZ O 0); [now apply A with c|now apply HS with h0].
      + split; [now right|]. intros c x' y Hc Ex' Ey. assert (x' = x) as -> by congruence. now apply A with c.
  Qed.

  Lemma search_ratio S t d n : forall its b h0 g h g',
    lhs_search O G S t CRatio d n its b h0 g = (Ok h, g') ->
    (forall b', b = Some b' -> nleb O b' b' = true) ->
    (forall h x, st_ratio S h = Ok x -> nleb O x x = true) ->
    let cs := plain_designs S t d n its g in
    length cs = its /\
    ((h = h0 /\ (b = None -> its = 0) /\ forall c x b', In c cs -> b = Some b' -> st_ratio S c = Ok x -> nleb O b' x = true) \/
     (In h cs /\ exists x, st_ratio S h = Ok x /\ (forall b', b = Some b' -> nltb O x b' = true) /\
        forall c y, In c cs -> st_ratio S c = Ok y -> nleb O x y = true)).
  Proof.
    induction its as [|its IH]; intros b h0 g h g' H Hb HS; cbn [lhs_search plain_designs lhs_design] in *.
    - injection H as <- _. split; [reflexivity|]. left. split; [reflexivity|]. split; [reflexivity|]. intros c x b' [].
    - destruct (lhs_normalized O G t d n g) as [[h1|e] g1]; [|discriminate H]. cbn [lhs_better] in H.
      destruct (st_ratio S h1) as [x1|e] eqn:E1; [|discriminate H]. cbn [bind] in H. pose proof (HS _ _ E1) as N1.
      assert (T : forall b0, lhs_search O G S t CRatio d n its (Some x1) h1 g1 = (Ok h, g') ->
        (forall b', b0 = Some b' -> nltb O x1 b' = true) ->
        length (h1 :: plain_designs S t d n its g1) = Datatypes.S its /\
        ((h = h0 /\ (b0 = None -> Datatypes.S its = 0) /\ forall c x b', In c (h1 :: plain_designs S t d n its g1) -> b0 = Some b' -> st_ratio S c = Ok x -> nleb O b' x = true) \/
         (In h (h1 :: plain_designs S t d n its g1) /\ exists x, st_ratio S h = Ok x /\ (forall b', b0 = Some b' -> nltb O x b' = true) /\
            forall c y, In c (h1 :: plain_designs S t d n its g1) -> st_ratio S c = Ok y -> nleb O x y = true))).
      { intros b0 Hs Hlt. destruct (IH (Some x1) h1 g1 h g' Hs ltac:(intros b' [= <-]; exact N1) HS) as (L & [(-> & _ & A)|(I & x & Ex & Lx & A)]).
        * split; [simpl; now rewrite L|]. right. split; [now left|]. exists x1. split; [exact E1|]. split; [exact Hlt|].
          intros c y [<-|Hc] Ey; [|now apply A with c]. assert (y = x1) as -> by congruence. exact N1.
        * split; [simpl; now rewrite L|]. right. split; [now right|]. exists x. split; [exact Ex|].
          split; [intros b' Eb; apply lt_trans with x1; [now apply Lx|now apply Hlt]|].
          intros c y [<-|Hc] Ey; [|now apply A with c]. assert (y = x1) as -> by congruence. apply (lt_le OL), Lx. reflexivity. }
      destruct b as [b|].
      + destruct (nltb O x1 b) eqn:Lt.
        * apply (T (Some b)); [exact H|]. intros b' [= <-]. exact Lt.
        * destruct (IH (Some b) h0 g1 h g' H Hb HS) as (L & [(-> & Z0 & A)|(I & x & Ex & Lx & A)]).
          -- split; [simpl; now rewrite L|]. left. split; [reflexivity|]. split; [discriminate|].
             intros c y b' [<-|Hc] Eb Ey; [|now apply A with c]. assert (y = x1) as -> by congruence. injection Eb as <-.
             apply (nlt_le OL); auto.
          -- split; [simpl; now rewrite L|]. right. split; [now right|]. exists x. split; [exact Ex|]. split; [exact Lx|].
             intros c y [<-|Hc] Ey; [|now apply A with c]. assert (y = x1) as -> by congruence.
             apply (ol_trans OL) with b; [apply (lt_le OL); auto|apply (nlt_le OL); auto].
      + apply (T None); [exact H|]. discriminate.
  Qed.
  Lemma c65_ratio S t its d n g h g' : n <> 1 -> 0 < its -> (forall h x, st_ratio S h = Ok x -> nleb O x x = true) ->
    lhs_design O G S t CRatio its d n g = (Ok h, g') ->
    exists first rest, plain_designs S t d n (Datatypes.S its) g = first :: rest /\ length rest = its /\
      In h rest /\
      forall c x y, In c rest -> st_ratio S h = Ok x -> st_ratio S c = Ok y -> nleb O x y = true.
  Proof.
    intros Hn Hi HS H. rewrite design_search in H by (discriminate || exact Hn). cbn [plain_designs lhs_design].
    destruct (lhs_normalized O G t d n g) as [[h0|e] g1]; [|discriminate H].
    destruct (@search_ratio S t d n its None h0 g1 h g' H ltac:(discriminate) HS) as (L & C).
    exists h0, (plain_designs S t d n its g1). split; [reflexivity|]. split; [exact L|].
    destruct C as [(-> & A & _)|(I & x & Ex & _ & A)]; [specialize (A eq_refl); lia|].
    split; [exact I|]. intros c x' y Hc Ex' Ey. assert (x' = x) as -> by congruence. now apply A with c.
  Qed.
End Best.

(** ** Statements *)
Definition vdc_range : forall b n, (2 <= b)%Z -> (0 <= n)%Z -> exists x, vdc Rops b n = Ok x /\ (0 <= x < 1)%R.
Proof. intros b n Hb Hn. exists (phi b n). split; [apply vdc_phi; lia|]. apply phi_bounds. lia. Qed.
Lemma vdc_distinct : forall b m n x, (2 <= b)%Z -> (0 <= m)%Z -> (0 <= n)%Z -> vdc Rops b m = Ok x -> vdc Rops b n = Ok x -> m = n.
Proof.
  intros b m n x Hb Hm Hn A B. rewrite vdc_phi in A, B by lia. apply (@phi_inj b ltac:(lia)); [exact Hm|exact Hn|congruence].
Qed.
Lemma vdc_strata : forall b k s j, (2 <= b)%Z -> (0 <= s)%Z -> (0 <= j < b ^ Z.of_nat k)%Z ->
  exists! n, (s <= n < s + b ^ Z.of_nat k)%Z /\ exists x, vdc Rops b n = Ok x /\ in_part (b ^ Z.of_nat k) j x.
Proof.
  intros b k s j Hb Hs Hj. destruct (@phi_strata b ltac:(lia) k s j Hs Hj) as (n & Hn & Hi & U). exists n. split.
  - split; [exact Hn|]. exists (phi b n). split; [apply vdc_phi; lia|exact Hi].
  - intros m [Hm (x & Ex & Ix)]. rewrite vdc_phi in Ex by lia. injection Ex as <-. symmetry. apply U; assumption.
Qed.

Lemma c45_default : forall n given, match given with None => True | Some l => length l < n end ->
  exists ps, halton_primes given n = Ok ps /\ first_primes n ps.
Proof.
  intros n given Hg. destruct (halton_primes_spec _ _ Hg) as (ps & E & L & S1 & P & D). exists ps. split; [exact E|].
  split; [exact L|]. split; [exact S1|]. split; [exact P|exact D].
Qed.

Section Halton.
  Context {RNG : Type} (G : rng_ops R RNG) (Gok : rng_ok Rops G).
  Lemma c64_boxes a d n g : 0 < d -> match h_primes a with None => True | Some l => length l < d end -> skip_counts a ->
    exists ps h, first_primes d ps /\ fst (halton_design Rops G a d n g) = Ok h /\ length h = n /\
      forall ks js s, is_box ps ks js -> (Z.of_nat s + box_count ps ks <= Z.of_nat n)%Z ->
        one_in_stretch h s (Z.to_nat (box_count ps ks)) (in_box ps ks js).
  Proof.
    intros Hd Hg Ha. destruct (halton_primes_spec _ _ Hg) as (ps & E & L & S1 & P & D).
    unfold halton_design. rewrite E. destruct (@halton_skip_ok _ G a ps g Gok Ha) as (s & g' & Es & Hs).
    { intros ->. simpl in L. lia. }
    rewrite Es. cbn [bind fst]. exists ps, (rows_of ps s n). split; [exact (conj L (conj S1 (conj P D)))|].
    split; [apply halton_rows_spec; [|exact Hs]; intros p Hp; now destruct (P p Hp)|].
    split; [unfold rows_of; now rewrite map_length, seq_length|].
    intros ks js s0 Hb Hn. apply rows_boxes; auto. now apply sorted_nodup.
  Qed.
End Halton.

(** ** The transformers are put back *)
Section Back.
  Context {N RNG : Type} (O : numops N) (G : rng_ops N RNG).
  Lemma c48_halton a dims n g dims' pts : Forall (wf_dim O) dims -> halton_generate O G a dims n g = (dims', Ok pts) -> dims' = dims.
  Proof. intros Hw H. eapply warp_design_back; [exact Hw|exact H]. Qed.
  Lemma c48_hammersly a dims n g dims' pts : Forall (wf_dim O) dims -> hammersly_generate O G a dims n g = (dims', Ok pts) -> dims' = dims.
  Proof. intros Hw H. eapply warp_design_back; [exact Hw|exact H]. Qed.
  Lemma c48_lhs S t c its dims n g dims' pts : Forall (wf_dim O) dims -> lhs_generate O G S t c its dims n g = (dims', Ok pts) -> dims' = dims.
  Proof. intros Hw H. eapply warp_design_back; [exact Hw|exact H]. Qed.
  Lemma c48_grid a dims n g dims' pts : Forall (wf_dim O) dims -> grid_generate O G a dims n g = (dims', Ok pts) -> dims' = dims.
  Proof. intros Hw H. eapply warp_design_back; [exact Hw|exact H]. Qed.
End Back.

(** ** Concrete cases *)
Definition no_stats : @lhs_stats float := Build_lhs_stats (fun _ => Ok (None, fofZ 0)) (fun _ => Ok (fofZ 1)) (fun _ => Ok (fofZ 1)).
Definition first_stats : @lhs_stats float :=
  let first h := match h with (x :: _) :: _ => x | _ => fofZ 0 end in
  Build_lhs_stats (fun h => Ok (Some (first h), first h)) (fun h => Ok (first h)) (fun h => Ok (first h)).
Lemma c42_sample : rng_ok Rops GR /\ spaceR <> [] /\ Forall plain spaceR /\ bases_ok hal (length spaceR) /\ skips_ok hal /\
  grid_fits (mkGrid BExclude false BOnly) (length spaceR) 20.
Proof.
  split; [exact GR_ok|]. split; [discriminate|]. split; [exact spaceR_plain|]. split; [exact I|]. split; [now left|].
  split; [now vm_compute|]. intros _. now vm_compute.
Qed.
Lemma c42_run :
  show (halton_generate O0 G0 hal space4 3 1) =
  Ok [[VFloat (SpecFloat.S754_finite true 5629499534213120 (-50)); VInt (-3); VStr "a"; VInt 3];
      [VFloat (SpecFloat.S754_finite false 5629499534213120 (-51)); VInt 2; VStr "a"; VInt 3];
      [VFloat (SpecFloat.S754_finite true 5629499534213120 (-52)); VInt 7; VStr "b"; VInt 3]]%string /\
  show (lhs_generate O0 G0 no_stats LCentered CNone 3 [int1 KIdentity; cat3 KOnehot] 4 1) =
  Ok [[VInt 10; VStr "c"]; [VInt 6; VStr "b"]; [VInt 3; VStr "b"]; [VInt (-1); VStr "a"]]%string /\
  show (grid_generate O0 G0 (mkGrid BExclude false BOnly) [int1 KIdentity; cat3 KOnehot] 6 1) =
  Ok [[VInt 8; VStr "c"]; [VInt 8; VStr "b"]; [VInt 8; VStr "a"]; [VInt 4; VStr "c"]; [VInt 4; VStr "b"]; [VInt 4; VStr "a"]]%string.
Proof. split; [now vm_compute|]. split; now vm_compute. Qed.
Lemma c45_sample : halton_primes None 10 = Ok [2; 3; 5; 7; 11; 13; 17; 19; 23; 29].
Proof. now vm_compute. Qed.
Lemma c45_longer : halton_primes (Some [2; 3; 5]) 2 = Raise AssertionError.
Proof. reflexivity. Qed.
(** One dimension: 7 points where 10 are asked for. *)
Lemma c42_short : exists h, grid_design O0 G0 (mkGrid BExclude false BOnly) 1 10 1 = Ok h /\ length h = 7.
Proof.
  assert (H : rmap (@length _) (grid_design O0 G0 (mkGrid BExclude false BOnly) 1 10 1) = Ok 7) by now vm_compute.
  destruct (grid_design O0 G0 (mkGrid BExclude false BOnly) 1 10 1) as [h|e]; [|discriminate H]. exists h. split; [reflexivity|].
  now injection H as ->.
Qed.
Lemma c42_memory : grid_design O0 G0 (mkGrid BExclude false BOnly) 26 4 1 = Raise MemoryError.
Proof. now vm_compute. Qed.
(** Two of the five points are the same when both layouts include the border. *)
Lemma c47_repeats : exists h r, grid_design O0 G0 (mkGrid BInclude true BInclude) 2 5 1 = Ok h /\ length h = 5 /\
  nth_error h 0 = Some r /\ nth_error h 4 = Some r.
Proof.
  set (e := grid_design O0 G0 (mkGrid BInclude true BInclude) 2 5 1).
  assert (H : numR e = Ok [[SpecFloat.S754_zero false; SpecFloat.S754_zero false];
    [SpecFloat.S754_finite false 4503599627370496 (-52); SpecFloat.S754_finite false 4503599627370496 (-52)];
    [SpecFloat.S754_finite false 4503599627370496 (-52); SpecFloat.S754_zero false];
    [SpecFloat.S754_zero false; SpecFloat.S754_finite false 4503599627370496 (-52)];
    [SpecFloat.S754_zero false; SpecFloat.S754_zero false]]) by now vm_compute.
  destruct e as [h|x]; [|discriminate H]. cbn [numR rmap] in H. assert (H' := f_equal (fun r => match r with Ok l => l | Raise _ => [] end) H).
  cbv beta iota in H'. clear H. exists h, [BinarySingleNaN.B754_zero false; BinarySingleNaN.B754_zero false].
  assert (Z : forall x : float, BinarySingleNaN.B2SF x = SpecFloat.S754_zero false -> x = BinarySingleNaN.B754_zero false).
  { intros x E. destruct x; try discriminate E. now injection E as ->. }
  assert (Z2 : forall r, frow r = [SpecFloat.S754_zero false; SpecFloat.S754_zero false] ->
    r = [BinarySingleNaN.B754_zero false; BinarySingleNaN.B754_zero false]).
  { intros [|x [|y [|]]] E; try discriminate E. cbn [frow map] in E. injection E as E1 E2. now rewrite (Z _ E1), (Z _ E2). }
  destruct h as [|r0 [|r1 [|r2 [|r3 [|r4 [|]]]]]]; try discriminate H'. cbn [map] in H'. injection H' as E0 _ _ _ E4.
  rewrite (Z2 _ E0), (Z2 _ E4). repeat split.
Qed.
(** After an exception the dimensions stay normalised. *)
Lemma c48_exception : exists dims' e, halton_generate O0 G0 (mkHalton 0 0 (Some [2; 3; 5])) [real1 KIdentity; int1 KIdentity] 3 1 = (dims', Raise e) /\
  get_kinds dims' = [KNormalize; KNormalize] /\ Forall (wf_dim O0) [real1 KIdentity; int1 KIdentity].
Proof.
  do 2 eexists. split; [reflexivity|]. split; [reflexivity|]. constructor; [apply wf_real1; auto|]. constructor; [apply wf_int1; auto|constructor].
Qed.
