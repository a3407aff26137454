(** Converse of C30: what works by hand works with base_minimize, with the same outcome. *)
From Coq Require Import String List ZArith Bool Lia.
From Flocq Require Import IEEE754.BinarySingleNaN.
From Verif Require Import Base Num Values Transformers Dimension Space Optimizer NumLaws BaseLemmas SpaceSpec MetricLemmas
  SampleLemmas SpaceProps2 OptSpec OptLemmas OptLemmas2 OptLemmas3 OptLemmas4 OptLemmas5 OptProps OptBatch
  Minimize MinSpec MinLemmas MinProps MinDummy.
Import ListNotations.
Open Scope list_scope.
Set Implicit Arguments.

Section MinConv.
  Context {N RNG M : Type} (O : numops N) (G : rng_ops N RNG) (W : world N M).
  Notation state := (opt N RNG M).
  Notation result := (result N RNG M).
  Notation event := (event N RNG M).
  Notation callback := (callback N RNG M).

  Lemma callbacks_pass (cbs : list callback) seen r (o : state) t : answers cbs -> never_stops cbs ->
    exists t', eval_callbacks cbs 0 seen r false (o, t) = ((o, t'), Ok false).
  Proof.
    intros Ha Hn. destruct (callbacks_total Ha 0 seen r false o t) as [b E].
    destruct (callbacks_ok _ _ _ _ _ _ _ E) as [_ Hb]. destruct b; [|eauto].
    destruct (proj1 Hb eq_refl) as [K|K]; [discriminate|]. now apply Hn in K.
  Qed.
  Lemma loop_conv f cbs k n o o' res : by_hand O G W f k n o o' res -> answers cbs -> never_stops cbs ->
    forall seen last t, exists t', min_loop O G W f cbs k n seen last (o, t) =
      ((o', t'), Ok (match res with Some r => Some r | None => last end)).
  Proof.
    induction 1 as [k o|k n o o1 o2 o3 p y r r' Ha Hf Ht Hh IH]; intros Hans Hn seen last t; [now exists t|].
    cbn [min_loop]. rewrite ask_none in Ha. unfold mthen at 1, onopt at 1. cbn [fst snd].
    destruct (ask1 O G o) as [oa [q|e]] eqn:E1; [|discriminate Ha]. injection Ha as -> ->.
    unfold mthen at 1, emit. cbn [fst snd]. unfold mthen at 1, mlift. rewrite Hf.
    unfold mthen at 1, onopt. cbn [fst snd]. rewrite Ht. unfold mthen at 1.
    destruct (@callbacks_pass cbs seen r o2 (t ++ [EEval p]) Hans Hn) as [t1 ->].
    destruct (IH Hans Hn (seen ++ [r]) (Some r) t1) as [t' ->]. exists t'. now destruct r'.
  Qed.
  Lemma points_conv f : forall xs ys k (o : state) t, length ys = length xs ->
    (forall i x, nth_error xs i = Some x -> exists y, nth_error ys i = Some y /\ f (k + i) x = Ok y) ->
    exists t', eval_points f k xs (o, t) = ((o, t'), Ok ys).
  Proof.
    induction xs as [|x xs IH]; intros [|y ys] k o t Hl Hv; try discriminate; [now exists t|].
    cbn [eval_points]. unfold mthen at 1, emit. cbn [fst snd]. unfold mthen at 1, mlift.
    destruct (Hv 0 x eq_refl) as (y' & E & Hf). injection E as <-. rewrite Nat.add_0_r in Hf. rewrite Hf.
    unfold mthen at 1. destruct (IH ys (S k) o (t ++ [EEval x])) as [t' ->].
    - cbn in Hl. congruence.
    - intros i x' Hx. destruct (Hv (S i) x' Hx) as (y'' & E & Hf'). exists y''. split; [exact E|]. now replace (S k + i) with (k + S i) by lia.
    - exists t'. reflexivity.
  Qed.

  Lemma given_items x0a x0 : given x0a x0 -> x0_items x0a = Ok (map (@IPt N) x0).
  Proof.
    destruct 1 as [|b vs Hne|ps Hne]; [easy| |].
    - destruct vs as [|v vs]; [easy|]. cbn [map x0_items]. replace (IVal v :: map IVal vs) with (map (@IVal N) (v :: vs)) by easy.
      assert (E : forall l : list (pyval N), mapM as_value (map IVal l) = Ok l) by (induction l as [|a l IH]; [easy|]; cbn in *; now rewrite IH).
      rewrite E. now destruct b.
    - now destruct ps.
  Qed.

  Lemma c30_conv f a g x0 g' o0 o1 r :
    given (m_x0 a) x0 -> (x0 = [] \/ m_y0 a <> Y0Other) ->
    (x0 = [] -> (0 < n_initial a)%Z) ->
    (n_initial a + match values_of (m_y0 a) with Some (_ :: _) => 0 | _ => Z.of_nat (length x0) end <= m_ncalls a)%Z ->
    answers (callbacks_of a) -> never_stops (callbacks_of a) -> match m_callback a with CBOther => False | _ => True end ->
    make_optimizer O G W (set_n0 (n_initial a + Z.of_nat (length x0)) (m_opt a)) g = (g', Ok o0) ->
    Forall (fun p => length p = length (c_dims (o_cfg o0))) x0 ->
    hand_session O G W f a x0 o0 o1 r ->
    exists t, base_minimize O G W f a g = (t, Some o1, Ok (Some r)).
  Proof.
    intros Hg Hy Hpos Hle Hans Hn Hcb Hm Hlen Hh. unfold base_minimize.
    rewrite (given_items Hg). fold (n_initial a).
    replace ((n_initial a <=? 0)%Z && is_nil (map IPt x0)) with false.
    2:{ symmetry. apply andb_false_iff. destruct x0 as [|p x0]; [left|right; reflexivity]. apply Z.leb_gt. auto. }
    rewrite map_length.
    replace (m_ncalls a <? _)%Z with false.
    2:{ symmetry. apply Z.ltb_ge. destruct (m_y0 a) as [|x|[|y l]|]; cbn in *; lia. }
    rewrite Hm.
    assert (Ep : mapM as_point (map IPt x0) = Ok x0) by (clear; induction x0 as [|p l IH]; [easy|]; cbn in *; now rewrite IH).
    rewrite Ep.
    replace (forallb _ x0) with true.
    2:{ symmetry. apply forallb_forall. intros p Hp. apply Nat.eqb_eq. rewrite Forall_forall in Hlen. auto. }
    cbn [negb].
    assert (Hck : exists cbs, check_callback (m_callback a) = Ok cbs /\
              (if m_verbose a then cbs ++ [verbose_callback] else cbs) = callbacks_of a).
    { unfold callbacks_of, check_callback. destruct (m_callback a); try easy; eexists; (split; [reflexivity|]);
        destruct (m_verbose a); cbn; rewrite ?app_nil_r; auto. }
    destruct Hck as (cbs & Eck & Ecbs). rewrite Eck, Ecbs.
    destruct x0 as [|p x0].
    - cbn [hand_session min_body] in *. destruct (loop_conv Hh Hans Hn [] None []) as [t' ->]. eauto.
    - cbn [hand_session] in Hh. destruct Hh as (ys & k & o2 & r2 & last & Ht & Hl & Hv & Hb & ->).
      cbn [min_body]. set (X := p :: x0) in *.
      assert (E : exists t', (match y0_list (m_y0 a) with
               | Y0None => mthen (eval_points f 0 X) (fun ys => mret (ys, length ys))
               | Y0Seq ys => mret (ys, 0)
               | _ => mlift (Raise ValueError)
               end) (o0, []) = ((o0, t'), Ok (ys, k))).
      { destruct (m_y0 a) as [|x|l|] eqn:Ey; cbn [y0_list values_of] in *.
        - destruct Hv as [-> Hv]. destruct (@points_conv f X ys 0 o0 [] Hl Hv) as [t' E]. exists t'.
          unfold mthen. rewrite E. unfold mret. now rewrite Hl.
        - destruct Hv as [-> ->]. now exists [].
        - destruct Hv as [-> ->]. now exists [].
        - destruct Hy as [|]; easy. }
      destruct E as [t' E]. unfold mthen at 1. rewrite E. rewrite Hl, Nat.eqb_refl. cbn [negb].
      unfold mthen at 1, onopt. cbn [fst snd]. rewrite Ht. unfold mthen at 1.
      destruct (@callbacks_pass (callbacks_of a) [] r2 o2 t' Hans Hn) as [t1 ->].
      destruct (loop_conv Hb Hans Hn [r2] (Some r2) t1) as [t2 ->]. exists t2. now destruct last.
  Qed.
End MinConv.

(** *** dummy_minimize in float64 arithmetic *)
Lemma c31_F64 L RNG (G : rng_ops float RNG) M (W : world float M) f a g x0 :
  rng_ok (F64 L) G -> pow_ok L -> (forall n, (1 <= n <= m_ncalls a + Z.of_nat (length x0))%Z -> gen_ok (F64 L) W (a_dims (m_opt a)) n) ->
  a_dims (m_opt a) <> [] -> Forall (samplable L) (a_dims (m_opt a)) ->
  (a_gen (m_opt a) = true -> forall n seed, (1 <= n <= m_ncalls a + Z.of_nat (length x0))%Z -> is_ok (w_generate W (a_dims (m_opt a)) n seed) = true) ->
  good_input (F64 L) (a_dims (m_opt a)) (m_x0 a) (m_y0 a) x0 -> (0 <= m_ncalls a)%Z -> (x0 = [] -> (0 < m_ncalls a)%Z) ->
  (m_y0 a = Y0None -> (Z.of_nat (length x0) <= m_ncalls a)%Z) ->
  numeric (F64 L) f (a_dims (m_opt a)) -> answers (callbacks_of a) -> match m_callback a with CBOther => False | _ => True end ->
  exists t o r, dummy_minimize (F64 L) G W f a g = (t, Some o, Ok (Some r)).
Proof.
  intros Hg Hp Hgen Hd Hs Hgo Hi Hn Hx Hy Hf Hans Hcb.
  apply dummy_total with x0; auto.
  - now apply rvs_ok_F64.
  - destruct (a_gen (m_opt a)); [now apply Hgo|]. intros g0.
    destruct (@space_samples L RNG G Hg Hp _ 1 g0 Hd Hs) as (P & g' & E & Hl & _). exists P, g'. split; [exact E|]. intros ->. discriminate.
Qed.
