(** C95: what verbose=True prints. *)
From Coq Require Import String List ZArith Bool Lia.
From Flocq Require Import IEEE754.BinarySingleNaN.
From Verif Require Import Base Num Values Transformers Dimension Space Optimizer BaseLemmas NumLaws ArgLemmas OptSpec OptLemmas OptLemmas2
  OptLemmas4 OptLemmas5 OptProps Minimize MinSpec MinLemmas MinProps CbSpec Verbose VerboseSpec VerboseLemmas.
Import ListNotations.
Open Scope list_scope.
Set Implicit Arguments.

Section VerboseProps.
  Context {N RNG M : Type} (O : numops N) (G : rng_ops N RNG) (W : world N M) (HO : order_laws O).
  Lemma count_pos (x0 : list (point N)) i : count_at x0 i <> 0.
  Proof. unfold count_at. destruct x0; cbn; lia. Qed.
  Lemma kd_eq p n k : kd p n k = if (k <=? p)%Z then Provided else if (k <=? p + n)%Z then Random else Search.
  Proof. reflexivity. Qed.
  Lemma c95 clk m f a g t o' r : minimize O G W m f a g = (t, o', Ok (Some r)) -> m <> MDummy -> m_verbose a = true ->
    exists x0 data, given (m_x0 a) x0 /\
      (let len := Z.of_nat (length x0) in
       let provided := match values_of (m_y0 a) with None => len | Some _ => 0%Z end in
       let described k := if (k <=? provided)%Z then Provided else if (k <=? provided + (n_initial a + len))%Z then Random else Search in
       verbose_screen O clk (length (callbacks_of a)) (n_initial a) (m_ncalls a) x0 (m_y0 a) t = Ok (announces described (m_ncalls a) data)) /\
      map fst data = match x0, values_of (m_y0 a) with
                     | [], _ => map (fun p => [p]) (evals t)
                     | _, None => x0 :: map (fun p => [p]) (skipn (length x0) (evals t))
                     | _, Some _ => [] :: map (fun p => [p]) (evals t)
                     end /\
      forall i pts tm v w, nth_error data i = Some (pts, (tm, v, w)) ->
        ((Z.of_nat i < m_ncalls a)%Z -> tm = nsub O (clk (2 * i + 1)) (clk (2 * i))) /\
        reports O (firstn (match x0 with [] => S i | _ => length x0 + i end) (res_func_vals r)) v w.
  Proof.
    intros H Hm Hv. assert (H0 := H). apply minimize_base in H. destruct H as (a' & g1 & H & E1 & E2 & E3 & E4 & E5 & _ & _).
    assert (Hr := minimize_facts _ _ _ _ _ _ _ H0). destruct Hr as (xf & af & gf & gf' & of & o1r & r0 & Eo & Er & _ & _ & _ & _ & _ & _ & F). injection Er as <-.
    apply base_ok in H. destruct H as (x0 & g' & o0 & o1 & -> & H1 & H2 & H3 & H4 & H5 & _ & H6 & H7). injection Eo as <-.
    rewrite E1, E2, E3, E4 in *.
    assert (Hs : session O G W f (callbacks_of a) (m_ncalls a) x0 o0 (values_of (m_y0 a)) t o1 (Some r)).
    { apply H7. destruct (m_y0 a); cbn [values_of]; [left; constructor|left; constructor|left; constructor|now right]. }
    destruct (make_empty O G W _ _ H2) as (_ & _ & EY & _).
    assert (Hl : match values_of (m_y0 a) with Some l => x0 <> [] -> length l = length x0 | None => True end).
    { inversion Hs as [? ? ? Hx|? ? ? ? ? ? Hx Hl _ _ Hy|? ? ? ? ? ? ? ? Hx Hl _ _ Hy]; subst; destruct (values_of (m_y0 a)) as [l|]; auto; [contradiction|intros _; destruct Hy as (<- & _); exact Hl..]. }
    destruct (session_shows Hs EY) as (rds & Et & Ef & Hsh).
    destruct (get_result_spec (fc_result F)) as (_ & _ & EV & _).
    assert (Sh : forall i rd, nth_error rds i = Some rd -> res_func_vals (snd rd) = firstn (count_at x0 i) (res_func_vals r) /\ res_func_vals (snd rd) <> [] /\
                   (no_nan O (res_func_vals (snd rd)) -> least O (res_func_vals (snd rd)) (res_fun (snd rd)))).
    { intros i rd Hi. destruct (Hsh i rd Hi) as (oi & Hg & Ey & Hc). destruct (get_result_spec Hg) as (_ & _ & EVi & _).
      assert (E : res_func_vals (snd rd) = firstn (count_at x0 i) (res_func_vals r)) by (rewrite EVi, EV, Ey; now rewrite firstn_map).
      split; [exact E|]. split.
      - rewrite E. intro C. apply (f_equal (@length _)) in C. rewrite firstn_length, EV, map_length in C. cbn in C. pose proof (count_pos x0 i). lia.
      - intro Hn. unfold get_result in Hg. injection Hg as Hg. destruct (result_best HO _ _ _ _ _ Hg Hn) as (j & Hj & _ & Hle & _). split.
        + eapply nth_error_In; eauto.
        + intros v Iv. apply In_nth_error in Iv. destruct Iv as [k Hk]. eapply Hle; eauto. }
    assert (Hn : exists n, length (callbacks_of a) = S n).
    { unfold callbacks_of. rewrite Hv, app_length. cbn [length]. eexists. apply Nat.add_1_r. }
    destruct Hn as [n Hn]. rewrite Hn in Et.
    set (ni := if y0_falsy (y0_list (m_y0 a)) then Z.of_nat (length x0) else 0%Z).
    destruct (@screen_rounds N RNG M O clk ni (n_initial a + Z.of_nat (length x0)) (m_ncalls a) n rds) as (data & Ld & Hsc & Hd).
    { intros rd Ir. apply In_nth_error in Ir. destruct Ir as [i Hi]. apply (Sh i rd Hi). }
    assert (Eni : ni = match values_of (m_y0 a) with None => Z.of_nat (length x0) | Some _ => 0%Z end).
    { unfold ni. destruct (m_y0 a) as [|x|[|y l]|]; cbn [y0_list y0_falsy values_of] in *; try reflexivity.
      - destruct x0; [reflexivity|]. specialize (Hl ltac:(discriminate)). discriminate.
      - destruct H6 as [-> |H6]; [reflexivity|congruence]. }
    exists x0, data. split; [exact H1|]. split.
    { cbv zeta. unfold verbose_screen. fold ni. rewrite Hn. replace (S n - 1) with n by lia. rewrite Et, Hsc. unfold announces. rewrite <- Eni. reflexivity. }
    assert (Efst : map fst data = map fst rds).
    { apply nth_ext with (d := []) (d' := []); [now rewrite !map_length|]. intros i Hi. rewrite map_length, Ld in Hi.
      destruct (nth_error rds i) as [rd|] eqn:Erd; [|apply nth_error_None in Erd; lia]. destruct (Hd i rd Erd) as (q & Hq & (D1 & _)).
      rewrite (nth_error_nth (map fst data) i [] (map_nth_error fst i data Hq)), (nth_error_nth (map fst rds) i [] (map_nth_error fst i rds Erd)). exact D1. }
    split; [rewrite Efst; exact Ef|]. intros i pts tm v w Hi.
    destruct (nth_error rds i) as [rd|] eqn:Erd; [|apply nth_error_None in Erd; assert (i < length data) by (apply nth_error_Some; congruence); lia].
    destruct (Hd i rd Erd) as (q & Hq & (D1 & D2 & D3 & D4)). rewrite Hi in Hq. injection Hq as <-. cbn [fst snd] in *. subst w.
    split; [intro Hlt; apply D4; now right|]. destruct (Sh i rd Erd) as (S1 & S2 & S3). fold (count_at x0 i). rewrite <- S1. split; [exact D2|exact S3].
  Qed.
  (** Without given points: the numbers and descriptions are right. *)
  Lemma c95_plain clk m f a g t o' r : minimize O G W m f a g = (t, o', Ok (Some r)) -> m <> MDummy -> m_verbose a = true -> m_x0 a = X0None ->
    exists data,
      verbose_screen O clk (length (callbacks_of a)) (n_initial a) (m_ncalls a) [] (m_y0 a) t =
        Ok (announces (fun k => if (k <=? n_initial a)%Z then Random else Search) (m_ncalls a) (combine (map (fun p => [p]) (evals t)) data)) /\
      length data = length (evals t) /\ (0 < n_initial a)%Z /\
      forall i tm v w, nth_error data i = Some (tm, v, w) ->
        tm = nsub O (clk (2 * i + 1)) (clk (2 * i)) /\ reports O (firstn (S i) (res_func_vals r)) v w.
  Proof.
    intros H Hm Hv Hx. destruct (@c95 clk m f a g t o' r H Hm Hv) as (x0 & data & Hg & Hs & Hf & Hd). rewrite Hx in Hg. inversion Hg; subst x0.
    assert (Hb : (Z.of_nat (length (evals t)) <= m_ncalls a)%Z /\ (0 < n_initial a)%Z).
    { assert (H0 := H). apply minimize_base in H0. destruct H0 as (a' & g1 & H0 & E1 & E2 & E3 & _ & E5 & _). apply base_ok in H0.
      destruct H0 as (x1 & g' & o0 & o1 & _ & H1 & _ & _ & H4 & H5 & _). rewrite E2, Hx in H1. inversion H1; subst x1. specialize (H4 eq_refl).
      destruct (c27_budget _ _ _ _ _ _ _ H) as (x2 & r2 & G2 & _ & [B _] & _). rewrite Hx in G2. inversion G2; subst x2. cbn [length] in B, H5.
      rewrite (E5 Hm) in H4. rewrite (E5 Hm), E1 in H5. destruct (y0_falsy _) in H5; destruct (values_of (m_y0 a)) in B; lia. }
    exists (map snd data). cbn [length] in *. assert (Ec : combine (map (fun p => [p]) (evals t)) (map snd data) = data).
    { rewrite <- Hf. clear. induction data as [|[x y] d IH]; [reflexivity|]. cbn. now rewrite IH. }
    split; [|split; [|split; [tauto|]]].
    - rewrite Hs, Ec. f_equal.
      assert (K : forall k, (1 <= k)%Z -> (if (k <=? match values_of (m_y0 a) with Some _ => 0%Z | None => Z.of_nat 0 end)%Z then Provided
                            else if (k <=? match values_of (m_y0 a) with Some _ => 0%Z | None => Z.of_nat 0 end + (n_initial a + Z.of_nat 0))%Z then Random else Search) =
                  (if (k <=? n_initial a)%Z then Random else Search)).
      { intros k Hk. replace (match values_of (m_y0 a) with Some _ => 0%Z | None => Z.of_nat 0 end) with 0%Z by now destruct (values_of (m_y0 a)).
        destruct (Z.leb_spec k 0); [lia|]. replace (0 + (n_initial a + Z.of_nat 0))%Z with (n_initial a) by lia. reflexivity. }
      assert (C : forall kd kd' nt (d : list (list (point N) * (N * N * N))) k, (forall k, (1 <= k)%Z -> kd k = kd' k) -> (1 <= k)%Z -> chronicle kd nt k d = chronicle kd' nt k d).
      { intros k1 k2 nt. induction d as [|[pts [[tm v] w]] d IH]; intros k E Hk; [reflexivity|]. cbn [chronicle]. rewrite (E k Hk), (E (k + 1)%Z) by lia. rewrite (IH (k + 1)%Z E) by lia. reflexivity. }
      unfold announces. rewrite K by lia. f_equal. apply C; [exact K|lia].
    - rewrite map_length. apply (f_equal (@length _)) in Hf. rewrite !map_length in Hf. exact Hf.
    - intros i tm v w Hi. rewrite nth_error_map in Hi. destruct (nth_error data i) as [[pts q]|] eqn:E; [|discriminate]. cbn in Hi. injection Hi as ->.
      destruct (Hd i pts tm v w E) as [D1 D2]. split; [|exact D2]. apply D1. assert (i < length data) by (apply nth_error_Some; congruence).
      apply (f_equal (@length _)) in Hf. rewrite !map_length in Hf. lia.
  Qed.
End VerboseProps.
