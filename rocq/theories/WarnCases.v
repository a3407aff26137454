(** C103: theorems in terms of ask, and cases. *)
From Coq Require Import String List ZArith Bool Lia Reals Lra.
From Flocq Require Import IEEE754.BinarySingleNaN.
From Verif Require Import Base Num Values Dimension Space Optimizer NumLaws BaseLemmas SpaceSpec MetricLemmas MetricSpec
  Samples SpaceProps SpaceProps2 OptSpec OptLemmas2 OptLemmas4 OptLemmas5 OptBatch OptSamples CampaignSpec Campaign CampaignCases GaussLemmas Warn WarnSpec WarnLemmas.
From Verif Require SamplerSamples.
Import ListNotations.
Close Scope R_scope.
Open Scope list_scope.

Section Ask.
  Context {N RNG M : Type} (O : numops N) (G : rng_ops N RNG) (W : world N M).
  Lemma asked_one s (o o' : opt N RNG M) p : ask O G W NPNone s o = (o', Ok (A1pt p)) -> ask1 O G o = (o', Ok p).
  Proof. unfold ask, andthen, ret. destruct (ask1 O G o) as [u [v|x]]; [|discriminate]. intro H. now injection H as <- <-. Qed.
End Ask.
Section R.
  Context {RNG M : Type} (G : rng_ops R RNG) (W : world R M) (need : list (yval R) -> Prop).
  Context (Gok : rng_ok Rops G) (Nmono : forall l l', need l -> need (l ++ l')).
  Lemma c103 s (o o' : opt R RNG M) p : campaign G W need o -> ask Rops G W NPNone s o = (o', Ok (A1pt p)) -> (o_left o <= 0)%Z -> c_est (o_cfg o) <> None ->
    (ask_warns Rops o = true <-> exists q D, In (X1 q) (o_Xi o) /\ away (c_dims (o_cfg o)) p q D /\ (D <= / 100000000)%R) /\
    (In (X1 p) (o_Xi o) -> ask_warns Rops o = true) /\
    (Forall discrete (c_dims (o_cfg o)) -> ask_warns Rops o = true -> In (X1 p) (o_Xi o)).
  Proof.
    intros C E Hl He. apply asked_one in E. split; [exact (c103_near Gok Nmono C E Hl He)|]. split; [exact (c103_again Gok Nmono C E Hl He)|]. intros F. apply (c103_discrete Gok Nmono C E Hl He F).
  Qed.
End R.
Lemma c103_float_ask L {RNG M} (G : rng_ops float RNG) (W : world float M) s (o o' : opt float RNG M) p P : ask (F64 L) G W NPNone s o = (o', Ok (A1pt p)) -> (o_left o <= 0)%Z -> c_est (o_cfg o) <> None -> o_Xi o = map (@X1 float) P ->
    Forall (wf_dim (F64 L)) (c_dims (o_cfg o)) -> Forall bounded (c_dims (o_cfg o)) -> Forall (in_space (F64 L) (c_dims (o_cfg o))) (p :: P) ->
    (forall q, In q P -> Forall2 same p q -> ask_warns (F64 L) o = true) /\
    (Forall discrete (c_dims (o_cfg o)) -> (Z.of_nat (length (c_dims (o_cfg o))) < 2 ^ 40)%Z -> ask_warns (F64 L) o = true -> exists q, In q P /\ Forall2 same p q).
Proof. intros E. apply asked_one in E. exact (@c103_float L RNG M G o o' p P E). Qed.

(** ** Cases *)
Definition tiny_dim : dim float := DReal (mkReal (fofZ 0) (fdiv (fofZ 1) (fofZ (2 ^ 40))) PUniform (fofZ 10) KIdentity None DT64).
Definition args1 (n0 : Z) (d : dim float) : oargs float := mkArgs [d] (Some gp_est) true n0 false "EI" "sampling" None 3 2 (fofZ 1).
Definition warn_o : opt float nat nat := fst (tell O0 G0 W0 (X1 [VFloat (fdiv (fofZ 1) (fofZ (2 ^ 40)))]) (num 3) true (made (make_optimizer O0 G0 W0 (args1 1 tiny_dim) 7))).
Lemma tell_ok_state {N RNG M} (O : numops N) (G : rng_ops N RNG) (W : world N M) x y fit o : reachable O G W o -> reachable O G W (fst (tell O G W x y fit o)).
Proof.
  intros H. pose proof (r_call (CTell x y fit) H) as Q. cbn [do_call] in Q. destruct (tell O G W x y fit o) as [u [v|z]]; exact Q.
Qed.
Lemma made_ok a : is_ok (snd (make_optimizer O0 G0 W0 a 7)) = true -> reachable O0 G0 W0 (made (make_optimizer O0 G0 W0 a 7)).
Proof. intros H. destruct (made_reachable _ G0 a 7 W0 L0 _ eq_refl H) as (o & E & Hr). unfold made. fold O0 in E. rewrite E. exact Hr. Qed.
Lemma asks_next {N RNG M} (O : numops N) (G : rng_ops N RNG) (W : world N M) s (o : opt N RNG M) : ((0 <? o_left o)%Z || negb (has_est o)) = false -> is_ok (snd (ask1 O G o)) = true ->
  exists p, o_next o = Some p /\ ask O G W NPNone s o = (o, Ok (A1pt p)).
Proof.
  intros B H. unfold ask. unfold ask1, andthen, get, lift, ret in *. rewrite B in *. destruct (o_models o); [discriminate|]. destruct (o_next o) as [p|]; [|discriminate]. exists p. split; [reflexivity|].
  destruct (mapM _ (o_Xi o)) as [[|d ds]|]; [discriminate|reflexivity|discriminate].
Qed.
Definition fresh1 (p : option (point float)) (X : list (xarg float)) : bool :=
  match p with
  | Some [VFloat x] => forallb (fun q => match q with X1 [VFloat y] => negb (fleb x y && fleb y x) | _ => false end) X
  | _ => false
  end.
Lemma c103_false_alarm : exists (o : opt float nat nat) p, reachable O0 G0 W0 o /\ ask O0 G0 W0 NPNone "cl_min" o = (o, Ok (A1pt p)) /\ (o_left o <= 0)%Z /\ c_est (o_cfg o) <> None /\
  ask_warns O0 o = true /\ ~ exists q, In (X1 q) (o_Xi o) /\ Forall2 same p q.
Proof.
  assert (R : reachable O0 G0 W0 warn_o) by (apply tell_ok_state, made_ok; vm_compute; reflexivity).
  destruct (@asks_next float nat nat O0 G0 W0 "cl_min" warn_o) as (p & Ep & Ea); [vm_compute; reflexivity|vm_compute; reflexivity|].
  exists warn_o, p. split; [exact R|]. split; [exact Ea|]. split; [vm_compute; discriminate|]. split; [vm_compute; discriminate|]. split; [vm_compute; reflexivity|].
  assert (F : fresh1 (o_next warn_o) (o_Xi warn_o) = true) by (vm_compute; reflexivity). rewrite Ep in F. generalize (o_Xi warn_o) F. clear. intros X F (q & I & S).
  unfold fresh1 in F. destruct p as [|[x| | | |] [|]]; try discriminate. rewrite forallb_forall in F. specialize (F _ I). cbn in F. destruct q as [|[y| | | |] [|]]; try discriminate.
  inversion S as [|? ? ? ? H _]; subst. cbn in H. destruct H as (H1 & H2). rewrite H1, H2 in F. discriminate.
Qed.
(** All initial points of the world of OptSamples.v are the same. *)
Definition silent_o : opt float nat nat := fst (tell O0 G0 W0 (X1 pa) (num 3) true opt0).
Lemma c103_silent : exists (o : opt float nat nat) p, reachable O0 G0 W0 o /\ ask O0 G0 W0 NPNone "cl_min" o = (o, Ok (A1pt p)) /\ In (X1 p) (o_Xi o) /\ ask_warns O0 o = false.
Proof.
  exists silent_o, pa. split; [apply tell_ok_state, opt0_reachable|]. split; [reflexivity|]. split; [left; reflexivity|reflexivity].
Qed.
(** The suggestion after one observation *)
Lemma c103_case : let W := WG Phi phi in exists o o' p, campaign SamplerSamples.GR W anything o /\ ask Rops SamplerSamples.GR W NPNone "cl_min" o = (o', Ok (A1pt p)) /\ (o_left o <= 0)%Z /\ c_est (o_cfg o) <> None.
Proof.
  intros W. destruct (camp_case Phi phi "EI" (AOne EI) false eq_refl) as (o & C0 & _ & F & o' & r & Et & C & Op & Hn & He & _). fold W in C0, Et, C.
  assert (A : fine o' (CAsk NPNone "cl_min")) by (constructor; exact Op).
  destruct (c83 SamplerSamples.GR_ok C A) as (o2 & a & E & An). cbn [do_call] in E. destruct (ask Rops SamplerSamples.GR W NPNone "cl_min" o') as [u [v|z]] eqn:Ea; [|discriminate].
  cbn in E. injection E as <- <-. destruct v as [p|l]; [|contradiction]. exists o', u, p. split; [exact C|]. split; [exact Ea|]. split; [|exact He].
  pose proof (g_left (s_good (campaign_sound SamplerSamples.GR_ok any_mono C))) as L. lia.
Qed.
(** Integers: both ways *)
Definition int_o (z : Z) : opt float nat nat := fst (tell O0 G0 W0 (X1 [VInt z]) (num 3) true (made (make_optimizer O0 G0 W0 (args1 1 (int1 KIdentity)) 7))).
Lemma c103_float_case : let d := int1 KNormalize in (wf_dim O0 d /\ bounded d /\ discrete d) /\
  forall z w, (z, w) = (5, false)%Z \/ (z, w) = (-3, true)%Z -> ask O0 G0 W0 NPNone "cl_min" (int_o z) = (int_o z, Ok (A1pt [VInt (-3)])) /\ (o_left (int_o z) <= 0)%Z /\ c_est (o_cfg (int_o z)) <> None /\
    c_dims (o_cfg (int_o z)) = [d] /\ o_Xi (int_o z) = map (@X1 float) [[VInt z]] /\ Forall (in_space O0 [d]) [[VInt (-3)]; [VInt z]] /\ ask_warns O0 (int_o z) = w.
Proof.
  intros d. split.
  - split; [|split; exact I]. unfold d, int1, wf_dim, wf_int. cbn [i_low i_high i_dtype i_kind]. split; [lia|]. split; [lia|]. split; [lia|]. split; [|now right]. intros z Hz. apply int64_id. lia.
  - assert (D : forall z w, (if ask_warns O0 (int_o z) then w = true else w = false) /\ match o_next (int_o z) with Some [VInt k] => k = (-3)%Z | _ => False end /\ is_ok (snd (ask1 O0 G0 (int_o z))) = true /\ o_Xi (int_o z) = map (@X1 float) [[VInt z]] /\
      c_dims (o_cfg (int_o z)) = [d] /\ ((0 <? o_left (int_o z))%Z || negb (has_est (int_o z))) = false -> (-3 <= z <= 12)%Z ->
      ask O0 G0 W0 NPNone "cl_min" (int_o z) = (int_o z, Ok (A1pt [VInt (-3)])) /\ (o_left (int_o z) <= 0)%Z /\ c_est (o_cfg (int_o z)) <> None /\
      c_dims (o_cfg (int_o z)) = [d] /\ o_Xi (int_o z) = map (@X1 float) [[VInt z]] /\ Forall (in_space O0 [d]) [[VInt (-3)]; [VInt z]] /\ ask_warns O0 (int_o z) = w).
    { intros z w (H1 & H2 & H3 & H4 & H5 & H6) Hz. destruct (@asks_next float nat nat O0 G0 W0 "cl_min" (int_o z) H6 H3) as (p & Ep & Ea). rewrite Ep in H2.
      assert (Q : p = [VInt (-3)]). { destruct p as [|v [|? ?]]; try contradiction; [|now destruct v]. destruct v; try contradiction. now rewrite H2. } subst p.
      apply orb_false_iff in H6. destruct H6 as (L & E). split; [exact Ea|]. split; [now apply Z.ltb_ge|]. split; [intro N; unfold has_est in E; rewrite N in E; discriminate|].
      split; [exact H5|]. split; [exact H4|]. split; [|destruct (ask_warns O0 (int_o z)); now rewrite H1]. repeat constructor; cbn; lia. }
    intros z w [H|H]; injection H as -> ->; (apply D; [|lia]); (split; [vm_compute; reflexivity|]); (split; [vm_compute; reflexivity|]); (split; [vm_compute; reflexivity|]); (split; [vm_compute; reflexivity|]); (split; [reflexivity|vm_compute; reflexivity]).
Qed.
