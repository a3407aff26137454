(** gp_minimize started from the same evaluations in another order; a case. *)
From Coq Require Import String List ZArith Bool Lia Lra Reals Permutation.
From Verif Require Import Base Num NumLaws Values Dimension Space Optimizer GaussLemmas SpaceSpec OptSpec OptSamples SamplerSamples Acquisition AcqSpec Kernels KernelPsdSpec Gpr GprSpec Cholesky
  GpWorld CampaignSpec Campaign GpDependable CampaignCases TreeWorld TreeCases Minimize MinSpec MinTotalSpec MinTotal MinInstances OrderSpec OrderSim OrderGp OrderCases OrderMinSpec OrderMin.
Import ListNotations.
Close Scope R_scope.
Open Scope list_scope.
Set Implicit Arguments.

Section Gp.
  Context (tune : kernel -> mat -> vec -> kernel) (cdf pdf : R -> R) (e0 : gpr) (xi : option R) (kappa : option (@kappa_arg R)) (argsort : list R -> list nat)
          (lbfgs : acq1 -> surrogate -> R -> list (R * R) -> list (pyval R) -> res (list (pyval R) * R))
          (generate : list (dim R) -> Z -> Z -> res (list (point R))) (logmax : R).
  Notation W := (gp_world tune cho_inv cho_weights cdf pdf e0 xi kappa argsort lbfgs generate logmax).
  Lemma c102_gp_min RNG (G : rng_ops R RNG) : rng_ok Rops G ->
    forall own f (a a' : margs R RNG surrogate) g x0 ys x0' ys' acq d, orderly (MGp own) f a x0 acq -> restarted a a' x0 ys x0' ys' -> never_stops (callbacks_of a) ->
    set_kinds_all KNormalize (a_dims (m_opt a)) = Ok d -> List.Forall workable d ->
    (forall k X y, valid k (t_n_dims d) -> valid (tune k X y) (t_n_dims d)) ->
    (forall k X y X' y', length X = length y -> length X' = length y' -> Permutation (combine X y) (combine X' y') -> tune k X y = tune k X' y') ->
    valid (user_kernel e0) (t_n_dims d) ->
    match e_noise e0 with NoiseOther => False | NoiseLevel v => (0 <= v)%R | _ => True end -> (0 < e_alpha e0)%R -> e_normalize e0 = false ->
    (a_acqopt (m_opt a) = "auto"%string -> forall m q yopt r, In q (cand_acqs acq) -> within (O := Rops) (space_tbounds Rops d) r ->
       exists r' v, lbfgs q m yopt (space_tbounds Rops d) r = Ok (r', v) /\ within (O := Rops) (space_tbounds Rops d) r') ->
    (forall a m m' y b r, same_surrogate m m' -> lbfgs a m y b r = lbfgs a m' y b r) ->
    argsort_ok Rops W ->
    (forall n seed, (0 <= n)%Z -> exists l, generate d n seed = Ok l /\ length l = Z.to_nat n /\ Forall (in_space Rops d) l) ->
    exists t o r t' o' r', minimize Rops G W (MGp own) f a g = (t, Some o, Ok (Some r)) /\ minimize Rops G W (MGp own) f a' g = (t', Some o', Ok (Some r')) /\
      evals t' = evals t /\ same_but_order r r'.
  Proof.
    intros RG own f a a' g x0 ys x0' ys' acq d H HR Hns Hd Hw Ht Hp Hk Hnz Ha Hnm Hl Hls Hs Hg.
    apply c102_min with (alike := same_surrogate) (x0 := x0) (ys := ys) (x0' := x0') (ys' := ys') (acq := acq); auto; [discriminate| |].
    - intros d' lb U Lb. cbn [used] in U. rewrite U in Hd. injection Hd as ->. split; [exact Hw|].
      apply gp_dependable; try assumption. intros E. apply Hl. exact (proj1 (Lb E)).
    - intros d' U. cbn [used] in U. rewrite U in Hd. injection Hd as ->. apply gp_order_free; auto.
      + destruct (e_noise e0); auto.
      + lra.
  Qed.
End Gp.

Definition argsO (xs : list (point R)) (ys : list (yarg R)) : margs R nat surrogate :=
  mkMargs (mkArgs treeR (Some gp_est) true 1%Z false "gp_hedge" "auto" (Some 2%Z) 3 2 1%R) 7%Z 2%Z None (X0Seq true (map IPt xs)) (Y0Seq ys) CBNone true.
Lemma c102_min_case : let a := argsO [pR1; pR2] [YNum 4; YNum 7]%R in let a' := argsO [pR2; pR1] [YNum 7; YNum 4]%R in
  orderly (MGp false) (fR AHedge) a [pR1; pR2] AHedge /\ restarted a a' [pR1; pR2] [YNum 4; YNum 7]%R [pR2; pR1] [YNum 7; YNum 4]%R /\ never_stops (callbacks_of a) /\
  up_to_it (WG Phi phi) anything (MGp false) (m_opt a) AHedge /\ (forall d, used (MGp false) (m_opt a) d -> order_free (WG Phi phi) d same_surrogate) /\
  exists t o r t' o' r', minimize Rops GR (WG Phi phi) (MGp false) (fR AHedge) a 0 = (t, Some o, Ok (Some r)) /\
    minimize Rops GR (WG Phi phi) (MGp false) (fR AHedge) a' 0 = (t', Some o', Ok (Some r')) /\ evals t' = evals t /\ length (evals t) = 7 /\ same_but_order r r'.
Proof.
  intros a a'.
  assert (A : orderly (MGp false) (fR AHedge) a [pR1; pR2] AHedge).
  { constructor; cbn [a argsO m_opt m_x0 m_y0 m_ncalls m_callback a_acq a_est a_dims a_npoints a_restarts a_queue]; auto.
    - cbn. auto.
    - repeat split; try discriminate.
    - split; [exact (@gv_list R [pR1; pR2] ltac:(discriminate))|]. exact (Forall_cons _ pT1_in (Forall_cons _ pT2_in (Forall_nil _))).
    - cbn. split; [reflexivity|]. constructor; [now exists 4%R|]. constructor; [now exists 7%R|constructor].
    - cbn. split; [lia|]. split; [discriminate|]. lia.
    - intros k p _. eexists. split; [reflexivity|apply yR_ok].
    - split; [exact I|]. intros c seen [<-|[]]; eexists; reflexivity. }
  assert (B : restarted a a' [pR1; pR2] [YNum 4; YNum 7]%R [pR2; pR1] [YNum 7; YNum 4]%R).
  { constructor; try (split; reflexivity); try reflexivity.
    - split; [exact (@gv_list R [pR1; pR2] ltac:(discriminate))|exact (@gv_list R [pR2; pR1] ltac:(discriminate))].
    - cbn. apply perm_swap. }
  assert (C : never_stops (callbacks_of a)). { intros seen (c & [<-|[]] & Hc). discriminate. }
  assert (D : up_to_it (WG Phi phi) anything (MGp false) (m_opt a) AHedge).
  { intros d lb U _. cbn [used a argsO m_opt a_dims] in U. rewrite normal_treeR in U. injection U as <-. split; [exact mixR_workable|apply WG_dependable]. }
  assert (F : forall d, used (MGp false) (m_opt a) d -> order_free (WG Phi phi) d same_surrogate).
  { intros d U. cbn [used a argsO m_opt a_dims] in U. rewrite normal_treeR in U. injection U as <-. exact WG_order_free. }
  split; [exact A|]. split; [exact B|]. split; [exact C|]. split; [exact D|]. split; [exact F|].
  destruct (@c102_min _ _ GR (WG Phi phi) GR_ok same_surrogate (MGp false) (fR AHedge) a a' 0 _ _ _ _ AHedge ltac:(discriminate) A D F B C) as (t & o & r & t' & o' & r' & E & E' & Ev & S).
  exists t, o, r, t', o', r'. split; [exact E|]. split; [exact E'|]. split; [exact Ev|]. split; [|exact S].
  destruct (@c91 _ _ GR (WG Phi phi) GR_ok (MGp false) (fR AHedge) a 0 _ AHedge ltac:(discriminate) A D) as (t1 & o1 & r1 & E1 & L). rewrite E in E1. injection E1 as <- _ _. specialize (L C). cbn in L. lia.
Qed.
