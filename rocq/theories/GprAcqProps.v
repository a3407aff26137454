(** Gradients of the acquisition functions of a Gaussian process. *)
From Coq Require Import String List ZArith Bool Reals Lra Lia.
From Coquelicot Require Import Coquelicot.
From Verif Require Import Base BaseLemmas Num NumLaws Acquisition AcqSpec GaussLemmas AcqLemmas AcqProps Kernels KernelSpec KernelLemmas KernelProps Gpr GprSpec GprLemmas GprProps GprAcq.
Import ListNotations.
Open Scope R_scope.
Open Scope list_scope.

Lemma gradient_ext_loc f g x d : (forall i a, nth_error x i = Some a -> locally a (fun u => f (put x i u) = g (put x i u))) ->
  gradient f x d -> gradient g x d.
Proof. intros E [L H]. split; [exact L|]. intros i a v Ha Hv. eapply is_derive_ext_loc; [exact (E i a Ha)|now apply H]. Qed.

Lemma std_defined g x gs i a : List.Forall (fun t => length x = length t /\ smooth (g_kernel g) x t) (g_X g) -> no_dot (g_kernel g) ->
  post_std_grad g x = Ok gs -> nth_error x i = Some a -> locally a (fun u => exists v, post_std g (put x i u) = Ok v).
Proof.
  intros F N H Ha. unfold post_std_grad in H. destruct (mapM (kcall (g_kernel g) 2 x) (g_X g)) as [kt|e] eqn:Ek; [|discriminate]. cbn [bind] in H.
  destruct (mapM (gradient_x (g_kernel g) 1 x) (g_X g)) as [G|e] eqn:EG; [|discriminate]. cbn [bind] in H.
  destruct (post_std g x) as [s|e] eqn:Es; [|discriminate]. unfold post_std in Es. rewrite Ek in Es. cbn [bind] in Es.
  destruct (kdiag (g_kernel g) x) as [d|e] eqn:Ed; [|discriminate].
  destruct (rows_ok (g_kernel g) x i a Ha (g_X g) G F EG) as (fs & L & D). revert L. apply filter_imp. intros u Eu.
  unfold post_std. rewrite Eu. cbn [bind]. rewrite (kdiag_const _ (put x i u) x N), Ed. cbn [bind]. eauto.
Qed.

Section Acq.
  Context (cdf pdf : R -> R) (HN : std_normal cdf pdf).
  Context (e : gpr) (g : gp) (Hg : e_fitted e = Some g) (x : list R).
  Context (m s : R) (gm gs : list R) (HP : predict e [x] true false true true = Ok (mkAnswer [m] (Some [s]) (Some gm) (Some gs))).
  Context (HF : List.Forall (fun t => length x = length t /\ smooth (g_kernel g) x t) (g_X g)) (HD : no_dot (g_kernel g)) (Hs : / 100000000 < s).

  Let fm x := value (post_mean g x).
  Let fs x := value (post_std g x).
  Let P := regressor fm fs (fun _ => gm) (fun _ => gs).

  Lemma posts : post_mean g x = Ok m /\ post_std g x = Ok s /\ post_mean_grad g x = Ok gm /\ post_std_grad g x = Ok gs.
  Proof. destruct (predict_all e g Hg x _ HP) as (m' & s' & gm' & gs' & E & A & B & C & D). injection E as -> -> -> ->. auto. Qed.
  Lemma fm_gradient : gradient fm x gm.
  Proof. destruct posts as (_ & _ & A & _). exact (mean_gradient g x gm HF A). Qed.
  Lemma fs_gradient : gradient fs x gs.
  Proof. destruct posts as (_ & A & _ & B). exact (std_gradient g x gs s HF HD A Hs B). Qed.
  Lemma fs_x : fs x = s. Proof. unfold fs. destruct posts as (_ & -> & _). reflexivity. Qed.
  Lemma fm_x : fm x = m. Proof. unfold fm. destruct posts as (-> & _). reflexivity. Qed.
  Lemma fs_pos : 0 < fs x. Proof. rewrite fs_x. assert (0 < / 100000000) by (apply Rinv_0_lt_compat; lra). lra. Qed.

  Lemma gp_grad : gp_predictor e true [x] = P [x].
  Proof. unfold gp_predictor. rewrite HP. unfold P, regressor. now rewrite fm_x, fs_x. Qed.
  Lemma gp_near i a : nth_error x i = Some a ->
    locally a (fun u => gp_predictor e false [put x i u] = Ok (mkPred true [fm (put x i u)] [fs (put x i u)] [] [])).
  Proof.
    intro Ha. destruct posts as (_ & _ & A & B).
    pose proof (filter_and _ _ (mean_defined g x gm i a HF A Ha) (std_defined g x gs i a HF HD B Ha)) as L. revert L. apply filter_imp.
    intros u [[v Ev] [w Ew]]. unfold gp_predictor, predict. cbn -[post_mean post_std]. rewrite Hg, Ev, Ew. cbn [bind]. unfold fm, fs. now rewrite Ev, Ew.
  Qed.

  (** Without gradients only means and deviations count. *)
  Lemma same_value (p q : @predictor R) X r r' y f xi k : p X = Ok r -> q X = Ok r' -> p_1d r = p_1d r' -> p_mu r = p_mu r' -> p_std r = p_std r' ->
    gaussian_acquisition Rops cdf pdf X (Single p) y f xi k false = gaussian_acquisition Rops cdf pdf X (Single q) y f xi k false.
  Proof.
    intros Ep Eq E1 E2 E3. unfold gaussian_acquisition. destruct (ends_with_ps f); [reflexivity|]. cbn [bind].
    unfold gaussian_lcb, gaussian_ei, gaussian_pi, gaussian_imp, per_second, Acquisition.predict. rewrite Ep, Eq. cbn [bind]. rewrite E1, E2, E3.
    destruct (f =? "LCB")%string, (f =? "EI")%string, (f =? "PI")%string, (f =? "EIps")%string, (f =? "PIps")%string, (negb (p_1d r')), y; reflexivity.
  Qed.
  Lemma same_grad (p q : @predictor R) X y f xi k grad : p X = q X ->
    gaussian_acquisition Rops cdf pdf X (Single p) y f xi k grad = gaussian_acquisition Rops cdf pdf X (Single q) y f xi k grad.
  Proof.
    intro E. unfold gaussian_acquisition. destruct (ends_with_ps f); [reflexivity|]. cbn [bind].
    unfold gaussian_lcb, gaussian_ei, gaussian_pi, gaussian_imp, per_second, Acquisition.predict. rewrite E. reflexivity.
  Qed.

  Lemma transport y f xi k : (exists v gd, gaussian_acquisition_1D Rops cdf pdf x (Single P) y f xi k true = Ok ([v], Some gd) /\
      gradient (fun x => value_of (gaussian_acquisition_1D Rops cdf pdf x (Single P) y f xi k false)) x gd) ->
    exists v gd, gaussian_acquisition_1D Rops cdf pdf x (Single (gp_predictor e true)) y f xi k true = Ok ([v], Some gd) /\
      gradient (fun x => value_of (gaussian_acquisition_1D Rops cdf pdf x (Single (gp_predictor e false)) y f xi k false)) x gd.
  Proof.
    intros (v & gd & E & G). exists v, gd. unfold gaussian_acquisition_1D in *. split.
    - rewrite (same_grad _ P) by exact gp_grad. exact E.
    - revert G. apply gradient_ext_loc. intros i a Ha. generalize (gp_near i a Ha). apply filter_imp. intros u Eu. f_equal.
      eapply same_value; [reflexivity|exact Eu|reflexivity..].
  Qed.
  Lemma gp_lcb y xi k : exists v gd, gaussian_acquisition_1D Rops cdf pdf x (Single (gp_predictor e true)) y "LCB" xi k true = Ok ([v], Some gd) /\
      gradient (fun x => value_of (gaussian_acquisition_1D Rops cdf pdf x (Single (gp_predictor e false)) y "LCB" xi k false)) x gd.
  Proof. apply transport. exact (c51_lcb cdf pdf fm fs (fun _ => gm) (fun _ => gs) x fm_gradient fs_gradient y xi k). Qed.
  Lemma gp_ei y xi k : exists v gd, gaussian_acquisition_1D Rops cdf pdf x (Single (gp_predictor e true)) (Some y) "EI" xi k true = Ok ([v], Some gd) /\
      gradient (fun x => value_of (gaussian_acquisition_1D Rops cdf pdf x (Single (gp_predictor e false)) (Some y) "EI" xi k false)) x gd.
  Proof. apply transport. exact (c51_ei cdf pdf HN fm fs (fun _ => gm) (fun _ => gs) x fm_gradient fs_gradient y xi k fs_pos). Qed.
  Lemma gp_pi y xi k : exists v gd, gaussian_acquisition_1D Rops cdf pdf x (Single (gp_predictor e true)) (Some y) "PI" xi k true = Ok ([v], Some gd) /\
      gradient (fun x => value_of (gaussian_acquisition_1D Rops cdf pdf x (Single (gp_predictor e false)) (Some y) "PI" xi k false)) x gd.
  Proof. apply transport. exact (c51_pi cdf pdf HN fm fs (fun _ => gm) (fun _ => gs) x fm_gradient fs_gradient y xi k fs_pos). Qed.
End Acq.
