(** C49, C50, C51: acquisition functions, over the reals. [std_normal cdf pdf] says that scipy's norm.cdf and norm.pdf
    are the distribution function and density of the standard normal distribution. *)
From Coq Require Import String List Reals Lra.
From Coquelicot Require Import Coquelicot.
From Verif Require Import Base Num NumLaws Acquisition AcqSpec GaussLemmas AcqLemmas AcqProps AcqSamples AcqFlat.
Import ListNotations.
Open Scope R_scope.

(** The probability of improvement is a probability, namely that of a value below y_opt - xi; 0 where the predicted
    deviation is 0. One value per row. *)
Theorem C49_pi : forall cdf pdf m X mus stds y xi,
  std_normal cdf pdf -> predicts m X mus stds -> length mus = length stds ->
  exists vs, gaussian_pi Rops cdf pdf m X (Some y) xi false = Ok (vs, None) /\ length vs = length mus /\
    forall i mu s v, nth_error mus i = Some mu -> nth_error stds i = Some s -> nth_error vs i = Some v ->
      (0 <= v <= 1) /\ (s <= 0 -> v = 0) /\ (0 < s -> 0 < v < 1 /\ probability_below mu s (y - xi) v).
Proof. intros. now apply c49_pi. Qed.
Print Assumptions C49_pi.

(** The expected improvement is non-negative, 0 where the predicted deviation is 0, and elsewhere positive, above the
    improvement of the mean, and the expectation of max(y_opt - xi - Y, 0) for the predicted normal distribution. *)
Theorem C50_ei : forall cdf pdf m X mus stds y xi,
  std_normal cdf pdf -> predicts m X mus stds -> length mus = length stds ->
  exists vs, gaussian_ei Rops cdf pdf m X (Some y) xi false = Ok (vs, None) /\ length vs = length mus /\
    forall i mu s v, nth_error mus i = Some mu -> nth_error stds i = Some s -> nth_error vs i = Some v ->
      0 <= v /\ (s <= 0 -> v = 0) /\
      (0 < s -> 0 < v /\ y - xi - mu < v /\ expectation mu s (fun t => Rmax (y - xi - t) 0) v).
Proof. intros. now apply c49_ei. Qed.
Print Assumptions C50_ei.

(** The lower confidence bound is the mean minus kappa deviations, kappa being 1.96 by default; -std for "inf". *)
Theorem C49_lcb : forall cdf pdf m X mus stds y xi k,
  predicts m X mus stds -> length mus = length stds ->
  exists vs, gaussian_acquisition Rops cdf pdf X m y "LCB" xi k false = Ok (vs, None) /\ length vs = length mus /\
    forall i mu s v, nth_error mus i = Some mu -> nth_error stds i = Some s -> nth_error vs i = Some v ->
      v = match k with None => mu - 196 / 100 * s | Some (Kappa k) => mu - k * s | Some KappaInf => - s end.
Proof. intros. now apply c49_lcb. Qed.
Print Assumptions C49_lcb.

(** What the optimiser minimises for "EI" and "PI" are the negated values, with xi = 0.01 by default. *)
Theorem C49_negated : forall cdf pdf m X mus stds y xi,
  predicts m X mus stds -> length mus = length stds ->
  let x := match xi with Some x => x | None => / 100 end in
  (exists vs, gaussian_pi Rops cdf pdf m X (Some y) x false = Ok (vs, None) /\
     forall k, gaussian_acquisition Rops cdf pdf X m (Some y) "PI" xi k false = Ok (map Ropp vs, None)) /\
  (exists vs, gaussian_ei Rops cdf pdf m X (Some y) x false = Ok (vs, None) /\
     forall k, gaussian_acquisition Rops cdf pdf X m (Some y) "EI" xi k false = Ok (map Ropp vs, None)).
Proof. intros. now apply (c49_negated cdf pdf m X mus stds). Qed.
Print Assumptions C49_negated.

(** The hypotheses hold: the two functions exist, and two rows are predicted. *)
Example C49_case : std_normal Phi phi /\ predicts (Single sample_reg) [[1]; [2]] [1; 4] [2; 5].
Proof. exact (conj std_normal_exists sample_predicts). Qed.

(** A larger predicted mean has a smaller expected improvement, a larger predicted deviation a larger one. *)
Theorem C50_mean : forall cdf pdf m1 m2 X1 X2 mu1 mu2 s y xi v1 v2,
  std_normal cdf pdf -> 0 < s -> mu1 < mu2 -> predicts m1 X1 [mu1] [s] -> predicts m2 X2 [mu2] [s] ->
  gaussian_ei Rops cdf pdf m1 X1 (Some y) xi false = Ok ([v1], None) ->
  gaussian_ei Rops cdf pdf m2 X2 (Some y) xi false = Ok ([v2], None) -> v2 < v1.
Proof. exact (fun cdf pdf m1 m2 X1 X2 mu1 mu2 s y xi v1 v2 HN => c50_mean cdf pdf HN m1 m2 X1 X2 mu1 mu2 s y xi v1 v2). Qed.
Print Assumptions C50_mean.
Theorem C50_std : forall cdf pdf m1 m2 X1 X2 mu s1 s2 y xi v1 v2,
  std_normal cdf pdf -> 0 <= s1 -> s1 < s2 -> predicts m1 X1 [mu] [s1] -> predicts m2 X2 [mu] [s2] ->
  gaussian_ei Rops cdf pdf m1 X1 (Some y) xi false = Ok ([v1], None) ->
  gaussian_ei Rops cdf pdf m2 X2 (Some y) xi false = Ok ([v2], None) -> v1 < v2.
Proof. exact (fun cdf pdf m1 m2 X1 X2 mu s1 s2 y xi v1 v2 HN => c50_std cdf pdf HN m1 m2 X1 X2 mu s1 s2 y xi v1 v2). Qed.
Print Assumptions C50_std.

(** The expected improvement does not reach down to deviation 0: where the model is certain of an improvement by 1, the
    value is 0, so a point that is certainly better ranks below every uncertain point. *)
Theorem C50_certain_improvement_refuted : exists m X mu y, y - mu = 1 /\ predicts m X [mu] [0] /\
  gaussian_ei Rops Phi phi m X (Some y) 0 false = Ok ([0], None).
Proof.
  exists (Single certain), [[0]], 0, 1. split; [lra|]. split; [exact (certain_predicts 0)|].
  unfold gaussian_ei. rewrite (imp_values _ _ _ _ _ _ 1 0 (certain_predicts 0)). cbn [map2 combine map fst snd].
  now rewrite (proj2 (one_0 Phi phi 1 0 0 0 ltac:(lra))).
Qed.
Print Assumptions C50_certain_improvement_refuted.

(** "EIps" and "PIps" are "EI" and "PI" times the mean of 1 / time, the logarithm of the time being normal with the mean
    and deviation that the second regressor predicts. *)
Theorem C50_per_second : forall cdf pdf p t X mus stds mts sts y xi k,
  predicts (Single p) X mus stds -> predicts (Single t) X mts sts ->
  length mus = length stds -> length mts = length sts -> length mus = length mts ->
  forall f, In f ["EI"; "PI"]%string -> exists vs ws,
     gaussian_acquisition Rops cdf pdf X (Single p) (Some y) f xi k false = Ok (vs, None) /\
     gaussian_acquisition Rops cdf pdf X (Multi p t) (Some y) (f ++ "ps") xi k false = Ok (ws, None) /\
     length ws = length mus /\
     forall i mt st v w, nth_error mts i = Some mt -> nth_error sts i = Some st -> nth_error vs i = Some v ->
       nth_error ws i = Some w -> 0 < st -> exists e, expectation mt st (fun t => exp (- t)) e /\ w = v * e.
Proof. exact c50_ps. Qed.
Print Assumptions C50_per_second.

(** The gradients are those of the values, for every regressor that returns the gradients of its mean and deviation. *)
Theorem C51_lcb : forall cdf pdf m s gm gs x, gradient m x (gm x) -> gradient s x (gs x) ->
  forall y xi k, exists v g,
    gaussian_acquisition_1D Rops cdf pdf x (Single (regressor m s gm gs)) y "LCB" xi k true = Ok ([v], Some g) /\
    gradient (fun x => value_of (gaussian_acquisition_1D Rops cdf pdf x (Single (regressor m s gm gs)) y "LCB" xi k false)) x g.
Proof. exact c51_lcb. Qed.
Print Assumptions C51_lcb.
Theorem C51_ei : forall cdf pdf, std_normal cdf pdf -> forall m s gm gs x, gradient m x (gm x) -> gradient s x (gs x) ->
  forall y xi k, 0 < s x -> exists v g,
    gaussian_acquisition_1D Rops cdf pdf x (Single (regressor m s gm gs)) (Some y) "EI" xi k true = Ok ([v], Some g) /\
    gradient (fun x => value_of (gaussian_acquisition_1D Rops cdf pdf x (Single (regressor m s gm gs)) (Some y) "EI" xi k false)) x g.
Proof. exact c51_ei. Qed.
Print Assumptions C51_ei.
Theorem C51_pi : forall cdf pdf, std_normal cdf pdf -> forall m s gm gs x, gradient m x (gm x) -> gradient s x (gs x) ->
  forall y xi k, 0 < s x -> exists v g,
    gaussian_acquisition_1D Rops cdf pdf x (Single (regressor m s gm gs)) (Some y) "PI" xi k true = Ok ([v], Some g) /\
    gradient (fun x => value_of (gaussian_acquisition_1D Rops cdf pdf x (Single (regressor m s gm gs)) (Some y) "PI" xi k false)) x g.
Proof. exact c51_pi. Qed.
Print Assumptions C51_pi.
(** Per second, with a second regressor for the logarithm of the time. *)
Theorem C51_eips : forall cdf pdf, std_normal cdf pdf -> forall m s gm gs x, gradient m x (gm x) -> gradient s x (gs x) ->
  forall mt st gmt gst, gradient mt x (gmt x) -> gradient st x (gst x) -> forall y xi k, 0 < s x ->
  let mo := Multi (regressor m s gm gs) (regressor mt st gmt gst) in
  exists v g,
    gaussian_acquisition_1D Rops cdf pdf x mo (Some y) "EIps" xi k true = Ok ([v], Some g) /\
    gradient (fun x => value_of (gaussian_acquisition_1D Rops cdf pdf x mo (Some y) "EIps" xi k false)) x g.
Proof. exact c51_eips. Qed.
Print Assumptions C51_eips.
Theorem C51_pips : forall cdf pdf, std_normal cdf pdf -> forall m s gm gs x, gradient m x (gm x) -> gradient s x (gs x) ->
  forall mt st gmt gst, gradient mt x (gmt x) -> gradient st x (gst x) -> forall y xi k, 0 < s x ->
  let mo := Multi (regressor m s gm gs) (regressor mt st gmt gst) in
  exists v g,
    gaussian_acquisition_1D Rops cdf pdf x mo (Some y) "PIps" xi k true = Ok ([v], Some g) /\
    gradient (fun x => value_of (gaussian_acquisition_1D Rops cdf pdf x mo (Some y) "PIps" xi k false)) x g.
Proof. exact c51_pips. Qed.
Print Assumptions C51_pips.
(** Where the predicted deviation is zero along the coordinates around the point, value and gradient are zero, and
    this is the gradient. *)
Theorem C51_flat : forall cdf pdf m s gm gs x f y xi k, f = "EI"%string \/ f = "PI"%string -> length (gs x) = length x ->
  s x <= 0 -> (forall i a, nth_error x i = Some a -> locally a (fun t => s (put x i t) <= 0)) ->
  exists g, gaussian_acquisition_1D Rops cdf pdf x (Single (regressor m s gm gs)) (Some y) f xi k true = Ok ([0], Some g) /\
    List.Forall (fun d => d = 0) g /\
    gradient (fun x => value_of (gaussian_acquisition_1D Rops cdf pdf x (Single (regressor m s gm gs)) (Some y) f xi k false)) x g.
Proof. intros cdf pdf m s gm gs x f y xi k Hf L S F. exact (c51_flat cdf pdf m s gm gs x f y xi k Hf L (conj S F)). Qed.
Print Assumptions C51_flat.
Example C51_flat_case : forall x, flat0 x <= 0 /\ forall i a, nth_error x i = Some a -> locally a (fun t => flat0 (put x i t) <= 0).
Proof. exact flat_case. Qed.
(** At an isolated point of zero deviation, such as a training point of a noise-free process, the zeros that are
    returned are not the gradient: the value is not continuous there. *)
Theorem C51_isolated_refuted : forall cdf pdf, std_normal cdf pdf -> exists m s gm gs x y xi k v g,
  gradient m x (gm x) /\ gradient s x (gs x) /\ s x = 0 /\
  gaussian_acquisition_1D Rops cdf pdf x (Single (regressor m s gm gs)) (Some y) "EI" (Some xi) k true = Ok ([v], Some g) /\
  ~ gradient (fun x => value_of (gaussian_acquisition_1D Rops cdf pdf x (Single (regressor m s gm gs)) (Some y) "EI" (Some xi) k false)) x g.
Proof. exact c51_isolated. Qed.
Print Assumptions C51_isolated_refuted.
(** A regressor with gradients and positive deviation at every point. *)
Example C51_case : forall a, gradient mean1 [a] (mean1_grad [a]) /\ gradient dev1 [a] (mean1_grad [a]) /\ 0 < dev1 [a].
Proof. exact sample_gradients. Qed.
