(** Property theorems: surrogates and initial point generators asked for by name, the acquisition optimizer chosen for
    them, and the objects of the caller (C84, C85, C86). *)
From Coq Require Import String List ZArith Bool Reals.
From Verif Require Import Base Num NumLaws Values Dimension Space Switch SwitchSpec Optimizer Kernels Gpr KernelPsdSpec Cook CookSpec CookThms.
Import ListNotations.
Open Scope list_scope.

(** C84. A surrogate asked for by name, in small or capital letters: it is of the documented class, has the parameters
    that were passed on, and the promised ones otherwise. *)
Theorem C84_by_name : forall N (O : numops N) h s n sp kw h' e, spelled s (word n) -> NoDup (map fst kw) ->
  cook_estimator O h (BName s) sp kw = (h', Ok e) ->
  exists x, e = Some x /\ e_class x = class_for n /\
    (forall k v, In (k, v) kw -> In k (known n) -> param x k = Some v) /\
    (forall k v, In (k, v) (promised n) -> ~ In k (map fst kw) -> param x k = Some v).
Proof. exact @c84_by_name. Qed.
Print Assumptions C84_by_name.
(** It is made if the keyword arguments are parameters of the class; n_jobs is accepted in any case. *)
Theorem C84_answered : forall N (O : numops N) h s n ds dms kw, spelled s (word n) -> Forall2 (stands_for O h) ds dms ->
  (forall k, In k (map fst kw) -> In k (known n) \/ k = "n_jobs"%string) ->
  exists h' x, cook_estimator O h (BName s) (Some ds) kw = (h', Ok (Some x)).
Proof. exact @c84_answered. Qed.
Print Assumptions C84_answered.
(** Other names, other keyword arguments, and a Gaussian process without a space raise ValueError; *)
Theorem C84_refused : forall N (O : numops N) h s (ds : option (list (harg N))) (kw : list (string * pval)),
  (forall n, spelled s (word n) -> (exists k, In k (map fst kw) /\ ~ In k (known n) /\ k <> "n_jobs"%string) \/ (n = NGP /\ ds = None)) ->
  ~ spelled s "dummy" -> (forall l, ds = Some l -> exists dms, Forall2 (stands_for O h) l dms) ->
  exists h', cook_estimator O h (BName s) ds kw = (h', Raise ValueError).
Proof. exact @c84_refused. Qed.
Print Assumptions C84_refused.
(** "dummy" means no surrogate. *)
Theorem C84_dummy : forall N (O : numops N) h s (ds : option (list (harg N))) kw, spelled s "dummy" ->
  cook_estimator O h (BName s) ds kw = (h, Ok None).
Proof. exact @c84_dummy. Qed.
Print Assumptions C84_dummy.
(** The same for initial point generators *)
Theorem C84_generator : forall s w c kw, In (w, c) generator_words -> spelled s w -> NoDup (map fst kw) ->
  exists g, cook_generator (GArgName s) kw = Ok (Some g) /\ gen_class g = c /\
    (forall k v, In (k, v) kw -> attribute g k = Some v) /\
    (forall k v, In (k, v) (documented c) -> ~ In k (map fst kw) -> attribute g k = Some v).
Proof. exact @c84_generator. Qed.
Print Assumptions C84_generator.
Theorem C84_generator_random : forall s kw, spelled s "random" -> cook_generator (GArgName s) kw = Ok None.
Proof. exact c84_generator_random. Qed.
Print Assumptions C84_generator_random.
Theorem C84_generator_refused : forall s kw, (forall w, In w ("random"%string :: map fst generator_words) -> ~ spelled s w) ->
  cook_generator (GArgName s) kw = Raise ValueError.
Proof. exact c84_generator_refused. Qed.
Print Assumptions C84_generator_refused.
(** The kernel of the default Gaussian process fits the space of the optimizer it is made for, whatever mixture of objects
    and shorthands describes it: defined for every pair of warped points, between 0 and 1, 1 for equal points; a Hamming
    kernel exactly if all dimensions are categorical. *)
Theorem C84_kernel : forall N (O : numops N) h ds dms s acq acqopt seed nj, Forall2 (stands_for O h) ds dms -> spelled s "GP" -> is_ps acq = false ->
  In acqopt ["auto"; "sampling"]%string ->
  exists h' st e g k dims, setup O h ds (BName s) acq acqopt seed nj = (h', Ok st) /\
    s_est st = Some e /\ to_gpr e = Some g /\ e_kernel g = Some k /\ dims_at h' (s_space st) = Ok dims /\
    Forall2 (@alike N) dms dims /\ Forall (fun d => dim_kind d = KNormalize) dims /\
    valid k (t_n_dims dims) /\ (has_hamming k = true <-> Forall (@categorical N) dms) /\
    forall x t, length x = t_n_dims dims -> length t = t_n_dims dims -> exists v, kcall k 2 x t = Ok v /\ (0 < v <= 1)%R /\ (x = t -> v = 1%R).
Proof. exact @c84_kernel. Qed.
Print Assumptions C84_kernel.
(** With an acquisition function per second it need not fit: dimensions given as shorthands are normalised for the kernel
    but not for the optimizer, and every kernel value is a ValueError. *)
Theorem C84_per_second_refuted : exists h' st e g k dims, setup Rops [] two_shorthands (BName "gp") (AOne EIps) "auto" 0 1 = (h', Ok st) /\
  s_est st = Some (multi (Some e)) /\ to_gpr e = Some g /\ e_kernel g = Some k /\ dims_at h' (s_space st) = Ok dims /\ t_n_dims dims = 4%nat /\
  forall x t, length x = 4%nat -> length t = 4%nat -> kcall k 2 x t = Raise ValueError.
Proof. exact c84_ps. Qed.
Print Assumptions C84_per_second_refuted.
(** An existing Real and two shorthands, one of them categorical; and categories only *)
Example C84_case : (exists dms, Forall2 (stands_for Rops shared) mixed_args dms /\ ~ Forall (@categorical R) dms) /\
  (exists dms, Forall2 (stands_for Rops shared) cat_args dms /\ Forall (@categorical R) dms).
Proof. exact mixed_case. Qed.
Example C84_letters : spelled "gP" "GP" /\ spelled "gbrt" "GBRT" /\ ~ spelled "gb" "GBRT" /\ ~ spelled "gp1" "gp".
Proof. exact letters_case. Qed.

(** C85. For a surrogate asked for by name the acquisition optimizer is "lbfgs" only if the gradients it needs exist, and
    "auto" gives up on it only if they do not. *)
Theorem C85_auto : forall N (O : numops N) h ds dms s n acq acqopt seed nj h' st,
  Forall2 (stands_for O h) ds dms -> spelled s (word n) -> is_ps acq = false ->
  setup O h ds (BName s) acq acqopt seed nj = (h', Ok st) ->
  exists e dims, s_est st = Some e /\ dims_at h' (s_space st) = Ok dims /\
    (s_lbfgs st = true -> differentiable e (t_n_dims dims)) /\ (s_lbfgs st = false -> acqopt = "auto"%string -> no_gradients e).
Proof. exact @c85_auto. Qed.
Print Assumptions C85_auto.
(** Asking for "lbfgs" where there are none raises ValueError. *)
Theorem C85_refused : forall N (O : numops N) h ds dms s n acq seed nj, Forall2 (stands_for O h) ds dms -> spelled s (word n) -> is_ps acq = false ->
  n <> NGP \/ Forall (@categorical N) dms -> exists h', setup O h ds (BName s) acq "lbfgs" seed nj = (h', Raise ValueError).
Proof. exact @c85_refused. Qed.
Print Assumptions C85_refused.
(** With an acquisition function per second "auto" picks "lbfgs" for a random forest, which has no gradients. *)
Theorem C85_per_second_refuted : exists h' st e, setup Rops [] [HSeq [VInt 0; VInt 5]] (BName "RF") (AOne EIps) "auto" 0 1 = (h', Ok st) /\
  s_est st = Some (multi (Some e)) /\ s_lbfgs st = true /\ no_gradients e.
Proof. exact c85_ps. Qed.
Print Assumptions C85_per_second_refuted.
Example C85_case : exists h' st, setup Rops shared mixed_args (BName "gp") AHedge "auto" 0 1 = (h', Ok st) /\ s_lbfgs st = true /\
  exists h2 st2, setup Rops shared cat_args (BName "gp") AHedge "auto" 0 1 = (h2, Ok st2) /\ s_lbfgs st2 = false.
Proof. do 2 eexists. split; [reflexivity|]. split; [reflexivity|]. do 2 eexists. split; reflexivity. Qed.

(** C86. Building an optimizer, successfully or not, leaves the caller's dimension objects alone, unless the surrogate is a
    Gaussian process; *)
Theorem C86_untouched : forall N (O : numops N) h ds b acq acqopt seed nj h' r,
  match b with BName s => ~ spelled s "GP" | BEst e => e_class e <> CGP \/ is_ps acq = true | BNone => True end ->
  setup O h ds b acq acqopt seed nj = (h', r) -> untouched h h'.
Proof. exact @c86_untouched. Qed.
Print Assumptions C86_untouched.
(** objects that are not handed over are left alone in any case, *)
Theorem C86_others : forall N (O : numops N) h ds b acq acqopt seed nj h' r, setup O h ds b acq acqopt seed nj = (h', r) ->
  forall a o, nth_error h a = Some o -> ~ given ds a -> nth_error h' a = Some o.
Proof. exact @c86_frame. Qed.
Print Assumptions C86_others.
(** and those handed over to a Gaussian process are changed in their transformer only, which is then "normalize". *)
Theorem C86_gaussian_process : forall N (O : numops N) h ds dms s acq acqopt seed nj h' st,
  Forall2 (stands_for O h) ds dms -> spelled s "GP" -> is_ps acq = false ->
  setup O h ds (BName s) acq acqopt seed nj = (h', Ok st) -> forall a o, nth_error h a = Some o -> given ds a ->
  exists o', nth_error h' a = Some o' /\ alike (ob_dim o) (ob_dim o') /\ honest o' /\ ob_label o' = "normalize"%string.
Proof. exact @c86_gp. Qed.
Print Assumptions C86_gaussian_process.
(** "Left alone" is false for them: an optimizer with a forest warps 15 to 15, and to 1/2 once a Gaussian process has been
    set up with the same dimension. *)
Theorem C86_shared_refuted : exists h1 st1 h2 st2,
  setup Rops shared [HObj 0] (BName "RF") AHedge "auto" 0 1 = (h1, Ok st1) /\ show h1 (s_space st1) = Ok [[VFloat 15%R]] /\
  setup Rops h1 [HObj 0] (BName "GP") AHedge "auto" 0 1 = (h2, Ok st2) /\ show h2 (s_space st1) = Ok [[VFloat (1 / 2)%R]].
Proof. exact c86_shared. Qed.
Print Assumptions C86_shared_refuted.
Example C86_case : exists h' st, setup Rops shared mixed_args (BName "et") (AOne EI) "auto" 0 1 = (h', Ok st) /\ length h' = 3%nat /\
  given mixed_args 0 /\ ~ given cat_args 0.
Proof. do 2 eexists. split; [reflexivity|]. split; [reflexivity|]. split; [now left|]. intros [H|[H|[]]]; discriminate H. Qed.
