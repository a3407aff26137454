(** Continuing a minimisation (C99). *)
From Coq Require Import String List ZArith Bool Lia Reals Lra.
From Verif Require Import Base BaseLemmas Num NumLaws Values Dimension Space Optimizer SpaceSpec OptSpec OptLemmas CampaignSpec Minimize MinSpec MinLemmas MinProps MinDummy MinTotalSpec MinTotal ResumeSpec.
Import ListNotations.
Open Scope list_scope.
Set Implicit Arguments.

Section Continue.
  Context {N RNG M : Type} (O : numops N) (G : rng_ops N RNG) (W : world N M).
  Lemma seen_values ps (l : list N) vs : Forall2 (observation O ps) (map YNum l) vs -> map y_obj vs = l /\ (l <> [] -> ps = false).
  Proof.
    revert vs. induction l as [|v l IH]; intros vs H; inversion H as [|? w ? ws Hw F]; subst; [split; [reflexivity|easy]|].
    inversion Hw; subst. destruct (IH ws F) as [E _]. cbn [map y_obj]. rewrite E. split; reflexivity.
  Qed.
  Lemma map_inj {A B} (f : A -> B) : (forall x y, f x = f y -> x = y) -> forall l l', map f l = map f l' -> l = l'.
  Proof. intros Hf. induction l as [|x l IH]; intros [|y l'] H; try discriminate; [reflexivity|]. injection H as H1 H2. f_equal; auto. Qed.
  Lemma given_points ps (x0 : list (point N)) : given (X0Seq true (map IPt ps)) x0 -> x0 = ps /\ ps <> [].
  Proof.
    intros H. inversion H as [|b vs Hv E|ps' Hp E]; subst.
    - destruct vs as [|v vs]; [easy|]. destruct ps; discriminate.
    - apply map_inj in E; [|congruence]. subst. auto.
  Qed.
  Lemma c99_continues RNG' M' (r : result N RNG' M') m f a g t o' res : resumes r a -> minimize O G W m f a g = (t, o', Ok res) ->
    exists r' E, res = Some r' /\ evaluated O false f 0 E /\ map fst E = evals t /\
      res_x_iters r' = res_x_iters r ++ map (fun e => X1 (fst e)) E /\ res_func_vals r' = res_func_vals r ++ map (fun e => y_obj (snd e)) E /\
      (Z.of_nat (length E) <= Z.max (m_ncalls a) 0)%Z /\ (never_stops (callbacks_of a) -> Z.of_nat (length E) = Z.max (m_ncalls a) 0).
  Proof.
    intros (ps & Ex & E0 & Ey) H. destruct (c28 O G W m f a g H) as (x0 & q & r' & E & Hg & -> & Hev & Hm & K).
    destruct (c27_budget O G W m f a g H) as (x1 & r1 & Hg1 & [= <-] & Hb & _). rewrite Ey in K, Hb. cbn [values_of] in K, Hb. rewrite E0 in Hg. apply given_points in Hg. destruct Hg as [-> Hne].
    destruct ps as [|p ps]; [easy|]. destruct K as (vs & Fo & L & Kx & Kf). destruct (seen_values _ Fo) as [Ev Hq].
    assert (q = false) as ->. { apply Hq. intros Z0. rewrite Z0 in L. discriminate L. }
    exists r', E. split; [reflexivity|]. split; [exact Hev|]. split; [exact Hm|]. rewrite Kx, Kf, Ex, !map_app, !map_map, Ev. split; [reflexivity|]. split; [reflexivity|].
    rewrite <- Hm, map_length in Hb. exact Hb.
  Qed.
End Continue.
Lemma c99_no_worse N RNG M (O : numops N) (G : rng_ops N RNG) (W : world N M) RNG' M' (G' : rng_ops N RNG') (W' : world N M') : order_laws O ->
  forall m f a g t o r m' f' a' g' t' o' r', minimize O G W m f a g = (t, Some o, Ok (Some r)) -> resumes r a' ->
  minimize O G' W' m' f' a' g' = (t', Some o', Ok (Some r')) -> no_nan O (res_func_vals r') -> nleb O (res_fun r') (res_fun r) = true.
Proof.
  intros L m f a g t o r m' f' a' g' t' o' r' H1 Hr H2 Hn. destruct (c99_continues O G' W' m' f' g' Hr H2) as (r2 & E & [= <-] & _ & _ & _ & Ef & _).
  assert (Hn1 : no_nan O (res_func_vals r)) by (unfold no_nan in *; rewrite Ef in Hn; now apply Forall_app in Hn).
  destruct (c63_best G W L m f a g H1 Hn1) as (i & Hi & _). destruct (c63_best G' W' L m' f' a' g' H2 Hn) as (i' & _ & _ & Hl & _).
  apply (Hl i). rewrite Ef, nth_error_app1; [exact Hi|]. apply nth_error_Some. congruence.
Qed.

(** ** An objective that is defined less often *)
Section Mono.
  Context {N RNG M : Type} (O : numops N) (G : rng_ops N RNG) (W : world N M) (f f' : objective N) (Hf : forall k p y, f' k p = Ok y -> f k p = Ok y).
  Lemma points_more : forall xs k s s' ys, eval_points f' k xs s = (s', Ok ys) -> @eval_points N RNG M f k xs s = (s', Ok ys).
  Proof.
    induction xs as [|x xs IH]; intros k s s' ys; [auto|]. cbn [eval_points]. unfold mthen, emit, mlift. destruct (f' k x) as [y|] eqn:E; [|discriminate]. rewrite (Hf E).
    destruct (eval_points f' (S k) xs _) as [s1 [l|]] eqn:E1; [|discriminate]. now rewrite (IH _ _ _ _ E1).
  Qed.
  Lemma loop_more cbs : forall n k seen last s s' res, min_loop O G W f' cbs k n seen last s = (s', Ok res) -> min_loop O G W f cbs k n seen last s = (s', Ok res).
  Proof.
    induction n as [|n IH]; intros k seen last s s' res; [auto|]. cbn [min_loop]. unfold mthen at 1 6. destruct (onopt _ s) as [s1 [x|]]; [|discriminate].
    unfold mthen at 1 5. destruct (emit _ s1) as [s2 [u|]]; [|discriminate]. unfold mthen at 1 4, mlift. destruct (f' k x) as [y|] eqn:E; [|discriminate]. rewrite (Hf E).
    unfold mthen at 1 3. destruct (onopt _ s2) as [s3 [r|]]; [|discriminate]. unfold mthen. destruct (eval_callbacks cbs 0 seen r false s3) as [s4 [b|]]; [|discriminate].
    destruct b; [auto|]. apply IH.
  Qed.
  Lemma body_more cbs n x0 y0 s s' res : min_body O G W f' cbs n x0 y0 s = (s', Ok res) -> min_body O G W f cbs n x0 y0 s = (s', Ok res).
  Proof.
    unfold min_body. destruct x0 as [|p x0]; [apply loop_more|]. set (X := p :: x0). unfold mthen at 1. intros H. unfold mthen at 1.
    assert (P : forall s1 v, (match y0 with Y0None => mthen (eval_points f' 0 X) (fun ys => mret (ys, length ys)) | Y0Seq ys => mret (ys, 0) | _ => mlift (Raise ValueError) end) s = (s1, Ok v) ->
      (match y0 with Y0None => mthen (eval_points f 0 X) (fun ys => mret (ys, length ys)) | Y0Seq ys => mret (ys, 0) | _ => mlift (Raise ValueError) end) s = (s1, Ok v)).
    { intros s1 v. destruct y0; auto. unfold mthen. destruct (eval_points f' 0 X s) as [s2 [l|]] eqn:E; [|discriminate]. now rewrite (points_more _ _ _ E). }
    destruct (match y0 with Y0None => mthen (eval_points f' 0 X) _ | _ => _ end s) as [s1 [[ys k]|]]; [|discriminate]. rewrite (P s1 (ys, k) eq_refl).
    destruct (negb _); [exact H|]. unfold mthen in *. destruct (onopt _ s1) as [s2 [r|]]; [|discriminate]. destruct (eval_callbacks cbs 0 [] r false s2) as [s3 [b|]]; [|discriminate].
    destruct b; [exact H|]. now apply loop_more.
  Qed.
  Lemma base_more a g t o res : base_minimize O G W f' a g = (t, o, Ok res) -> base_minimize O G W f a g = (t, o, Ok res).
  Proof.
    unfold base_minimize. destruct (x0_items _); [|auto]. cbv zeta. destruct (_ && _); [auto|]. destruct (_ <? _)%Z; [auto|]. destruct (make_optimizer _ _ _ _ _) as [g1 [o1|]]; [|auto].
    destruct (mapM _ _); [|auto]. destruct (negb _); [auto|]. destruct (check_callback _); [|auto].
    destruct (min_body O G W f' _ _ _ _ _) as [[o2 t2] [r|]] eqn:E; [|discriminate]. rewrite (body_more _ _ _ _ _ E). auto.
  Qed.
  Lemma minimize_more m a g t o res : minimize O G W m f' a g = (t, o, Ok res) -> minimize O G W m f a g = (t, o, Ok res).
  Proof.
    destruct m; cbn [minimize]; unfold dummy_minimize, forest_minimize, gbrt_minimize, gp_minimize, forest_minimize; try apply base_more.
    - destruct (match m_x0 a with X0None => _ | _ => _ end); [apply base_more|auto].
    - destruct (set_kinds_all _ _); [|auto]. apply base_more.
  Qed.
End Mono.

(** ** All points of a documented minimisation lie in the space *)
Definition val_eq_dec (u v : pyval R) : {u = v} + {u <> v}.
Proof. decide equality; first [apply Req_EM_T|apply string_dec|apply Z.eq_dec|apply Bool.bool_dec]. Defined.
Definition in_dimb (d : dim R) (v : pyval R) : bool :=
  match d, v with
  | DReal r, VFloat x => nleb Rops (r_low r) x && nleb Rops x (r_high r)
  | DInt i, VInt z => (i_low i <=? z)%Z && (z <=? i_high i)%Z
  | DCat c, v => if in_dec val_eq_dec v (c_cats c) then true else false
  | _, _ => false
  end.
Lemma in_dimb_spec d v : in_dimb d v = true <-> in_dim Rops d v.
Proof.
  split.
  - destruct d as [r|i|c]; cbn [in_dimb].
    + destruct v; try discriminate. intros H. apply andb_true_iff in H. constructor; apply H.
    + destruct v; try discriminate. intros H. apply andb_true_iff in H. constructor. lia.
    + destruct (in_dec val_eq_dec v (c_cats c)); [|discriminate]. intros _. now constructor.
  - intros H. inversion H; subst; cbn [in_dimb].
    + now apply andb_true_iff.
    + apply andb_true_iff. lia.
    + destruct (in_dec val_eq_dec v (c_cats c)); [reflexivity|contradiction].
Qed.
Fixpoint in_spaceb (ds : list (dim R)) (p : point R) : bool :=
  match ds, p with [], [] => true | d :: ds, v :: p => in_dimb d v && in_spaceb ds p | _, _ => false end.
Lemma in_spaceb_spec ds : forall p, in_spaceb ds p = true <-> in_space Rops ds p.
Proof.
  unfold in_space. induction ds as [|d ds IH]; intros [|v p]; cbn [in_spaceb].
  - split; [constructor|reflexivity].
  - split; [discriminate|intros H; inversion H].
  - split; [discriminate|intros H; inversion H].
  - rewrite andb_true_iff, in_dimb_spec, IH. split; [intros []; now constructor|intros H; inversion H; auto].
Qed.
Definition guarded (ds : list (dim R)) (f : objective R) : objective R := fun k p => if in_spaceb ds p then f k p else Raise RuntimeError.
Lemma guarded_less ds f k p y : guarded ds f k p = Ok y -> in_space Rops ds p /\ f k p = Ok y.
Proof. unfold guarded. destruct (in_spaceb ds p) eqn:E; [|discriminate]. intros H. split; [now apply in_spaceb_spec|exact H]. Qed.
Lemma evaluated_in ds ps f k E : evaluated Rops ps (guarded ds f) k E -> Forall (in_space Rops ds) (map fst E).
Proof. induction 1 as [|k p y v L Hf _ _ IH]; [constructor|]. cbn [map fst]. constructor; [|exact IH]. now apply guarded_less in Hf. Qed.
Lemma given_unique N (x : x0arg N) l l' : given x l -> given x l' -> l = l'.
Proof.
  intros H H'. destruct H as [|b vs Hv|ps Hp]; inversion H' as [|b' vs' Hv' E'|l'' Hl' E']; try reflexivity.
  - f_equal. eapply map_inj; [|symmetry; eassumption]. congruence.
  - destruct vs, l''; try easy; cbn [map] in *; congruence.
  - destruct vs', ps; try easy; cbn [map] in *; congruence.
  - rewrite <- H0. eapply map_inj; [|symmetry; eassumption]. congruence.
Qed.
Lemma orderly_points RNG M (G : rng_ops R RNG) (W : world R M) : rng_ok Rops G -> forall m f (a : margs R RNG M) g x0 acq, m <> MDummy -> orderly m f a x0 acq -> up_to_it W anything m (m_opt a) acq ->
  forall t o r, minimize Rops G W m f a g = (t, Some o, Ok (Some r)) -> exists ps, res_x_iters r = map (@X1 R) ps /\ length ps = length (res_func_vals r) /\ ps <> [] /\ Forall (in_space Rops (a_dims (m_opt a))) ps.
Proof.
  intros RG m f a g x0 acq Hm H Hu t o r E. set (f' := guarded (a_dims (m_opt a)) f).
  assert (H' : orderly m f' a x0 acq).
  { destruct H as [H1 H2 H3 H4 H6 H7 H8 H9 H10]. constructor; try assumption. intros k p Hp. unfold f', guarded. rewrite (proj2 (in_spaceb_spec _ _) Hp). now apply H9. }
  destruct (c91 RG g Hm H' Hu) as (t1 & o1 & r1 & E1 & _). assert (E2 : minimize Rops G W m f a g = (t1, Some o1, Ok (Some r1))).
  { eapply minimize_more; [|exact E1]. intros k p y Hy. now apply guarded_less in Hy. }
  rewrite E in E2. injection E2 as _ _ ->. clear E. destruct (c28 Rops G W m f' a g E1) as (x1 & q & r & L & Hg & [= <-] & Hev & Hmm & K).
  destruct (c27_budget Rops G W m f' a g E1) as (x2 & r2 & _ & [= <-] & _ & Hl1 & Hl2). apply evaluated_in in Hev. pose proof (or_given H') as [Hg' Hin].
  assert (x1 = x0) as ->.
  { exact (given_unique Hg Hg'). }
  assert (Hne : res_x_iters r1 <> []).
  { destruct (c63_best G W Rops_order m f' a g E1) as (i & Hi & Hx & _); [apply Forall_forall; intros v _; apply RealSpace.num_R|]. intros Q. rewrite Q in Hx. now destruct i. }
  assert (Q : exists ps, res_x_iters r1 = map (@X1 R) ps /\ Forall (in_space Rops (a_dims (m_opt a))) ps).
  { destruct (values_of (m_y0 a)); [destruct x0|]; [| |].
    - destruct K as (_ & Kx & _). exists (map fst L). auto.
    - destruct K as (vs & _ & _ & Kx & _). exists ((p :: x0) ++ map fst L). split; [exact Kx|]. apply Forall_app. auto.
    - destruct K as (_ & Kx & _). exists (map fst L). auto. }
  destruct Q as (ps & Ex & Fp). exists ps. split; [exact Ex|]. split; [|split; [|exact Fp]].
  - rewrite Ex, map_length in Hl2. congruence.
  - intros ->. now apply Hne.
Qed.
Lemma c99_succeeds RNG M (G : rng_ops R RNG) (W : world R M) RNG' M' (G' : rng_ops R RNG') (W' : world R M') : rng_ok Rops G -> rng_ok Rops G' ->
  forall m f (a : margs R RNG M) g x0 acq t o r, m <> MDummy -> orderly m f a x0 acq -> up_to_it W anything m (m_opt a) acq -> minimize Rops G W m f a g = (t, Some o, Ok (Some r)) ->
  forall m' f' (a' a1 : margs R RNG' M') g' x1 acq', m' <> MDummy -> orderly m' f' a1 x1 acq' -> up_to_it W' anything m' (m_opt a1) acq' -> is_ps acq' = false ->
    a_dims (m_opt a1) = a_dims (m_opt a) -> resumes r a' -> same_but_start a1 a' -> (0 <= n_initial a')%Z -> (n_initial a' <= m_ncalls a')%Z ->
  exists t' o' r', minimize Rops G' W' m' f' a' g' = (t', Some o', Ok (Some r')) /\ (never_stops (callbacks_of a') -> Z.of_nat (length (evals t')) = m_ncalls a').
Proof.
  intros RG RG' m f a g x0 acq t o r Hm H Hu E m' f' a' a1 g' x1 acq' Hm' H' Hu' Hp Hd (ps & Ex & Ea & Ey) (So & Sc & Sv) Hn0 Hnc.
  destruct (orderly_points RG g Hm H Hu E) as (ps' & Ex' & Hl & Hne & Hin). rewrite Ex in Ex'. apply map_inj in Ex'; [|congruence]. subst ps'.
  apply (@c91 RNG' M' G' W' RG' m' f' a' g' ps acq' Hm'); [|rewrite So; exact Hu'].
  destruct H' as [H1 H2 H3 H4 H6 H7 H8 H9 H10]. constructor; rewrite ?So; try assumption.
  - rewrite Ea, Hd. split; [now constructor|exact Hin].
  - rewrite Ey. cbn [values_of]. rewrite map_length, Hp. split; [congruence|]. apply Forall_map, Forall_forall. intros v _. now exists v.
  - rewrite Ey. cbn [values_of]. split; [exact Hn0|]. split; [easy|lia].
  - unfold callbacks_of in *. rewrite Sc, Sv. exact H10.
Qed.
