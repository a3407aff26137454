(** With normalised observations a regressor does not depend on the unit in which they are measured. *)
From Coq Require Import List ZArith Bool Reals Lra Lia.
From Verif Require Import Base BaseLemmas Kernels Gpr GprSpec GprLemmas GprProps GprPosterior GprOrder.
Import ListNotations.
Open Scope R_scope.
Open Scope list_scope.

Section Affine.
  Context (a b : R) (Pa : 0 < a).
  Lemma sum_affine y : sum (map (fun v => a * v + b) y) = a * sum y + b * INR (length y).
  Proof.
    induction y as [|v y IH]; [cbn; ring|]. cbn [map length]. rewrite S_INR. change (sum (a * v + b :: map (fun v => a * v + b) y)) with (a * v + b + sum (map (fun v => a * v + b) y)).
    rewrite IH. change (sum (v :: y)) with (v + sum y). ring.
  Qed.
  Lemma mean_affine y : y <> [] -> mean (map (fun v => a * v + b) y) = a * mean y + b.
  Proof.
    intro NE. unfold mean. rewrite sum_affine, map_length. assert (0 < INR (length y)) by (apply lt_0_INR; destruct y; [contradiction|cbn; lia]). field. lra.
  Qed.
  Lemma sum_scaled c : forall y, sum (map (fun v => c * v) y) = c * sum y.
  Proof.
    induction y as [|v y IH]; [cbn; ring|]. cbn [map]. change (sum (c * v :: map (fun v => c * v) y)) with (c * v + sum (map (fun v => c * v) y)).
    rewrite IH. change (sum (v :: y)) with (v + sum y). ring.
  Qed.
  Lemma std_affine y : y <> [] -> std (map (fun v => a * v + b) y) = a * std y.
  Proof.
    intro NE. unfold std. rewrite (mean_affine y NE), map_map. set (m := mean y).
    rewrite (map_ext (fun v => sqr (a * v + b - (a * m + b))) (fun v => (a * a) * sqr (v - m))) by (intro; unfold sqr; ring).
    unfold mean. rewrite !map_length, <- (map_map (fun v => sqr (v - m)) (fun v => a * a * v)), sum_scaled.
    replace (a * a * sum (map (fun v => sqr (v - m)) y) / INR (length y)) with ((a * a) * (sum (map (fun v => sqr (v - m)) y) / INR (length y))) by (unfold Rdiv; ring).
    rewrite sqrt_mult_alt by nra. rewrite sqrt_square by lra. reflexivity.
  Qed.
  Lemma std_nil : std [] = 0.
  Proof. unfold std, mean. cbn. unfold Rdiv. rewrite Rmult_0_l. exact sqrt_0. Qed.

  (** ** The two fitted regressors *)
  Definition scaled_gp (g : gp) : gp := mkGp (g_X g) (g_kernel g) (g_alpha g) (g_Linv g) (a * g_ymean g + b) (a * g_ystd g) (g_noise g).
  Lemma fit_affine tune linv solve e X y e1 : e_normalize e = true -> fit tune linv solve e X y = Ok e1 ->
    exists e2 g, fit tune linv solve e X (map (fun v => a * v + b) y) = Ok e2 /\ e_fitted e1 = Some g /\ e_fitted e2 = Some (scaled_gp g).
  Proof.
    intros Hn H. unfold fit in *. rewrite Hn in *. destruct (fit_kernel e) as [k|]; [|discriminate]. cbn [bind] in *.
    assert (NE : y <> []) by (intros ->; rewrite std_nil in H; destruct (Req_EM_T 0 0); [discriminate|congruence]).
    rewrite (mean_affine y NE), (std_affine y NE). destruct (Req_EM_T (std y) 0) as [|Ns]; [discriminate|].
    destruct (Req_EM_T (a * std y) 0) as [E|_]; [apply Rmult_integral in E; lra|]. cbv zeta in *. rewrite map_map.
    rewrite (map_ext (fun v => (a * v + b - (a * mean y + b)) / (a * std y)) (fun v => (v - mean y) / std y)) by (intro; field; split; lra).
    destruct (train_matrix (tune k X (map (fun v => (v - mean y) / std y) y)) (e_alpha e) X) as [K|]; [|discriminate]. cbn [bind] in *.
    destruct (linv K) as [A|]; [|discriminate]. destruct (match e_noise e with NoNoise => _ | _ => _ end) as [k2 nz]. injection H as <-. cbn. eexists. eexists.
    split; [reflexivity|]. split; reflexivity.
  Qed.
  Lemma post_mean_affine g x : post_mean (scaled_gp g) x = rmap (fun m => a * m + b) (post_mean g x).
  Proof. unfold post_mean. cbn. destruct (mapM _ _); [|reflexivity]. cbn. f_equal. ring. Qed.
  Lemma post_std_affine g x : post_std (scaled_gp g) x = rmap (fun s => a * s) (post_std g x).
  Proof.
    unfold post_std. cbn. destruct (mapM _ _) as [kt|]; [|reflexivity]. cbn. destruct (kdiag _ _) as [v|]; [|reflexivity]. cbn. f_equal.
    set (w := if Rlt_dec _ 0 then 0 else _). replace (w * sqr (a * g_ystd g)) with ((a * a) * (w * sqr (g_ystd g))) by (unfold sqr; ring).
    rewrite sqrt_mult_alt by nra. rewrite sqrt_square by lra. reflexivity.
  Qed.
  Lemma mean_grad_affine g x : post_mean_grad (scaled_gp g) x = rmap (map (fun v => a * v)) (post_mean_grad g x).
  Proof. unfold post_mean_grad. cbn. destruct (mapM _ _) as [G|]; [|reflexivity]. cbn. f_equal. rewrite map_map. apply map_ext. intro c. ring. Qed.
  Lemma mapM_rmap {A B C} (f : A -> res B) (h : B -> C) l : mapM (fun x => rmap h (f x)) l = rmap (map h) (mapM f l).
  Proof. induction l as [|x l IH]; [reflexivity|]. cbn. rewrite IH. destruct (f x); [|reflexivity]. cbn. now destruct (mapM f l). Qed.

  Definition scaled_answer (q : answer) : answer :=
    mkAnswer (map (fun m => a * m + b) (a_mean q)) (option_map (map (fun s => a * s)) (a_std q)) (option_map (map (fun v => a * v)) (a_mean_grad q)) (a_std_grad q).
  Lemma predict_affine e e' g X rs mg : e_fitted e = Some g -> e_fitted e' = Some (scaled_gp g) ->
    predict e' X rs false mg false = rmap scaled_answer (predict e X rs false mg false).
  Proof.
    intros E E'. unfold predict. rewrite andb_false_r. cbn [andb]. destruct X as [|x X]; [reflexivity|]. destruct (_ && _); [reflexivity|]. rewrite E, E'.
    rewrite (mapM_ext (post_mean (scaled_gp g)) (fun x => rmap (fun m => a * m + b) (post_mean g x)) (x :: X)) by (intros; apply post_mean_affine).
    rewrite (mapM_ext (post_std (scaled_gp g)) (fun x => rmap (fun s => a * s) (post_std g x)) (x :: X)) by (intros; apply post_std_affine).
    rewrite !mapM_rmap, mean_grad_affine. destruct (mapM (post_mean g) (x :: X)) as [m|]; [|reflexivity]. cbn [rmap bind].
    assert (M : forall o : option vec, (if mg then gm <- rmap (map (fun v => a * v)) (post_mean_grad g x);; Ok (mkAnswer (map (fun m => a * m + b) m) (option_map (map (fun s => a * s)) o) (Some gm) None)
                          else Ok (mkAnswer (map (fun m => a * m + b) m) (option_map (map (fun s => a * s)) o) None None)) =
      rmap scaled_answer (if mg then gm <- post_mean_grad g x;; Ok (mkAnswer m o (Some gm) None) else Ok (mkAnswer m o None None))).
    { intro o. destruct mg; [|reflexivity]. destruct (post_mean_grad g x); reflexivity. }
    destruct rs; [|exact (M None)]. destruct (mapM (post_std g) (x :: X)) as [s|]; [|reflexivity]. exact (M (Some s)).
  Qed.
  Lemma map_zip {A B C D} (h : C -> D) (f : A -> B -> C) l l' : map h (zip f l l') = zip (fun x y => h (f x y)) l l'.
  Proof. unfold zip. now rewrite map_map. Qed.
  Lemma predict_cov_affine e e' g X mg sg : e_fitted e = Some g -> e_fitted e' = Some (scaled_gp g) ->
    predict_cov e' X mg sg = rmap (fun q => (map (fun m => a * m + b) (fst q), map (map (fun c => a * a * c)) (snd q))) (predict_cov e X mg sg).
  Proof.
    intros E E'. unfold predict_cov. destruct sg; [reflexivity|]. destruct X as [|x X]; [reflexivity|]. destruct (_ && _); [reflexivity|]. rewrite E, E'.
    rewrite (mapM_ext (post_mean (scaled_gp g)) (fun x => rmap (fun m => a * m + b) (post_mean g x)) (x :: X)) by (intros; apply post_mean_affine).
    rewrite mapM_rmap. cbn [scaled_gp g_kernel g_X g_Linv g_ystd]. destruct (mapM (fun x => mapM _ _) (x :: X)) as [kts|]; [|reflexivity]. cbn [bind].
    destruct (mapM (post_mean g) (x :: X)) as [m|]; [|reflexivity]. cbn [rmap bind]. destruct (train_matrix _ _ _) as [P|]; [|reflexivity]. cbn [rmap bind fst snd]. do 2 f_equal.
    rewrite map_zip. unfold zip at 1 3. apply map_ext. intros [kt row]. cbn [fst snd]. rewrite map_zip. unfold zip. apply map_ext. intros [kt' v]. cbn [fst snd]. unfold sqr. ring.
  Qed.
End Affine.
Lemma c94_unit tune linv solve a b e X y e1 : 0 < a -> e_normalize e = true -> fit tune linv solve e X y = Ok e1 ->
  exists e2, fit tune linv solve e X (map (fun v => a * v + b) y) = Ok e2 /\
    (forall Xs rs mg m s gm sd, predict e1 Xs rs false mg false = Ok (mkAnswer m s gm sd) ->
       predict e2 Xs rs false mg false = Ok (mkAnswer (map (fun v => a * v + b) m) (option_map (map (fun v => a * v)) s) (option_map (map (fun v => a * v)) gm) sd)) /\
    (forall Xs m C, predict_cov e1 Xs false false = Ok (m, C) ->
       predict_cov e2 Xs false false = Ok (map (fun v => a * v + b) m, map (map (fun c => a * a * c)) C)).
Proof.
  intros Pa Hn H. destruct (fit_affine a b Pa tune linv solve e X y e1 Hn H) as (e2 & g & H2 & E1 & E2). exists e2. split; [exact H2|]. split.
  - intros Xs rs mg m s gm sd Hq. rewrite (predict_affine a b Pa e1 e2 g Xs rs mg E1 E2), Hq. reflexivity.
  - intros Xs m C Hq. rewrite (predict_cov_affine a b e1 e2 g Xs false false E1 E2), Hq. reflexivity.
Qed.
