(** The order of the observations does not matter to a Gaussian process regressor, and neither does the unit in which
    they are measured when they are normalised. *)
From Coq Require Import List ZArith Bool Reals Lra Lia Permutation FinFun.
From Verif Require Import Base BaseLemmas Kernels KernelPsdSpec Gpr GprSpec GprLemmas GprProps GprPosterior Psd KernelPsd GprCov GprCov2 Cholesky CholProps CholTotal.
Import ListNotations.
Open Scope R_scope.
Open Scope list_scope.

(** ** Reordered vectors *)
Lemma sum_perm l l' : Permutation l l' -> sum l = sum l'.
Proof. induction 1; cbn in *; unfold sum in *; cbn; lra. Qed.
Lemma sm_sum n f : sm n f = sum (map f (seq 0 n)).
Proof.
  induction n as [|n IH]; [reflexivity|]. cbn [sm]. rewrite IH, seq_S, map_app. unfold sum. rewrite fold_right_app. cbn.
  generalize (map f (seq 0 n)). intro l. induction l as [|a l IHl]; cbn; lra.
Qed.
Lemma sm_perm n p f : bFun n p -> bInjective n p -> sm n (fun i => f (p i)) = sm n f.
Proof.
  intros B I. rewrite !sm_sum, <- (map_map p f). apply sum_perm, Permutation_map. apply NoDup_Permutation_bis.
  - assert (G : forall l, (forall i, In i l -> (i < n)%nat) -> NoDup l -> NoDup (map p l)).
    { induction l as [|a l IH]; intros Hl N; [constructor|]. inversion N as [|? ? Na Nl]; subst. cbn. constructor.
      - intro Hin. apply in_map_iff in Hin. destruct Hin as (b & Eb & Ib). apply I in Eb; [subst; contradiction|apply Hl; now right|apply Hl; now left].
      - apply IH; [|exact Nl]. intros i Hi. apply Hl. now right. }
    apply G; [|apply seq_NoDup]. intros i Hi. apply in_seq in Hi. lia.
  - now rewrite map_length.
  - intros i Hi. apply in_map_iff in Hi. destruct Hi as (j & <- & Hj). apply in_seq in Hj. apply in_seq. specialize (B j). lia.
Qed.

Section Reorder.
  Context (n : nat) (p : nat -> nat) (Bp : bFun n p) (Ip : bInjective n p).
  Definition reordered {A} (d : A) (u u' : list A) : Prop := length u = n /\ length u' = n /\ forall i, (i < n)%nat -> nth i u' d = nth (p i) u d.

  Lemma dot_reordered u u' v v' : reordered 0 u u' -> reordered 0 v v' -> dot u' v' = dot u v.
  Proof.
    intros (Lu & Lu' & Hu) (Lv & Lv' & Hv). rewrite (dot_sm u' v' n Lu' Lv'), (dot_sm u v n Lu Lv).
    rewrite <- (sm_perm n p (fun i => nth i u 0 * nth i v 0) Bp Ip). apply sm_ext. intros i Hi. now rewrite Hu, Hv.
  Qed.
  Lemma mapM_reordered {A B} (dA : A) (dB : B) (f : A -> res B) X X' r : reordered dA X X' -> mapM f X = Ok r -> exists r', mapM f X' = Ok r' /\ reordered dB r r'.
  Proof.
    intros (LX & LX' & HX) H.
    assert (V : forall i, (i < n)%nat -> f (nth i X dA) = Ok (nth i r dB)).
    { intros i Hi. apply mapM_ok in H. destruct (Forall2_nth_ok _ _ _ H i (nth i X dA)) as (b & Hb & Fb); [apply nth_error_nth'; lia|].
      now rewrite (nth_error_nth _ _ dB Hb). }
    assert (T : exists r', mapM f X' = Ok r').
    { apply mapM_total. apply Forall_forall. intros x Hx. apply (In_nth _ _ dA) in Hx. destruct Hx as (i & Hi & <-). rewrite HX by lia.
      exists (nth (p i) r dB). apply V. apply Bp. lia. }
    destruct T as [r' Hr]. exists r'. split; [exact Hr|]. split; [rewrite (mapM_length _ _ H); exact LX|]. split; [rewrite (mapM_length _ _ Hr); exact LX'|].
    intros i Hi. apply mapM_ok in Hr. destruct (Forall2_nth_ok _ _ _ Hr i (nth i X' dA)) as (b & Hb & Fb); [apply nth_error_nth'; lia|].
    rewrite (nth_error_nth _ _ dB Hb). rewrite HX in Fb by exact Hi. rewrite (V (p i) (Bp i Hi)) in Fb. now injection Fb.
  Qed.
  Lemma map_reordered {A B} (dA : A) (dB : B) (f : A -> B) u u' : reordered dA u u' -> reordered dB (map f u) (map f u').
  Proof.
    intros (Lu & Lu' & Hu). split; [now rewrite map_length|]. split; [now rewrite map_length|]. intros i Hi.
    pose proof (Bp i Hi) as Hp. rewrite (nth_indep (map f u') dB (f dA)) by (rewrite map_length; lia). rewrite (nth_indep (map f u) dB (f dA)) by (rewrite map_length; lia).
    rewrite !map_nth. now rewrite Hu.
  Qed.

  (** ** Linear systems *)
  Definition same_entries (K K' : mat) : Prop := forall i j, (i < n)%nat -> (j < n)%nat -> entry K' i j = entry K (p i) (p j).
  Lemma solves_reordered K K' b b' w w' : square n K -> square n K' -> pd n (entry K') -> same_entries K K' -> reordered 0 b b' ->
    solves K b w -> solves K' b' w' -> reordered 0 w w'.
  Proof.
    intros [LK FK] [LK' FK'] [_ Pd] HK (_ & _ & Hb) [Lw Sw] [Lw' Sw']. unfold mat, vec in *. rewrite LK in Lw, Sw. rewrite LK' in Lw', Sw'. split; [exact Lw|]. split; [exact Lw'|].
    rewrite Forall_forall in FK, FK'.
    assert (Rk : forall i, (i < n)%nat -> length (nth i K []) = n) by (intros i Hi; apply FK, nth_In; lia).
    assert (Rk' : forall i, (i < n)%nat -> length (nth i K' []) = n) by (intros i Hi; apply FK', nth_In; lia).
    set (z := fun i => nth i w' 0 - nth (p i) w 0).
    assert (Z : forall i, (i < n)%nat -> sm n (fun j => entry K' i j * z j) = 0).
    { intros i Hi. pose proof (Bp i Hi) as Hp. rewrite (sm_ext n _ (fun j => entry K' i j * nth j w' 0 + (-1) * (entry K (p i) (p j) * nth (p j) w 0))).
      - rewrite sm_plus, sm_scal. rewrite (sm_perm n p (fun j => entry K (p i) j * nth j w 0) Bp Ip). unfold entry.
        rewrite <- (dot_sm _ _ n (Rk' i Hi) Lw'), <- (dot_sm _ _ n (Rk _ Hp) Lw). rewrite Sw', Sw, Hb by assumption. ring.
      - intros j Hj. unfold z. rewrite (HK i j Hi Hj). ring. }
    assert (Q : qf n (entry K') z = 0).
    { unfold qf. apply sm_zero. intros i Hi. rewrite (sm_ext n _ (fun j => z i * (entry K' i j * z j))) by (intros; ring). rewrite sm_scal, (Z i Hi). ring. }
    intros i Hi. destruct (Req_dec (z i) 0) as [E|E]; [unfold z in E; lra|]. specialize (Pd z ltac:(now exists i)). lra.
  Qed.
  (** The inverse solves the system, too *)
  Lemma inverse_solves K A b : square n K -> inverse_factor K A -> length b = n -> solves K b (map (dot b) (kinv A)).
  Proof.
    intros [LK FK] [LA HA] Lb. unfold mat, vec in *. split; [rewrite map_length, kinv_len; exact LA|]. intros i Hi. rewrite LK in Hi, HA, LA. unfold kinv. rewrite map_map.
    transitivity (dot b (map (fun r' => dot (nth i K []) (map (fun r => dot r r') A)) A)); [exact (dot_fubini (fun r r' => dot r r') (nth i K []) b A A)|].
    rewrite (dot_sm b _ n Lb) by (rewrite map_length; exact LA).
    rewrite (sm_ext n _ (fun j => if Nat.eqb j i then nth j b 0 else 0)).
    - rewrite sm_delta. apply Nat.ltb_lt in Hi. now rewrite Hi.
    - intros j Hj. rewrite (nth_map (fun r' => dot (nth i K []) (map (fun r => dot r r') A)) A []) by ln.
      transitivity (nth j b 0 * (if Nat.eqb i j then 1 else 0)); [f_equal; exact (HA i j Hi Hj)|].
      rewrite Nat.eqb_sym. destruct (Nat.eqb j i); ring.
  Qed.

  (** ** Two fitted regressors *)
  Definition alike (g g' : gp) : Prop :=
    reordered [] (g_X g) (g_X g') /\ g_kernel g' = g_kernel g /\ reordered 0 (g_alpha g) (g_alpha g') /\ g_ymean g' = g_ymean g /\ g_ystd g' = g_ystd g /\
    forall b b', reordered 0 b b' -> reordered 0 (map (dot b) (kinv (g_Linv g))) (map (dot b') (kinv (g_Linv g'))).
  Context (g g' : gp) (Hg : alike g g').
  Lemma kt_alike x kt : mapM (kcall (g_kernel g) 2 x) (g_X g) = Ok kt -> exists kt', mapM (kcall (g_kernel g') 2 x) (g_X g') = Ok kt' /\ reordered 0 kt kt'.
  Proof. destruct Hg as (HX & -> & _). apply (mapM_reordered []). exact HX. Qed.
  Lemma mean_alike x m : post_mean g x = Ok m -> post_mean g' x = Ok m.
  Proof.
    unfold post_mean. destruct (mapM (kcall (g_kernel g) 2 x) (g_X g)) as [kt|] eqn:E; [|discriminate]. destruct (kt_alike x kt E) as (kt' & -> & R). cbn [bind].
    destruct Hg as (_ & _ & Ha & -> & -> & _). now rewrite (dot_reordered _ _ _ _ R Ha).
  Qed.
  Lemma std_alike x s : post_std g x = Ok s -> post_std g' x = Ok s.
  Proof.
    unfold post_std. destruct (mapM (kcall (g_kernel g) 2 x) (g_X g)) as [kt|] eqn:E; [|discriminate]. destruct (kt_alike x kt E) as (kt' & -> & R). cbn [bind].
    destruct Hg as (_ & -> & _ & _ & -> & HA). now rewrite (dot_reordered _ _ _ _ R (HA _ _ R)).
  Qed.
  Lemma grad_alike x G : mapM (gradient_x (g_kernel g) 1 x) (g_X g) = Ok G -> exists G', mapM (gradient_x (g_kernel g') 1 x) (g_X g') = Ok G' /\ forall c, reordered 0 (col G c) (col G' c).
  Proof.
    destruct Hg as (HX & -> & _). intro E. destruct (mapM_reordered [] [] _ _ _ _ HX E) as (G' & E' & R). exists G'. split; [exact E'|]. intro c.
    exact (map_reordered [] 0 (fun v => nth c v 0) G G' R).
  Qed.
  Lemma mean_grad_alike x v : post_mean_grad g x = Ok v -> post_mean_grad g' x = Ok v.
  Proof.
    unfold post_mean_grad. destruct (mapM (gradient_x (g_kernel g) 1 x) (g_X g)) as [G|] eqn:E; [|discriminate]. destruct (grad_alike x G E) as (G' & -> & R). cbn [bind].
    intro H. rewrite <- H. f_equal. apply map_ext. intro c. destruct Hg as (_ & _ & Ha & _ & -> & _). now rewrite (dot_reordered _ _ _ _ (R c) Ha).
  Qed.
  Lemma std_grad_alike x v : post_std_grad g x = Ok v -> post_std_grad g' x = Ok v.
  Proof.
    unfold post_std_grad. destruct (mapM (kcall (g_kernel g) 2 x) (g_X g)) as [kt|] eqn:E; [|discriminate]. destruct (kt_alike x kt E) as (kt' & -> & R). cbn [bind].
    destruct (mapM (gradient_x (g_kernel g) 1 x) (g_X g)) as [G|] eqn:EG; [|discriminate]. destruct (grad_alike x G EG) as (G' & -> & RG). cbn [bind].
    destruct (post_std g x) as [s|] eqn:Es; [|discriminate]. rewrite (std_alike x s Es). cbn [bind]. intro H. rewrite <- H. f_equal.
    destruct (Rle_dec s (/ 100000000)); [reflexivity|]. apply map_ext. intro c. destruct Hg as (_ & _ & _ & _ & -> & HA).
    assert (F : forall (b : vec) (M : mat), map (fun row => dot row b) M = map (dot b) M) by (intros; apply map_ext; intro; apply dot_comm).
    now rewrite !F, (dot_reordered _ _ _ _ R (HA _ _ (RG c))).
  Qed.
End Reorder.

Section Predictions.
  Context (n : nat) (p : nat -> nat) (Bp : bFun n p) (Ip : bInjective n p).
  Lemma mapM_impl {A B} (f f' : A -> res B) : (forall x v, f x = Ok v -> f' x = Ok v) -> forall l r, mapM f l = Ok r -> mapM f' l = Ok r.
  Proof.
    intros H l. induction l as [|x l IH]; intros r; cbn [mapM]; [trivial|]. destruct (f x) as [v|] eqn:E; [|discriminate]. rewrite (H _ _ E). cbn [bind].
    destruct (mapM f l) as [vs|]; [|discriminate]. now rewrite (IH vs eq_refl).
  Qed.
  Lemma mapM_rel {A B} (f f' : A -> res B) (Q : B -> B -> Prop) : (forall x v, f x = Ok v -> exists v', f' x = Ok v' /\ Q v v') ->
    forall l r, mapM f l = Ok r -> exists r', mapM f' l = Ok r' /\ Forall2 Q r r'.
  Proof.
    intros H l. induction l as [|x l IH]; intros r; cbn [mapM]; [intro E; injection E as <-; exists []; split; [reflexivity|constructor]|].
    destruct (f x) as [v|] eqn:E; [|discriminate]. destruct (H _ _ E) as (v' & -> & Hv). cbn [bind].
    destruct (mapM f l) as [vs|]; [|discriminate]. destruct (IH vs eq_refl) as (vs' & -> & F). cbn [bind]. intro Er. injection Er as <-. exists (v' :: vs').
    split; [reflexivity|now constructor].
  Qed.
  Lemma zip_Forall2 {A B C} (Q : A -> A -> Prop) (f f' : A -> B -> C) : forall l l', Forall2 Q l l' -> (forall a a' b, Q a a' -> f a b = f' a' b) ->
    forall r, zip f l r = zip f' l' r.
  Proof.
    intros l l' F H. induction F as [|a a' l l' Ha F IH]; intros [|b r]; cbn; try reflexivity. unfold zip in *. cbn in *. now rewrite (H _ _ b Ha), IH.
  Qed.
  Lemma predict_alike e e' g g' X rs rc mg sg ans : e_fitted e = Some g -> e_fitted e' = Some g' -> alike n p g g' ->
    predict e X rs rc mg sg = Ok ans -> predict e' X rs rc mg sg = Ok ans.
  Proof.
    intros Eg Eg' Hg. unfold predict. destruct (rs && rc); [discriminate|]. destruct (sg && negb rs); [discriminate|]. destruct X as [|x X]; [discriminate|].
    destruct (_ && _); [discriminate|]. destruct rc; [discriminate|]. rewrite Eg, Eg'.
    destruct (mapM (post_mean g) (x :: X)) as [m|] eqn:Em; [|discriminate]. rewrite (mapM_impl _ _ (mean_alike n p Bp Ip g g' Hg) _ _ Em). cbn [bind].
    assert (Es : forall o, (if rs then v <- mapM (post_std g) (x :: X);; Ok (Some v) else Ok None) = Ok o ->
                           (if rs then v <- mapM (post_std g') (x :: X);; Ok (Some v) else Ok None) = Ok o).
    { intro o. destruct rs; [|trivial]. destruct (mapM (post_std g) (x :: X)) as [v|] eqn:E; [|discriminate]. now rewrite (mapM_impl _ _ (std_alike n p Bp Ip g g' Hg) _ _ E). }
    destruct (if rs then v <- mapM (post_std g) (x :: X);; Ok (Some v) else Ok None) as [o|]; [|discriminate]. rewrite (Es o eq_refl). cbn [bind].
    destruct mg; [|trivial]. destruct (post_mean_grad g x) as [gm|] eqn:Egm; [|discriminate]. rewrite (mean_grad_alike n p Bp Ip g g' Hg x gm Egm). cbn [bind].
    destruct sg; [|trivial]. destruct (post_std_grad g x) as [gs|] eqn:Egs; [|discriminate]. now rewrite (std_grad_alike n p Bp Ip g g' Hg x gs Egs).
  Qed.
  Lemma predict_cov_alike e e' g g' X mg sg ans : e_fitted e = Some g -> e_fitted e' = Some g' -> alike n p g g' ->
    predict_cov e X mg sg = Ok ans -> predict_cov e' X mg sg = Ok ans.
  Proof.
    intros Eg Eg' Hg. unfold predict_cov. destruct sg; [discriminate|]. destruct X as [|x X]; [discriminate|].
    destruct (_ && _); [discriminate|]. rewrite Eg, Eg'.
    destruct (mapM (fun x => mapM (kcall (g_kernel g) 2 x) (g_X g)) (x :: X)) as [kts|] eqn:Ek; [|discriminate].
    destruct (mapM_rel _ (fun x => mapM (kcall (g_kernel g') 2 x) (g_X g')) (reordered n p 0) (kt_alike n p Bp g g' Hg) _ _ Ek) as (kts' & -> & F). cbn [bind].
    destruct (mapM (post_mean g) (x :: X)) as [m|] eqn:Em; [|discriminate]. rewrite (mapM_impl _ _ (mean_alike n p Bp Ip g g' Hg) _ _ Em). cbn [bind].
    destruct Hg as (_ & -> & _ & _ & -> & HA). destruct (train_matrix (g_kernel g) 0 (x :: X)) as [P|]; [|discriminate]. cbn [bind]. intro H. rewrite <- H. do 2 f_equal.
    symmetry. apply (zip_Forall2 _ _ _ _ _ F). intros kt kt' row Hkt. apply (zip_Forall2 _ _ _ _ _ F). intros kt2 kt2' v Hkt2.
    now rewrite (dot_reordered n p Bp Ip _ _ _ _ Hkt (HA _ _ Hkt2)).
  Qed.
End Predictions.

(** ** fit *)
Lemma combine_nth_lt {A B} (l : list A) (l' : list B) a b i : length l = length l' -> nth i (combine l l') (a, b) = (nth i l a, nth i l' b).
Proof. intro H. now apply combine_nth. Qed.
Lemma combine_map_snd {A B C} (f : B -> C) : forall (l : list A) (l' : list B), combine l (map f l') = map (fun q => (fst q, f (snd q))) (combine l l').
Proof. induction l as [|a l IH]; intros [|b l']; cbn; [reflexivity..|]. now rewrite IH. Qed.
Lemma map_snd_combine {A B} : forall (l : list A) (l' : list B), length l = length l' -> map snd (combine l l') = l'.
Proof. induction l as [|a l IH]; intros [|b l']; cbn; try discriminate; [reflexivity|]. intro H. now rewrite IH by lia. Qed.
Lemma mean_perm y y' : Permutation y y' -> mean y = mean y'.
Proof. intro P. unfold mean. now rewrite (sum_perm _ _ P), (Permutation_length P). Qed.
Lemma std_perm y y' : Permutation y y' -> std y = std y'.
Proof. intro P. unfold std. rewrite (mean_perm y y' P). f_equal. apply mean_perm. now apply Permutation_map. Qed.

Section Order.
  Context (tune : kernel -> mat -> vec -> kernel) (d : nat).
  Context (Ht : forall k X y, valid k d -> valid (tune k X y) d).
  Context (Hp : forall k X y X' y', length X = length y -> length X' = length y' -> Permutation (combine X y) (combine X' y') -> tune k X y = tune k X' y').

  Lemma order_fit e X y X' y' e1 : valid (user_kernel e) d -> noise_ok (e_noise e) -> 0 <= e_alpha e -> Forall (fun x => length x = d) X ->
    length X = length y -> length X' = length y' -> Permutation (combine X y) (combine X' y') -> fit tune cho_inv cho_weights e X y = Ok e1 ->
    exists e2 g g' p, fit tune cho_inv cho_weights e X' y' = Ok e2 /\ e_fitted e1 = Some g /\ e_fitted e2 = Some g' /\ bFun (length X) p /\ bInjective (length X) p /\
      alike (length X) p g g'.
  Proof.
    intros Vu Vn Ha FX Ly Ly' HP H.
    assert (Py : Permutation y y') by (apply (Permutation_map snd) in HP; now rewrite !map_snd_combine in HP).
    destruct (fit_inv _ _ _ _ _ _ _ H) as (k & mm & ss & K & A & g & Ek & Zs & Ems & EK & EA & Eg & _ & _ & _ & _ & GX & Ga & Gl & Gm & Gs & Gk).
    assert (Vk : valid k d).
    { unfold fit_kernel in Ek. fold (user_kernel e) in Ek. destruct (e_noise e) as [| | |v]; try discriminate; injection Ek as <-; [exact Vu| |]; (split; [exact Vu|]); [cbn; lra|exact Vn]. }
    set (yn := map (fun v => (v - mm) / ss) y) in *. set (yn' := map (fun v => (v - mm) / ss) y').
    assert (HPn : Permutation (combine X yn) (combine X' yn')) by (unfold yn, yn'; rewrite !combine_map_snd; now apply Permutation_map).
    assert (Lyn : length X = length yn) by (unfold yn; now rewrite map_length). assert (Lyn' : length X' = length yn') by (unfold yn'; now rewrite map_length).
    pose proof (Hp k X yn X' yn' Lyn Lyn' HPn) as Et. pose proof (Ht k X yn Vk) as Vt. set (k' := tune k X yn) in *. cbv zeta in Gk.
    set (n := length X) in *.
    destruct (proj1 (Permutation_nth (combine X yn) (combine X' yn') ([], 0)) HPn) as (Lc & p & Bp & Ip & Hn).
    rewrite !combine_length, <- Lyn, <- Lyn', !Nat.min_id in Lc. rewrite combine_length, <- Lyn, Nat.min_id in Bp, Ip, Hn. fold n in Lc, Bp, Ip, Hn.
    assert (HX : reordered n p [] X X').
    { split; [reflexivity|]. split; [exact Lc|]. intros i Hi. specialize (Hn i Hi). rewrite !combine_nth_lt in Hn by assumption. now injection Hn. }
    assert (Hy : reordered n p 0 yn yn').
    { split; [now rewrite <- Lyn|]. split; [rewrite <- Lyn'; exact Lc|]. intros i Hi. specialize (Hn i Hi). rewrite !combine_nth_lt in Hn by assumption. now injection Hn. }
    assert (FX' : Forall (fun x => length x = d) X').
    { apply Forall_forall. intros x Ix. apply (In_nth _ _ []) in Ix. destruct Ix as (i & Hi & <-). rewrite (proj2 (proj2 HX)) by lia. rewrite Forall_forall in FX. apply FX, nth_In. apply Bp. lia. }
    destruct (c78 k' d X (e_alpha e) Vt FX Ha) as (K0 & EK0 & LK & (FK & SK & _) & _). rewrite EK in EK0. injection EK0 as <-.
    destruct (c78 k' d X' (e_alpha e) Vt FX' Ha) as (K' & EK' & LK' & (FK' & SK' & _) & _).
    assert (Sq : square n K) by (split; [exact LK|unfold n; rewrite <- LK; exact FK]).
    assert (Sq' : square n K') by (split; [rewrite <- Lc; exact LK'|]; rewrite <- Lc, <- LK'; exact FK').
    assert (Se : same_entries n p K K').
    { destruct (train_entries _ _ _ _ EK) as (_ & _ & T). destruct (train_entries _ _ _ _ EK') as (_ & _ & T').
      intros i j Hi Hj. pose proof (Bp i Hi) as Hpi. pose proof (Bp j Hj) as Hpj. destruct (T' i j) as (v' & Ev' & ->); [lia..|]. destruct (T (p i) (p j) Hpi Hpj) as (v & Ev & ->).
      rewrite !(proj2 (proj2 HX)) in Ev' by assumption.
      assert (Ee : Nat.eqb (p i) (p j) = Nat.eqb i j).
      { destruct (Nat.eqb_spec i j) as [->|N]; [apply Nat.eqb_refl|]. apply Nat.eqb_neq. intro C. apply N. now apply Ip. }
      rewrite Ee in Ev |- *. rewrite Ev in Ev'. now injection Ev' as ->. }
    assert (Pk : positive_definite K) by (apply (cho_iff K (conj FK SK)); eauto).
    assert (Pd : pd n (entry K)).
    { unfold cho_inv, cholesky in EA. rewrite LK in EA. fold n in EA. destruct (chol n K) as [L|] eqn:EL; [|discriminate].
      assert (Sy : symm n (entry K)) by (intros i j _ _; apply SK). pose proof (chol_factor _ _ _ Sq Sy EL) as HF. split; [exact Sy|].
      intros c Hc. now apply (factor_pos _ _ _ _ HF). }
    assert (Pd' : pd n (entry K')).
    { split; [intros i j _ _; apply SK'|]. intros c (i & Hi & Ci).
      (* the weights in the old order *)
      set (inv := fun j => match find (fun i => Nat.eqb (p i) j) (seq 0 n) with Some i => i | None => 0%nat end).
      assert (Hinv : forall i, (i < n)%nat -> inv (p i) = i).
      { intros a La. unfold inv. destruct (find _ _) as [b|] eqn:Eb.
        - apply find_some in Eb. destruct Eb as [Ib Eb]. apply in_seq in Ib. apply Nat.eqb_eq in Eb. apply Ip; [lia|exact La|exact Eb].
        - exfalso. eapply find_none in Eb; [|apply in_seq; split; [apply Nat.le_0_l|exact La]]. rewrite Nat.eqb_refl in Eb. discriminate. }
      assert (Q : qf n (entry K') c = qf n (entry K) (fun j => c (inv j))).
      { unfold qf. rewrite <- (sm_perm n p (fun i => sm n (fun j => c (inv i) * c (inv j) * entry K i j)) Bp Ip). apply sm_ext. intros a La.
        rewrite <- (sm_perm n p (fun j => c (inv (p a)) * c (inv j) * entry K (p a) j) Bp Ip). apply sm_ext. intros b Lb. rewrite (Se a b La Lb), !Hinv by assumption. reflexivity. }
      rewrite Q. apply (proj2 Pd). exists (p i). split; [now apply Bp|]. now rewrite Hinv. }
    assert (Pk' : exists A', cho_inv K' = Some A').
    { unfold cho_inv, cholesky. rewrite (proj1 Sq'). destruct (chol_exists n K' Sq' Pd') as [L ->]. cbn. eauto. }
    destruct Pk' as [A' EA'].
    destruct (cho_ok K A (conj FK SK) EA) as [If Sol]. destruct (cho_ok K' A' (conj FK' SK') EA') as [If' Sol'].
    assert (Ems' : (if e_normalize e then (mean y', std y') else (0, 1)) = (mm, ss)).
    { rewrite Ems. destruct (e_normalize e); [|reflexivity]. now rewrite (mean_perm _ _ Py), (std_perm _ _ Py). }
    pose (kn := match e_noise e with
                | NoNoise => (k', None)
                | _ => match k' with White _ => (White 0, None) | _ => match white_path k' with Some q => (zero_at k' q, level_at k' q) | None => (k', None) end end
                end).
    pose (g' := mkGp X' (fst kn) (cho_weights K' yn') A' mm ss (snd kn)).
    exists (mkGpr (Some k) (e_noise e) (e_alpha e) (e_normalize e) (Some g')), g, g', p.
    split; [|split; [exact Eg|]; split; [reflexivity|]; split; [exact Bp|]; split; [exact Ip|]].
    - unfold fit. rewrite Ek. cbn [bind]. rewrite Ems'. destruct (Req_EM_T ss 0); [contradiction|]. fold yn'. cbv zeta. rewrite <- Et, EK'. cbn [bind]. rewrite EA'.
      unfold g'. fold kn. destruct kn as [k2 nz]. reflexivity.
    - assert (Gk' : (g_kernel g, g_noise g) = kn) by exact Gk. split; [rewrite GX; exact HX|]. split; [cbn; now rewrite <- Gk'|]. split.
      + rewrite Ga. cbn. apply (solves_reordered n p Bp Ip K K' yn yn'); auto; [apply Sol|apply Sol']; ln.
      + split; [now rewrite Gm|]. split; [now rewrite Gs|]. intros b b' Hb. rewrite Gl. cbn. pose proof Hb as (Lb & Lb' & _).
        apply (solves_reordered n p Bp Ip K K' b b'); auto; now apply (inverse_solves n).
  Qed.
  Lemma c94_order e X y X' y' e1 : valid (user_kernel e) d -> match e_noise e with NoiseLevel v => 0 <= v | _ => True end -> 0 <= e_alpha e -> Forall (fun x => length x = d) X ->
    length X = length y -> length X' = length y' -> Permutation (combine X y) (combine X' y') -> fit tune cho_inv cho_weights e X y = Ok e1 ->
    exists e2, fit tune cho_inv cho_weights e X' y' = Ok e2 /\
      (forall Xs rs rc mg sg ans, predict e1 Xs rs rc mg sg = Ok ans <-> predict e2 Xs rs rc mg sg = Ok ans) /\
      (forall Xs mg sg ans, predict_cov e1 Xs mg sg = Ok ans <-> predict_cov e2 Xs mg sg = Ok ans).
  Proof.
    intros Vu Vn Ha FX Ly Ly' HP H. destruct (order_fit e X y X' y' e1 Vu Vn Ha FX Ly Ly' HP H) as (e2 & g & g' & p & H2 & Eg & Eg' & Bp & Ip & Al).
    exists e2. split; [exact H2|].
    assert (FX' : Forall (fun x => length x = d) X').
    { apply (Permutation_map fst) in HP. assert (Mf : forall (l : mat) (l' : vec), length l = length l' -> map fst (combine l l') = l).
      { induction l as [|a l IH]; intros [|b l']; cbn; try discriminate; [reflexivity|]. intro E. now rewrite IH by ln. }
      rewrite !Mf in HP by assumption. eapply Permutation_Forall; [exact HP|exact FX]. }
    destruct (order_fit e X' y' X y e2 Vu Vn Ha FX' Ly' Ly (Permutation_sym HP) H2) as (e3 & g2 & g3 & q & H3 & Eg2 & Eg3 & Bq & Iq & Al').
    rewrite H in H3. injection H3 as <-. split.
    - intros. split; [now apply (predict_alike _ p Bp Ip e1 e2 g g')|now apply (predict_alike _ q Bq Iq e2 e1 g2 g3)].
    - intros. split; [now apply (predict_cov_alike _ p Bp Ip e1 e2 g g')|now apply (predict_cov_alike _ q Bq Iq e2 e1 g2 g3)].
  Qed.
End Order.
