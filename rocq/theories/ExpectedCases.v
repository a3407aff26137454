From Coq Require Import String List ZArith Bool Lia Reals Lra.
From Flocq Require Import Core.Core IEEE754.BinarySingleNaN.
From Verif Require Import Base BaseLemmas Num Values Transformers Dimension Space NumLaws SpaceSpec Optimizer OptSpec
  Samples SpaceProps SpaceProps2 Expected ExpectedSpec ExpectedLemmas.
Import ListNotations.
Open Scope list_scope.
Set Implicit Arguments.

(** The whole statement for Real-only spaces. *)
Lemma c60_real L RNG (G : rng_ops float RNG) predict sp dims x n g p v : real_only dims ->
  descends (F64 L) (surface (F64 L) predict dims) (space_bounds (F64 L) dims) sp ->
  expected_minimum (F64 L) G predict f64_below sp dims x n g = Ok (p, v) ->
  exists starts xs, (if (0 <? n)%Z then fst (space_rvs (F64 L) G dims (Z.to_nat n) g) = Ok starts else starts = []) /\
    p = map (@VFloat float) xs /\ in_space (F64 L) dims p /\ surface (F64 L) predict dims xs = Ok v /\
    forall x0 ys v0, In x0 (x :: starts) -> nums (F64 L) x0 = Ok ys -> surface (F64 L) predict dims ys = Ok v0 -> fleb v v0 = true.
Proof.
  intros Hr HD H. apply (@c60_min _ _ _ (F64_order L) G predict f64_below sp (f64_infinite L) dims x n g p v (real_only_cat Hr) HD) in H.
  destruct H as (starts & xs & A & -> & B & C & D). exists starts, xs. repeat split; auto. now apply real_space.
Qed.

(** A minimiser that does not move. *)
Section Stay.
  Context {N : Type} (O : numops N).
  Definition stay (f : list N -> res N) (x0 : list (pyval N)) (b : list (N * N)) : res (list N * N) :=
    xs <- nums O x0 ;;
    if Nat.eqb (length xs) (length b) && forallb (fun bc => nleb O (fst (fst bc)) (snd bc) && nleb O (snd bc) (snd (fst bc))) (combine b xs)
    then v <- f xs ;; if nisnan O v then Raise ValueError else Ok (xs, v)
    else Raise ValueError.
  Lemma stay_descends f b : descends O f b stay.
  Proof.
    intros x0 x v H. unfold stay in H. destruct (nums O x0) as [xs|] eqn:E; [|discriminate]. cbn [bind] in H.
    destruct (Nat.eqb (length xs) (length b) && _) eqn:B; [|discriminate]. apply andb_true_iff in B. destruct B as [B1 B2]. apply Nat.eqb_eq in B1.
    destruct (f xs) as [w|] eqn:F; [|discriminate]. cbn [bind] in H. destruct (nisnan O w) eqn:Nw; [discriminate|]. injection H as <- <-.
    split; [|split; [easy|split; [easy|]]].
    - clear -B1 B2. revert b B1 B2. induction xs as [|c xs IH]; intros [|a b] B1 B2; try discriminate; constructor.
      + cbn in B2. apply andb_true_iff in B2. destruct B2 as [B2 _]. now apply andb_true_iff in B2.
      + cbn in B2. apply andb_true_iff in B2. apply IH; [now injection B1|easy].
    - intros ys v0 E1 F1. assert (ys = xs) by congruence. subst ys. assert (v0 = w) by congruence. subst v0. unfold nisnan in Nw. now apply negb_false_iff in Nw.
  Qed.
End Stay.

Definition first_of (row : list (pyval float)) : res float := match row with VFloat x :: _ => Ok x | _ => Raise TypeError end.
Definition pred0 (Xt : list (list (pyval float))) : res (list float) := 
  mapM (fun row => match row with VFloat x :: _ => if nisnan O0 x then Raise ValueError else Ok x | _ => Raise TypeError end) Xt.
Lemma pred0_ok Xt y : pred0 Xt = Ok y -> length y = length Xt /\ no_nan O0 y.
Proof.
  intro H. unfold pred0 in H. split; [apply (mapM_length _ _ H)|]. apply Forall_forall. intros v Hv. destruct (mapM_in _ _ _ H Hv) as (row & _ & E).
  destruct row as [|[] row]; try discriminate. destruct (nisnan O0 x) eqn:Q; [discriminate|]. now injection E as <-.
Qed.
Definition space5 : list (dim float) := [real1 KNormalize; int1 KNormalize; cat3 KOnehot].
Lemma c60_random_case : rng_ok O0 G0 /\ pow_ok L0 /\ space5 <> [] /\ Forall (samplable L0) space5 /\
  (forall Xt y, pred0 Xt = Ok y -> length y = length Xt /\ no_nan O0 y) /\
  exists x v, expected_minimum_random_sampling O0 G0 pred0 space5 3 1 = Ok (x, v) /\ map view x = [VFloat (SpecFloat.S754_finite true 5629499534213120 (-50)); VInt 5; VStr "c"]%string.
Proof.
  destruct C06_sample as (A & B & C & _). split; [easy|]. split; [easy|]. split; [discriminate|]. split.
  { constructor; [|constructor; [|constructor; [|constructor]]].
    + split; [apply wf_real1; auto|]. split; [split; [|split]; now vm_compute|]. intros E; discriminate E.
    + split; [apply wf_int1; auto|]. split; [split; [|split]; now vm_compute|]. intros E; discriminate E.
    + split; [apply wf_cat3|]. now vm_compute. }
  split; [exact pred0_ok|]. 
  assert (Q : match expected_minimum_random_sampling O0 G0 pred0 space5 3 1 with Ok (x, v) => map view x = [VFloat (SpecFloat.S754_finite true 5629499534213120 (-50)); VInt 5; VStr "c"]%string | _ => False end) by now vm_compute.
  destruct (expected_minimum_random_sampling O0 G0 pred0 space5 3 1) as [[x v]|]; [|easy]. now exists x, v.
Qed.
Definition space6 : list (dim float) := [real1 KNormalize; real1 KIdentity].
Lemma c60_real_case : real_only space6 /\ descends O0 (surface O0 pred0 space6) (space_bounds O0 space6) (stay O0) /\
  exists p v, expected_minimum O0 G0 pred0 f64_below (stay O0) space6 [VFloat fhalf; VFloat fhalf] 2 0 = Ok (p, v).
Proof.
  split; [repeat constructor|]. split; [apply stay_descends|].
  assert (Q : match expected_minimum O0 G0 pred0 f64_below (stay O0) space6 [VFloat fhalf; VFloat fhalf] 2 0 with Ok _ => True | _ => False end) by now vm_compute.
  destruct (expected_minimum _ _ _ _ _ _ _ _ _) as [[p v]|]; [|easy]. now exists p, v.
Qed.

(** An Integer dimension: the point found need not be a point of the space. *)
Open Scope R_scope.
Definition ints3 : list (dim R) := [DInt (mkInt 0 3 PUniform 10 KIdentity None int64)].
Definition parabola (Xt : list (list (pyval R))) : res (list R) :=
  mapM (fun row => match row with [VFloat x] => Ok ((x - / 2) * (x - / 2)) | _ => Raise TypeError end) Xt.
Definition centre (f : list R -> res R) (x0 : list (pyval R)) (b : list (R * R)) : res (list R * R) := Ok ([/ 2], 0).
Lemma Rle_b x y : x <= y -> Rleb' x y = true.
Proof. intro H. unfold Rleb'. now destruct (Rle_dec x y). Qed.
Lemma surface_ints3 x : surface Rops parabola ints3 [x] = Ok ((x - / 2) * (x - / 2)).
Proof. reflexivity. Qed.
Lemma c60_integer : exists p v, descends Rops (surface Rops parabola ints3) (space_bounds Rops ints3) centre /\
  (forall RNG (G : rng_ops R RNG) g x, expected_minimum Rops G parabola (fun _ => true) centre ints3 x 0 g = Ok (p, v)) /\
  surface Rops parabola ints3 [/ 2] = Ok v /\ ~ in_space Rops ints3 p.
Proof.
  exists [VFloat (/ 2)], 0. split; [|split; [reflexivity|split]].
  - intros x0 x v H. injection H as <- <-. split; [|split; [|split]].
    + repeat constructor; cbn; apply Rle_b; lra.
    + rewrite surface_ints3. f_equal. lra.
    + unfold nisnan. cbn. rewrite Rle_b; [easy|lra].
    + intros xs v0 _ F. destruct xs as [|x [|y xs]].
      * discriminate F.
      * rewrite surface_ints3 in F. assert (E : v0 = (x - / 2) * (x - / 2)) by congruence. subst. apply Rle_b, Rle_0_sqr.
      * assert (Q : surface Rops parabola ints3 (x :: y :: xs) = Ok ((x - / 2) * (x - / 2))) by reflexivity.
        assert (E : v0 = (x - / 2) * (x - / 2)) by congruence. subst. apply Rle_b, Rle_0_sqr.
  - rewrite surface_ints3. f_equal. lra.
  - intro H. inversion H as [|? ? ? ? A]; subst. inversion A.
Qed.
