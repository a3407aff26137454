(** C52, C53: kernels, over the reals. *)
From Coq Require Import List Reals Lra Lia.
From Coquelicot Require Import Coquelicot.
From Verif Require Import Base Kernels KernelSpec AcqSpec KernelProps HammingProps.
Import ListNotations.
Open Scope R_scope.

(** Whenever gradient_x returns a row for the training point [t], the kernel is computed around the point [x], and the
    row is its gradient there; all kernels except HammingKernel, which has no gradient_x, and all their combinations. *)
Theorem C52_gradient : forall k x t g, length x = length t -> smooth k x t -> gradient_x k 1 x t = Ok g ->
  gradient (fun x => value (kcall k 2 x t)) x g /\
  forall i a, nth_error x i = Some a -> locally a (fun u => exists v, kcall k 2 (put x i u) t = Ok v).
Proof. exact c52_gradient. Qed.
Print Assumptions C52_gradient.

(** It returns one for sums and powers of products of two factors that contain neither products nor powers, nor, with
    two features or more, Matern kernels with nu = 0.5. *)
Theorem C52_total : forall k x t, length x = length t -> computable k (length x) ->
  (exists v, kcall k 2 x t = Ok v) /\ (exists g, gradient_x k 1 x t = Ok g).
Proof. exact computable_total. Qed.
Print Assumptions C52_total.

(** The kernel that the minimisers use by default is one of those, and smooth everywhere. *)
Definition default_kernel : kernel := Sum (Prod (Const 1) (Matern Nu5Half (Aniso [1; 1]))) (White 1).
Example C52_case : forall x t, length x = 2%nat -> computable default_kernel (length x) /\ smooth default_kernel x t.
Proof.
  intros x t ->. split; [cbn; intuition discriminate|]. cbn. repeat split; repeat constructor; lra.
Qed.

(** At a training point the kernel exp(-distance) has no derivative, yet -1 is returned. *)
Theorem C52_training_point_refuted : gradient_x (Matern NuHalf (Iso 1)) 1 [0] [0] = Ok [-1] /\
  forall g, ~ gradient (fun x => value (kcall (Matern NuHalf (Iso 1)) 2 x [0])) [0] g.
Proof. exact kink. Qed.
Print Assumptions C52_training_point_refuted.

(** Kernels that can be evaluated but whose gradient raises: a multiple of a Matern kernel with nu = 0.5 for two features
    or more, and products of three factors. *)
Theorem C52_products_refuted : forall c l x1 x2 t1 t2,
  (exists v, kcall (Prod (Const c) (Matern NuHalf (Iso l))) 2 [x1; x2] [t1; t2] = Ok v) /\
  gradient_x (Prod (Const c) (Matern NuHalf (Iso l))) 1 [x1; x2] [t1; t2] = Raise ValueError /\
  (exists v, kcall (Prod (Prod (Const c) (RBF (Iso l))) (RBF (Iso l))) 2 [x1; x2] [t1; t2] = Ok v) /\
  gradient_x (Prod (Prod (Const c) (RBF (Iso l))) (RBF (Iso l))) 1 [x1; x2] [t1; t2] = Raise ValueError.
Proof. intros. split; [eexists; reflexivity|]. split; [reflexivity|]. split; [eexists; reflexivity|reflexivity]. Qed.
Print Assumptions C52_products_refuted.

(** The Hamming kernel is in (0, 1], symmetric, and 1 for equal points only. *)
Theorem C53_similarity : forall l x t v, positive_scale l -> hamming l x t = Ok v ->
  0 < v <= 1 /\ (v = 1 <-> x = t) /\ hamming l t x = Ok v.
Proof. exact hamming_similarity. Qed.
Print Assumptions C53_similarity.
Theorem C53_total : forall l x t, length x = length t -> fits l (length x) -> exists v, hamming l x t = Ok v.
Proof. exact hamming_total. Qed.
Print Assumptions C53_total.
(** It decreases with the mismatches: with their number for one scale, with their set for any scales. *)
Theorem C53_number : forall l x t v x' t' v', 0 < l -> hamming (Iso l) x t = Ok v -> hamming (Iso l) x' t' = Ok v' ->
  (differing x t < differing x' t')%nat -> v' < v.
Proof. exact hamming_count. Qed.
Print Assumptions C53_number.
Theorem C53_set : forall l x t v x' t' v', positive_scale l -> length x = length x' ->
  hamming l x t = Ok v -> hamming l x' t' = Ok v' ->
  (forall i a b, nth_error x' i = Some a -> nth_error t' i = Some b -> a = b -> nth_error x i = nth_error t i) -> v' <= v.
Proof. exact hamming_mono. Qed.
Print Assumptions C53_set.
(** The reported hyper-parameter gradient is the derivative with respect to the logarithm(s) of the scale(s). *)
Theorem C53_gradient_iso : forall l x t, 0 < l -> length x = length t ->
  exists d, hamming_grad (Iso l) x t = Ok [d] /\ is_derive (fun th => value (hamming (Iso (exp th)) x t)) (ln l) d.
Proof. exact hamming_grad_iso. Qed.
Print Assumptions C53_gradient_iso.
Theorem C53_gradient_aniso : forall ls x t, (2 <= length ls)%nat -> List.Forall (fun l => 0 < l) ls ->
  length ls = length x -> length x = length t ->
  exists g, hamming_grad (Aniso ls) x t = Ok g /\ gradient (fun ths => value (hamming (Aniso (map exp ths)) x t)) (map ln ls) g.
Proof. exact hamming_grad_aniso. Qed.
Print Assumptions C53_gradient_aniso.
Example C53_case : positive_scale (Aniso [1; 2]) /\ fits (Aniso [1; 2]) 2 /\ differing [0; 1] [0; 1] = 0%nat /\ differing [0; 1] [0; 2] = 1%nat.
Proof.
  split; [repeat constructor; lra|]. split; [now right|]. split; cbn; repeat (destruct (Req_EM_T _ _); try lra); reflexivity.
Qed.
