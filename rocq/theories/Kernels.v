(** skopt/learning/gaussian_process/kernels.py and the kernel values of sklearn that it inherits, over the reals.
    A kernel matrix K(X, Y) is modelled entry by entry: [kcall] is the entry of a row of X and a row of Y. *)
From Coq Require Import List ZArith Bool Reals.
From Verif Require Import Base.
Import ListNotations.
Open Scope R_scope.
Open Scope list_scope.
Set Implicit Arguments.

(** length_scale: a number, or one number per feature *)
Inductive scale := Iso (l : R) | Aniso (ls : list R).
(** The nu for which gradient_x is implemented: 0.5, 1.5, 2.5 *)
Inductive nu := NuHalf | Nu3Half | Nu5Half.
(** The exponent of an Exponentiation: a natural number, or another real number. *)
Inductive expo := ENat (n : nat) | EReal (p : R).
(** An array-valued length_scale of a HammingKernel has one entry per feature. *)
Inductive kernel :=
| RBF (l : scale) | Matern (n : nu) (l : scale) | RatQuad (l alpha : R) | ExpSine (l period : R)
| Const (c : R) | White (noise : R) | Dot (sigma0 : R)
| Expo (k : kernel) (p : expo) | Sum (k1 k2 : kernel) | Prod (k1 k2 : kernel)
| Hamming (l : scale).

Definition sum (l : list R) : R := fold_right Rplus 0 l.
Definition zip {A B C} (f : A -> B -> C) (l : list A) (l' : list B) : list C := map (fun p => f (fst p) (snd p)) (combine l l').

(** sklearn _check_length_scale, and the broadcasting of length_scale over the features: a scale of one entry counts
    as a number; another length than that of the rows raises ValueError. *)
Definition scales (l : scale) (d : nat) : res (list R) :=
  match l with
  | Iso l => Ok (repeat l d)
  | Aniso [l] => Ok (repeat l d)
  | Aniso ls => if Nat.eqb (length ls) d then Ok ls else Raise ValueError
  end.
(** x - t; rows of different lengths raise ValueError *)
Definition minus (x t : list R) : res (list R) :=
  if Nat.eqb (length x) (length t) then Ok (zip Rminus x t) else Raise ValueError.
(** (x - t) / length_scale *)
Definition diffs (l : scale) (x t : list R) : res (list R) :=
  v <- minus x t ;;
  ls <- scales l (length x) ;;
  Ok (zip Rdiv v ls).
Definition sqr (x : R) : R := x * x.
Definition sq_norm (v : list R) : R := sum (map sqr v).
Definition norm (v : list R) : R := sqrt (sq_norm v).

(** K ** p. A base that is not positive under an exponent that is not a natural number gives nan, inf or 0, which the
    reals do not have. *)
Definition kpow (b : R) (p : expo) : res R :=
  match p with
  | ENat n => Ok (b ^ n)
  | EReal p => if Rlt_dec 0 b then Ok (Rpower b p) else Raise NotModelled
  end.

(** sklearn.gaussian_process.kernels: Matern.__call__ *)
Definition matern (n : nu) (d : R) : R :=
  match n with
  | NuHalf => exp (- d)
  | Nu3Half => (1 + sqrt 3 * d) * exp (- (sqrt 3 * d))
  | Nu5Half => (1 + sqrt 5 * d + sqr (sqrt 5 * d) / 3) * exp (- (sqrt 5 * d))
  end.
Definition mismatch (a b : R) : R := if Req_EM_T a b then 0 else 1.
(** HammingKernel.__call__, 386-409, one entry *)
Definition hamming (l : scale) (x t : list R) : res R :=
  if Nat.eqb (length x) (length t) then
    ls <- scales l (length x) ;;
    Ok (exp (- sum (zip Rmult ls (zip mismatch x t))))
  else Raise ValueError.

(** __call__(X, Y) with Y given, one entry; [nd] is the number of dimensions of the array X, which Product.gradient_x
    and Exponentiation.gradient_x pass on with one dimension more than they got (299, 270): with three dimensions the
    kernels that compute distances raise ValueError (cdist), those with a constant value do not look at the entries. *)
Fixpoint kcall (k : kernel) (nd : nat) (x t : list R) : res R :=
  let flat {A} (r : res A) : res A := if Nat.leb nd 2 then r else Raise ValueError in
  match k with
  | RBF l => flat (v <- diffs l x t ;; Ok (exp (- / 2 * sq_norm v)))
  | Matern n l => flat (v <- diffs l x t ;; Ok (matern n (norm v)))
  | RatQuad l a => flat (v <- minus x t ;; Ok (Rpower (1 + sq_norm v / (2 * a * sqr l)) (- a)))
  | ExpSine l p => flat (v <- minus x t ;; Ok (exp (- 2 * sqr (sin (PI * norm v / p) / l))))
  | Const c => Ok c
  | White _ => Ok 0
  | Dot s => if Nat.leb nd 2 then
               if Nat.eqb (length x) (length t) then Ok (sum (zip Rmult x t) + sqr s) else Raise ValueError
             else Raise NotModelled
  | Expo k p => b <- kcall k nd x t ;; kpow b p
  | Sum k1 k2 => a <- kcall k1 nd x t ;; b <- kcall k2 nd x t ;; Ok (a + b)
  | Prod k1 k2 => a <- kcall k1 nd x t ;; b <- kcall k2 nd x t ;; Ok (a * b)
  | Hamming l => if Nat.leb nd 2 then hamming l x t else Raise NotModelled
  end.

(** __call__(X) at a pair of rows of the training matrix: WhiteKernel adds its noise level on the diagonal. *)
Fixpoint ktrain (k : kernel) (same : bool) (x t : list R) : res R :=
  match k with
  | White n => Ok (if same then n else 0)
  | Expo k p => b <- ktrain k same x t ;; kpow b p
  | Sum k1 k2 => a <- ktrain k1 same x t ;; b <- ktrain k2 same x t ;; Ok (a + b)
  | Prod k1 k2 => a <- ktrain k1 same x t ;; b <- ktrain k2 same x t ;; Ok (a * b)
  | k => kcall k 2 x t
  end.

(** sklearn: diag(X), one entry: K(x, x), noise included *)
Fixpoint kdiag (k : kernel) (x : list R) : res R :=
  match k with
  | RBF _ | Matern _ _ | RatQuad _ _ | ExpSine _ _ | Hamming _ => Ok 1
  | Const c => Ok c
  | White n => Ok n
  | Dot s => Ok (sum (zip Rmult x x) + sqr s)
  | Expo k p => b <- kdiag k x ;; kpow b p
  | Sum k1 k2 => a <- kdiag k1 x ;; b <- kdiag k2 x ;; Ok (a + b)
  | Prod k1 k2 => a <- kdiag k1 x ;; b <- kdiag k2 x ;; Ok (a * b)
  end.

Definition scalev (c : R) (v : list R) : list R := map (Rmult c) v.
Definition zeros (d : nat) : list R := repeat 0 d.

(** RBF.gradient_x, 69-93 *)
Definition rbf_grad (v ls : list R) : list R := zip Rdiv (scalev (- exp (- / 2 * sq_norm v)) v) ls.
(** Matern.gradient_x, 97-210. For nu = 0.5 the row of ones at distance 0 is [-1 / length_scale]. *)
Definition matern_grad (n : nu) (v ls : list R) : list R :=
  let dist := norm v in
  match n with
  | NuHalf =>
    let row := if Req_EM_T dist 0 then repeat (-1) (length v) else scalev (- exp (- dist) / dist) v in
    zip Rdiv row ls
  | Nu3Half =>
    let by_dist := if Req_EM_T dist 0 then 0 else sqrt 3 / dist in
    let f := 1 + sqrt 3 * dist in
    let f_grad := map (fun a => a * by_dist) (zip Rdiv v ls) in
    let g := exp (sqrt 3 * dist * -1) in
    map (fun a => g * a * (f * -1 + 1)) f_grad
  | Nu5Half =>
    let f := (5 / 3) * sq_norm v + sqrt 5 * dist + 1 in
    let dist' := (if Req_EM_T dist 0 then dist else / dist) * sqrt 5 in
    let diff := zip Rdiv v ls in
    let g := exp (sqrt 5 * dist * -1) in
    map (fun a =>
           let f1_grad := dist' * a in
           let f2_grad := (10 / 3) * a in
           let f_grad := f1_grad + f2_grad in
           let g_grad := - g * f1_grad in
           f * g_grad + g * f_grad) diff
  end.
(** RationalQuadratic.gradient_x, 215-236 *)
Definition ratquad_grad (l a : R) (v : list R) : list R :=
  scalev (- Rpower (1 + sq_norm v / (2 * a)) (- a - 1)) (map (fun b => b / l) v).
(** ExpSineSquared.gradient_x, 241-266; [v] = x - t *)
Definition expsine_grad (l p : R) (v : list R) : list R :=
  let dist := norm v in
  let pi_by_period := dist * (PI / p) in
  let sine := sin pi_by_period / l in
  let e := exp (-2 * sqr sine) in
  let wrt_exp := -2 * sin (2 * pi_by_period) / sqr l in
  let wrt_theta := if Req_EM_T dist 0 then 0 else PI / (p * dist) in
  scalev (wrt_theta * e * wrt_exp) v.

(** gradient_x(x, X_train), 69-316, the row of one training point, for an array x of [nd] dimensions; from three
    dimensions on a call of the same kernel fails before or after (299-308). Matern with nu = 0.5 allocates
    x.shape[0] columns (128), which is 1 for a two-dimensional x. HammingKernel does not define the method. *)
Fixpoint gradient_x (k : kernel) (nd : nat) (x t : list R) : res (list R) :=
  let flat {A} (r : res A) : res A := if Nat.leb nd 2 then r else Raise ValueError in
  match k with
  | RBF l => flat (v <- diffs l x t ;; ls <- scales l (length x) ;; Ok (rbf_grad v ls))
  | Matern n l =>
    flat (v <- diffs l x t ;; ls <- scales l (length x) ;;
          match n with
          | NuHalf => if Nat.eqb nd 1 || Nat.eqb (length x) 1 then Ok (matern_grad n v ls) else Raise ValueError
          | _ => Ok (matern_grad n v ls)
          end)
  | RatQuad l a => flat (v <- diffs (Iso l) x t ;; Ok (ratquad_grad l a v))
  | ExpSine l p => flat (v <- minus x t ;; Ok (expsine_grad l p v))
  | Const _ | White _ => Ok (zeros (length t))
  | Dot _ => if Nat.leb nd 2 then Ok t else Raise NotModelled
  | Expo k p =>
    K <- kcall k (S nd) x t ;;
    let factor := match p with
                  | ENat 0 => Raise NotModelled
                  | ENat (S n) => Ok (INR (S n) * K ^ n)
                  | EReal p => K' <- kpow K (EReal (p - 1)) ;; Ok (p * K')
                  end in
    c <- factor ;;
    g <- gradient_x k nd x t ;;
    Ok (scalev c g)
  | Sum k1 k2 => g1 <- gradient_x k1 nd x t ;; g2 <- gradient_x k2 nd x t ;; Ok (zip Rplus g1 g2)
  | Prod k1 k2 =>
    a <- kcall k1 (S nd) x t ;;
    g2 <- gradient_x k2 (S nd) x t ;;
    b <- kcall k2 (S nd) x t ;;
    g1 <- gradient_x k1 (S nd) x t ;;
    Ok (zip Rplus (scalev a g2) (scalev b g1))
  | Hamming _ => Raise NotImplementedError
  end.

(** HammingKernel.__call__(X, eval_gradient=True), 411-423: the derivative with respect to the logarithm of the length
    scale(s), one entry of the matrix. *)
Definition hamming_grad (l : scale) (x t : list R) : res (list R) :=
  if Nat.eqb (length x) (length t) then
    ls <- scales l (length x) ;;
    let ind := zip mismatch x t in
    let K := exp (- sum (zip Rmult ls ind)) in
    match l with
    | Iso l => Ok [- (K * sum ind) * l]
    | Aniso [l] => Ok [- (K * sum ind) * l]
    | Aniso ls => Ok (zip Rmult (map (fun i => - K * i) ind) ls)
    end
  else Raise ValueError.
