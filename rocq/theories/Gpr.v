(** skopt/learning/gaussian_process/gpr.py, over the reals. *)
From Coq Require Import String List ZArith Bool Reals.
From Verif Require Import Base Kernels.
Import ListNotations.
Open Scope R_scope.
Open Scope list_scope.
Set Implicit Arguments.

Definition vec := list R.
Definition mat := list (list R).
Definition dot (a b : vec) : R := sum (zip Rmult a b).

(** self.noise: None (or 0), "gaussian", another string, a number that is not 0 *)
Inductive noise := NoNoise | NoiseGaussian | NoiseOther | NoiseLevel (v : R).

(** What fit leaves behind: X_train_, kernel_, alpha_, the inverse of L_.T, y_train_mean_, y_train_std_, noise_. *)
Record gp := mkGp { g_X : mat; g_kernel : kernel; g_alpha : vec; g_Linv : mat; g_ymean : R; g_ystd : R; g_noise : option R }.

(** A regressor: the kernel attribute, which fit overwrites, and the other parameters. *)
Record gpr := mkGpr { e_kernel : option kernel; e_noise : noise; e_alpha : R; e_normalize : bool; e_fitted : option gp }.

(** The key found by _param_for_white_kernel_in_Sum, 19-36: a path through Sum kernels, k1 before k2. *)
Inductive side := K1 | K2.
Fixpoint white_path (k : kernel) : option (list side) :=
  match k with
  | Sum k1 k2 =>
    match k1 with
    | White _ => Some [K1]
    | _ =>
      match white_path k1 with
      | Some p => Some (K1 :: p)
      | None =>
        match k2 with
        | White _ => Some [K2]
        | _ => match white_path k2 with Some p => Some (K2 :: p) | None => None end
        end
      end
    end
  | _ => None
  end.
(** get_params()[key].noise_level and set_params(key=WhiteKernel(noise_level=0.0)), 207-210 *)
Fixpoint level_at (k : kernel) (p : list side) : option R :=
  match p, k with
  | [], White n => Some n
  | K1 :: p', Sum k1 _ => level_at k1 p'
  | K2 :: p', Sum _ k2 => level_at k2 p'
  | _, _ => None
  end.
Fixpoint zero_at (k : kernel) (p : list side) : kernel :=
  match p, k with
  | [], White _ => White 0
  | K1 :: p', Sum k1 k2 => Sum (zero_at k1 p') k2
  | K2 :: p', Sum k1 k2 => Sum k1 (zero_at k2 p')
  | _, k => k
  end.

Section Gpr.
  (** sklearn's choice of the hyper-parameters of a kernel for the data. *)
  Context (tune : kernel -> mat -> vec -> kernel).
  (** solve_triangular(L.T, eye) for the Cholesky factor L of a matrix, where it has one; cho_solve((L, True), y). *)
  Context (linv : mat -> option mat) (solve : mat -> vec -> vec).

  Definition mean (y : vec) : R := sum y / INR (length y).
  Definition std (y : vec) : R := sqrt (mean (map (fun v => sqr (v - mean y)) y)).

  (** kernel_(X) with alpha added to the diagonal *)
  Definition train_matrix (k : kernel) (alpha : R) (X : mat) : res mat :=
    mapM (fun ix => mapM (fun jt => let same := Nat.eqb (fst ix) (fst jt) in
                                    v <- ktrain k same (snd ix) (snd jt) ;;
                                    Ok (if same then v + alpha else v)) (enumerate X)) (enumerate X).

  (** 185-194 *)
  Definition fit_kernel (e : gpr) : res kernel :=
    let k := match e_kernel e with Some k => k | None => Prod (Const 1) (RBF (Iso 1)) end in
    match e_noise e with
    | NoNoise => Ok k
    | NoiseGaussian => Ok (Sum k (White 1))
    | NoiseOther => Raise ValueError
    | NoiseLevel v => Ok (Sum k (White v))
    end.
  (** fit, 163-228, with the fit method of sklearn 0.23 or later; a constant y that is to be normalised is not modelled;
      a kernel matrix without Cholesky factor raises LinAlgError. Kernels are those of skopt. *)
  Definition fit (e : gpr) (X : mat) (y : vec) : res gpr :=
    k <- fit_kernel e ;;
    let '(m, s) := if e_normalize e then (mean y, std y) else (0, 1) in
    if Req_EM_T s 0 then Raise NotModelled
    else
      let yn := map (fun v => (v - m) / s) y in
      let k' := tune k X yn in
      K <- train_matrix k' (e_alpha e) X ;;
      match linv K with
      | None => Raise LinAlgError
      | Some A =>
        let '(k'', nz) :=
          match e_noise e with
          | NoNoise => (k', None)
          | _ =>
            match k' with
            | White _ => (White 0, None)
            | _ => match white_path k' with
                   | Some p => (zero_at k' p, level_at k' p)
                   | None => (k', None)
                   end
            end
          end in
        Ok {| e_kernel := Some k; e_noise := e_noise e; e_alpha := e_alpha e; e_normalize := e_normalize e;
              e_fitted := Some (mkGp X k'' (solve K yn) A m s nz) |}
      end.

  (** K_inv_ = L_inv.dot(L_inv.T), 213-214 *)
  Definition kinv (A : mat) : mat := map (fun r => map (dot r) A) A.
  Definition col (G : mat) (c : nat) : vec := map (fun g => nth c g 0) G.

  Record answer := mkAnswer { a_mean : vec; a_std : option vec; a_mean_grad : option vec; a_std_grad : option vec }.

  (** One row of the posterior, 303-329 *)
  Definition post_mean (g : gp) (x : vec) : res R :=
    kt <- mapM (kcall (g_kernel g) 2 x) (g_X g) ;;
    Ok (g_ystd g * dot kt (g_alpha g) + g_ymean g).
  Definition post_std (g : gp) (x : vec) : res R :=
    kt <- mapM (kcall (g_kernel g) 2 x) (g_X g) ;;
    d <- kdiag (g_kernel g) x ;;
    let var := d - dot kt (map (dot kt) (kinv (g_Linv g))) in
    let var := if Rlt_dec var 0 then 0 else var in
    Ok (sqrt (var * sqr (g_ystd g))).
  (** 331-347; np.allclose(y_std, 0) holds up to 1e-8 *)
  Definition post_mean_grad (g : gp) (x : vec) : res vec :=
    G <- mapM (gradient_x (g_kernel g) 1 x) (g_X g) ;;
    Ok (map (fun c => dot (col G c) (g_alpha g) * g_ystd g) (seq 0 (length x))).
  Definition post_std_grad (g : gp) (x : vec) : res vec :=
    kt <- mapM (kcall (g_kernel g) 2 x) (g_X g) ;;
    G <- mapM (gradient_x (g_kernel g) 1 x) (g_X g) ;;
    s <- post_std g x ;;
    Ok (if Rle_dec s (/ 100000000) then zeros (length x)
        else map (fun c => - dot kt (map (fun row => dot row (col G c)) (kinv (g_Linv g))) / s * sqr (g_ystd g)) (seq 0 (length x))).

  (** predict, 230-362. The prior of a regressor that has not been fitted has no gradients: with only a mean gradient
      asked for they are dropped silently, as is a gradient of the std without one of the mean. The full covariance is
      [predict_cov] below. X is not empty (check_array). *)
  Definition predict (e : gpr) (X : mat) (return_std return_cov mean_grad std_grad : bool) : res answer :=
    if return_std && return_cov then Raise RuntimeError
    else if std_grad && negb return_std then Raise ValueError
    else match X with
    | [] => Raise ValueError
    | x :: rest =>
      if negb (Nat.eqb (length X) 1) && (mean_grad || std_grad) then Raise ValueError
      else if return_cov then Raise NotModelled
      else
        match e_fitted e with
        | None =>
          match e_kernel e with
          | None => if return_std then Raise AttributeError else Ok (mkAnswer (map (fun _ => 0) X) None None None)
          | Some k =>
            if return_std then v <- mapM (kdiag k) X ;; Ok (mkAnswer (map (fun _ => 0) X) (Some (map sqrt v)) None None)
            else Ok (mkAnswer (map (fun _ => 0) X) None None None)
          end
        | Some g =>
          m <- mapM (post_mean g) X ;;
          s <- (if return_std then v <- mapM (post_std g) X ;; Ok (Some v) else Ok None) ;;
          if mean_grad then
            gm <- post_mean_grad g x ;;
            if std_grad then gs <- post_std_grad g x ;; Ok (mkAnswer m s (Some gm) (Some gs))
            else Ok (mkAnswer m s (Some gm) None)
          else Ok (mkAnswer m s None None)
        end
    end.

  (** predict with return_cov=True, 288-322: the means and the covariance of every pair of rows. cho_solve((L_, True), .)
      is the product with the inverse of the training matrix. Gradients of the mean asked for with a single row are
      dropped silently. *)
  Definition predict_cov (e : gpr) (X : mat) (mean_grad std_grad : bool) : res (vec * mat) :=
    if std_grad then Raise ValueError
    else match X with
    | [] => Raise ValueError
    | _ =>
      if negb (Nat.eqb (length X) 1) && mean_grad then Raise ValueError
      else
        match e_fitted e with
        | None =>
          match e_kernel e with
          | None => Raise TypeError
          | Some k => C <- train_matrix k 0 X ;; Ok (map (fun _ => 0) X, C)
          end
        | Some g =>
          kts <- mapM (fun x => mapM (kcall (g_kernel g) 2 x) (g_X g)) X ;;
          m <- mapM (post_mean g) X ;;
          P <- train_matrix (g_kernel g) 0 X ;;
          Ok (m, zip (fun kt row => zip (fun kt' p => (p - dot kt (map (dot kt') (kinv (g_Linv g)))) * sqr (g_ystd g)) kts row) kts P)
        end
    end.
End Gpr.
