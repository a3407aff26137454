(** skopt/acquisition.py *)
From Coq Require Import String List ZArith Bool.
From Verif Require Import Base Num.
Import ListNotations.
Open Scope string_scope.
Open Scope list_scope.
Set Implicit Arguments.

Section Acquisition.
  Context {N : Type} (O : numops N).
  (** scipy.stats.norm.cdf and norm.pdf *)
  Context (cdf pdf : N -> N).

  (** What model.predict returns for the rows X with return_std, and with the gradients, which are those of the only
      row. [p_1d] tells whether mean and std are 1-dimensional arrays (202-208, 285-291). *)
  Record prediction := mkPred { p_1d : bool; p_mu : list N; p_std : list N; p_mu_grad : list N; p_std_grad : list N }.
  Definition predictor := list (list N) -> res prediction.
  (** A regressor, or a MultiOutputRegressor with the two regressors [estimators_]; the predict method of the latter
      knows no return_std. *)
  Inductive acq_model := Single (p : predictor) | Multi (p time : predictor).
  Definition predict (m : acq_model) (X : list (list N)) : res prediction :=
    match m with Single p => p X | Multi _ _ => Raise TypeError end.

  Definition neg (x : N) : N := nmul O (nofZ O (-1)) x.
  Definition map2 (f : N -> N -> N) (l l' : list N) : list N := map (fun p => f (fst p) (snd p)) (combine l l').

  (** The value and, for a single row, the gradient. *)
  Definition acq_out := (list N * option (list N))%type.
  Inductive kappa_arg := Kappa (k : N) | KappaInf.

  (** gaussian_lcb, 91-150 *)
  Definition lcb_one (k : kappa_arg) (mu std : N) : N :=
    match k with KappaInf => neg std | Kappa k => nsub O mu (nmul O k std) end.
  Definition gaussian_lcb (p : acq_model) (X : list (list N)) (k : kappa_arg) (grad : bool) : res acq_out :=
    r <- predict p X ;;
    Ok (map2 (lcb_one k) (p_mu r) (p_std r),
        if grad then Some (map2 (lcb_one k) (p_mu_grad r) (p_std_grad r)) else None).

  (** 210-214 and 293-301, one row *)
  Definition improve (y_opt xi mu : N) : N := nsub O (nsub O y_opt xi) mu.
  Definition pi_one (y_opt xi mu std : N) : N :=
    if nltb O (nofZ O 0) std then cdf (ndiv O (improve y_opt xi mu) std) else nofZ O 0.
  Definition ei_one (y_opt xi mu std : N) : N :=
    if nltb O (nofZ O 0) std then
      let i := improve y_opt xi mu in
      let scaled := ndiv O i std in
      nadd O (nmul O i (cdf scaled)) (nmul O std (pdf scaled))
    else nofZ O 0.
  (** 222-223 and 310-311 *)
  Definition improve_grad (i mu std mu_g std_g : N) : N :=
    ndiv O (nsub O (nmul O (neg mu_g) std) (nmul O std_g i)) (nmul O std std).
  (** 225 *)
  Definition pi_grad (y_opt xi mu std mu_g std_g : N) : N :=
    let i := improve y_opt xi mu in
    nmul O (improve_grad i mu std mu_g std_g) (pdf (ndiv O i std)).
  (** 312-318 *)
  Definition ei_grad (y_opt xi mu std mu_g std_g : N) : N :=
    let i := improve y_opt xi mu in
    let scaled := ndiv O i std in
    let cdf_grad := nmul O (improve_grad i mu std mu_g std_g) (pdf scaled) in
    let pdf_grad := nmul O (neg i) cdf_grad in
    let exploit_grad := nsub O (nmul O (neg mu_g) (cdf scaled)) pdf_grad in
    let explore_grad := nadd O (nmul O std_g (pdf scaled)) pdf_grad in
    nadd O exploit_grad explore_grad.

  (** gaussian_pi, 153-227, and gaussian_ei, 230-321, which differ in the formulas only. The gradient is "implemented
      only for the case where X is a single sample". y_opt = None fails in the subtraction. *)
  Definition gaussian_imp (one : N -> N -> N -> N -> N) (gr : N -> N -> N -> N -> N -> N -> N)
    (p : acq_model) (X : list (list N)) (y_opt : option N) (xi : N) (grad : bool) : res acq_out :=
    r <- predict p X ;;
    if negb (p_1d r) then Raise ValueError
    else
      match y_opt with
      | None => Raise TypeError
      | Some y_opt =>
        let values := map2 (one y_opt xi) (p_mu r) (p_std r) in
        if grad then
          match p_mu r, p_std r with
          | [mu], [std] =>
            if nltb O (nofZ O 0) std
            then Ok (values, Some (map2 (gr y_opt xi mu std) (p_mu_grad r) (p_std_grad r)))
            else Ok (values, Some (map (fun _ => nofZ O 0) (p_std_grad r)))
          | _, _ => Raise NotModelled
          end
        else Ok (values, None)
      end.
  Definition gaussian_pi := gaussian_imp pi_one pi_grad.
  Definition gaussian_ei := gaussian_imp ei_one ei_grad.

  (** The keyword arguments xi and kappa, 35-38: 0.01 and 1.96 by default. *)
  Definition default_xi : N := ndiv O (nofZ O 1) (nofZ O 100).
  Definition default_kappa : N := ndiv O (nofZ O 196) (nofZ O 100).

  Definition ends_with_ps (s : string) : bool :=
    let n := String.length s in
    Nat.leb 2 n && String.eqb (String.substring (n - 2) 2 s) "ps".

  (** 65-83, one row: the factor inv_t, and its part of the gradient. *)
  Definition inv_time (mu std : N) : N := nexp O (nadd O (neg mu) (nmul O (nhalf O) (nmul O std std))).
  Definition per_second (p : acq_model) (X : list (list N)) (grad : bool) (out : acq_out) : res acq_out :=
    t <- predict p X ;;
    let inv_t := map2 inv_time (p_mu t) (p_std t) in
    let vals := map2 (nmul O) (fst out) inv_t in
    match snd out with
    | None => Ok (vals, None)
    | Some g =>
      match vals, inv_t, p_std t with
      | [v], [i], [std] =>
        Ok (vals, Some (map2 (fun g mg_sg => nadd O (nmul O g i) (nmul O v mg_sg)) g
                             (map2 (fun mg sg => nadd O (neg mg) (nmul O std sg)) (p_mu_grad t) (p_std_grad t))))
      | _, _, _ => Raise NotModelled
      end
    end.

  (** _gaussian_acquisition, 20-88; X is 2-dimensional here (28-31). A name ending in "ps" needs a model with two
      estimators (41-43). *)
  Definition gaussian_acquisition (X : list (list N)) (m : acq_model) (y_opt : option N) (acq_func : string)
    (xi : option N) (kappa : option kappa_arg) (grad : bool) : res acq_out :=
    let xi := match xi with Some x => x | None => default_xi end in
    let kappa := match kappa with Some k => k | None => Kappa default_kappa end in
    mt <- (if ends_with_ps acq_func then
             match m with Multi p t => Ok (Single p, Single t) | Single _ => Raise AttributeError end
           else Ok (m, m)) ;;
    let '(m, t) := mt in
    if acq_func =? "LCB" then gaussian_lcb m X kappa grad
    else
      let negated (r : res acq_out) : res acq_out :=
        o <- r ;; Ok (map neg (fst o), match snd o with Some g => Some (map neg g) | None => None end) in
      if acq_func =? "EI" then negated (gaussian_ei m X y_opt xi grad)
      else if acq_func =? "PI" then negated (gaussian_pi m X y_opt xi grad)
      else if acq_func =? "EIps" then o <- negated (gaussian_ei m X y_opt xi grad) ;; per_second t X grad o
      else if acq_func =? "PIps" then o <- negated (gaussian_pi m X y_opt xi grad) ;; per_second t X grad o
      else Raise ValueError.
  (** gaussian_acquisition_1D, 6-17 *)
  Definition gaussian_acquisition_1D (x : list N) (m : acq_model) (y_opt : option N) (acq_func : string)
    (xi : option N) (kappa : option kappa_arg) (grad : bool) : res acq_out :=
    gaussian_acquisition [x] m y_opt acq_func xi kappa grad.
End Acquisition.
