(** skopt/plots.py plot_gaussian_process (109-267): the data that is drawn. Legends, labels, the grid and the filling
    under the acquisition function are left out. *)
From Coq Require Import String List ZArith Bool.
From Verif Require Import Base Num Values Transformers Dimension Space Optimizer Minimize Plots.
Import ListNotations.
Open Scope list_scope.
Set Implicit Arguments.

(** Python [l[:k]]. *)
Definition py_prefix {A} (l : list A) (k : Z) : list A :=
  firstn (Z.to_nat (if (k <? 0)%Z then Z.of_nat (length l) + k else k)) l.

Section GpPlot.
  Context {N RNG M KW : Type} (O : numops N).
  Notation val := (pyval N).
  Notation row := (list (pyval N)).
  Notation result := (result N RNG M).
  (** model.predict(X, return_std=True), and _gaussian_acquisition with acq_func_kwargs (None: the empty dict). *)
  Variable v_predict : M -> list row -> res (list N * list N).
  Variable v_acq : acq1 -> option KW -> M -> N -> list row -> res (list N).

  (** The part of [res.specs["args"]] that is read; the acquisition function is a str. *)
  Record specs := mkSpecs { sp_random : option Z; sp_acq : string; sp_kwargs : option KW }.
  (** base.py 210: the arguments of base_minimize, which has none called acq_func_kwargs. *)
  Definition specs_of (a : margs N RNG M) : specs := mkSpecs (m_random_starts a) (a_acq (m_opt a)) None.

  Record gp_args := mkGpArgs {
    gp_calls : Z; gp_objective : option (val -> res N); gp_noise : N; gp_points : nat;
    gp_acq : bool; gp_next : bool; gp_obs : bool; gp_mu : bool; gp_title : bool }.
  (** A polyline or polygon. *)
  Record path := mkPath { pt_x : list val; pt_y : list N }.
  (** A curve with a band around it. *)
  Record banded := mkBanded { bd_line : path; bd_band : path }.
  Record picture := mkPicture {
    pic_true : option banded; pic_mu : option banded; pic_obs : option (list (xarg N) * list N);
    pic_acq : option path; pic_next : option (val * N) }.

  (** ax.plot and ax.fill need as many x as y. *)
  Definition draw (x : list val) (y : list N) : res path :=
    if Nat.eqb (length x) (length y) then Ok (mkPath x y) else Raise ValueError.
  (** plots.py 201-208, 213-217: the polygon runs along the lower bounds and back along the upper ones. *)
  Definition draw_band (x : list val) (y lower upper : list N) : res banded :=
    l <- draw x y ;; b <- draw (x ++ rev x) (lower ++ rev upper) ;; Ok (mkBanded l b).
  (** 1.96 *)
  Definition z96 : N := ndiv O (nofZ O 196) (nofZ O 100).
  Fixpoint zip_with {A B C} (f : A -> B -> C) (a : list A) (b : list B) : list C :=
    match a, b with x :: a', y :: b' => f x y :: zip_with f a' b' | _, _ => [] end.
  (** An optional part of the plot. *)
  Definition if_shown {A} (b : bool) (r : res A) : res (option A) := if b then rmap Some r else Ok None.
  (** plots.py 172, 232-236: estimators take numbers as floats. Not modelled: the sign of a zero in [-acq]. *)
  Definition x_model (a : arr val) : list row := map (fun v => [match to_num O v with Some x => VFloat x | None => v end]) (concat (rows_of a)).
  Definition name_acq (s : string) : res acq1 :=
    match acq_of s with None => Raise ValueError | Some AHedge => Ok EI | Some (AOne a) => Ok a end.
  (** plots.py 187-196: the model, the points and the values. *)
  Definition current (r : result) (n_random n_calls : Z) : res (M * list (xarg N) * list N) :=
    if (n_calls <? 0)%Z then
      match py_index (res_models r) (-1) with Some m => Ok (m, res_x_iters r, res_func_vals r) | None => Raise IndexError end
    else
      match py_index (res_models r) n_calls with
      | Some m => Ok (m, py_prefix (res_x_iters r) (n_random + n_calls), py_prefix (res_func_vals r) (n_random + n_calls))
      | None => Raise IndexError
      end.

  Definition plot_gaussian_process (r : result) (sp : option specs) (a : gp_args) : res picture :=
    match res_space r with
    | [d] =>
      e <- evenly_sample O d (gp_points a) ;;
      let x := fst e in
      let xm := x_model (snd e) in
      match sp with
      | None => Raise UnboundLocalError                         (* acq_func_kwargs *)
      | Some sp =>
        let n_random := match sp_random sp with
                        | Some n => n
                        | None => (Z.of_nat (length (res_x_iters r)) - Z.of_nat (length (res_models r)))%Z
                        end in
        fx <- (match gp_objective a with None => Ok None | Some f => rmap Some (mapM f x) end) ;;
        c <- current r n_random (gp_calls a) ;;
        let '(m, xs, ys) := c in
        tr <- (match fx with
               | None => Ok None
               | Some fx =>
                 let w := nmul O z96 (gp_noise a) in
                 rmap Some (draw_band x fx (map (fun y => nsub O y w) fx) (map (fun y => nadd O y w) fx))
               end) ;;
        mu <- if_shown (gp_mu a)
                (p <- v_predict m xm ;;
                 let ws := map (nmul O z96) (snd p) in
                 draw_band x (fst p) (zip_with (nsub O) (fst p) ws) (zip_with (nadd O) (fst p) ws)) ;;
        let obs := if gp_obs a then Some (xs, ys) else None in
        acq <- if_shown (gp_acq a)
                 (y_opt <- np_min O ys ;;
                  k <- name_acq (sp_acq sp) ;;
                  values <- v_acq k (sp_kwargs sp) m y_opt xm ;;
                  nx <- nth_of x (np_argmin O values) ;;
                  na <- nth_of values (np_argmin O values) ;;
                  let neg := fun v => nsub O (nofZ O 0) v in
                  l <- draw x (map neg values) ;;
                  Ok (l, (nx, neg na))) ;;
        let next := if gp_next a then option_map snd acq else None in
        _ <- (if gp_title a then                                  (* "%.4f" % res.x[0] *)
                match res_x r with
                | X1 (v :: _) => match to_num O v with Some _ => Ok tt | None => Raise TypeError end
                | _ => Raise NotModelled
                end
              else Ok tt) ;;
        Ok (mkPicture tr mu obs (option_map fst acq) next)
      end
    | _ => Raise AssertionError
    end.
End GpPlot.
Arguments specs : clear implicits.
Arguments gp_args : clear implicits.
Arguments path : clear implicits.
Arguments banded : clear implicits.
Arguments picture : clear implicits.
