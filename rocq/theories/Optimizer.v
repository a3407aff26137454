(** skopt/optimizer/optimizer.py: the Optimizer class as a state machine with exceptions, and
    create_result (utils.py 29-72). *)
From Coq Require Import String List ZArith Bool.
From Verif Require Import Base Num Values Transformers Dimension Space.
Import ListNotations.
Open Scope list_scope.
Set Implicit Arguments.

(** Acquisition functions (optimizer.py 186-195). *)
Inductive acq1 := EI | LCB | PI | EIps | PIps.
Inductive acqf := AHedge | AOne (a : acq1).
Definition is_ps (a : acqf) : bool := match a with AOne EIps | AOne PIps => true | _ => false end.
Definition cand_acqs (a : acqf) : list acq1 := match a with AHedge => [EI; LCB; PI] | AOne a => [a] end.

(** The [y] argument of tell: a number, a list/tuple, or anything else. *)
Inductive yarg (N : Type) := YNum (x : N) | YLst (l : list (yarg N)) | YOther.
Arguments YNum {N} x.
Arguments YLst {N} l.
Arguments YOther {N}.

(** A stored observation: a value, or a value with the log of its computation time. *)
Inductive yval (N : Type) := YS (y : N) | YP (y t : N).
Arguments YS {N} y.
Arguments YP {N} y t.
Definition y_obj {N} (v : yval N) : N := match v with YS y => y | YP y _ => y end.
(** np.ravel(yi) *)
Definition y_flat {N} (l : list (yval N)) : list N :=
  flat_map (fun v => match v with YS y => [y] | YP y t => [y; t] end) l.

Section Numpy.
  Context {N : Type} (O : numops N).
  (** np.argmin: the first NaN if there is one, else the first least element. *)
  Fixpoint argmin_aux (best : N) (bi i : nat) (l : list N) : nat :=
    match l with
    | [] => bi
    | x :: l' =>
      if nisnan O best then bi
      else if nisnan O x || nltb O x best then argmin_aux x i (S i) l'
      else argmin_aux best bi (S i) l'
    end.
  Definition np_argmin (l : list N) : option nat :=
    match l with [] => None | x :: l' => Some (argmin_aux x 0 1 l') end.
  Fixpoint argmax_aux (best : N) (bi i : nat) (l : list N) : nat :=
    match l with
    | [] => bi
    | x :: l' =>
      if nisnan O best then bi
      else if nisnan O x || nltb O best x then argmax_aux x i (S i) l'
      else argmax_aux best bi (S i) l'
    end.
  Definition np_argmax (l : list N) : option nat :=
    match l with [] => None | x :: l' => Some (argmax_aux x 0 1 l') end.
  (** np.min / np.max: NaN propagates; ValueError on an empty sequence. *)
  Definition nth_of {A} (l : list A) (i : option nat) : res A :=
    match i with
    | None => Raise ValueError
    | Some i => match nth_error l i with Some x => Ok x | None => Raise IndexError end
    end.
  Definition np_min (l : list N) : res N := nth_of l (np_argmin l).
  Definition np_max (l : list N) : res N := nth_of l (np_argmax l).
  (** np.sum, np.mean: left-to-right summation (numpy sums pairwise from 8 elements on). *)
  Definition np_sum (l : list N) : N := fold_left (nadd O) l (nofZ O 0).
  Definition np_mean (l : list N) : res N :=
    match l with
    | [] => Raise ValueError        (* numpy returns nan; never called on an empty list *)
    | _ => Ok (ndiv O (np_sum l) (nofZ O (Z.of_nat (length l))))
    end.
End Numpy.

(** External components, all arbitrary. The estimator is deterministic given its training data
    (its own random state is an int fixed at construction). *)
Record world (N M : Type) := {
  w_fit : list (list (pyval N)) -> list (yval N) -> res M;        (* clone(est).fit(X, y) *)
  w_predict : M -> list (list (pyval N)) -> res (list N);         (* est.predict *)
  w_acq : acq1 -> M -> N -> list (list (pyval N)) -> res (list N);(* _gaussian_acquisition *)
  w_argsort : list N -> list nat;                                 (* np.argsort, ties in any order *)
  w_lbfgs : acq1 -> M -> N -> list (N * N) -> list (pyval N) -> res (list (pyval N) * N);
                                                                  (* fmin_l_bfgs_b from a start *)
  w_generate : list (dim N) -> Z -> Z -> res (list (point N));    (* generate(dims, n, seed) *)
  w_logmax : N                                                    (* log(sys.float_info.max) *)
}.

(** What __init__ fixes. [c_est]: None for "dummy". *)
Record est_desc := { ed_gp : bool; ed_multi : bool; ed_grad : bool; ed_regressor : bool }.
Record cfg (N : Type) := mkCfg {
  c_dims : list (dim N); c_acq : acqf; c_lbfgs : bool; c_npoints : nat; c_restarts : nat;
  c_eta : N; c_est : option est_desc; c_gen : bool; c_n0 : Z; c_queue : option Z }.

Record opt (N RNG M : Type) := mkOpt {
  o_cfg : cfg N;
  o_left : Z;                               (* _n_initial_points *)
  o_init : option (list (point N));         (* _initial_samples *)
  o_models : list M;
  o_Xi : list (xarg N);                     (* an entry is normally [X1 p] *)
  o_yi : list (yval N);
  o_cache : list ((Z * string) * list (point N));
  o_next : option (point N);                (* _next_x, None = attribute missing *)
  o_next_xs : option (list (list (pyval N)));   (* next_xs_ *)
  o_gains : list N;
  o_rng : RNG }.

(** Result objects. [res_x_iters] is the value of [Xi] at the time of the call (Python hands out the
    live list). *)
Record result (N RNG M : Type) := mkResult {
  res_x : xarg N; res_fun : N; res_func_vals : list N; res_x_iters : list (xarg N);
  res_models : list M; res_log_time : option (list N); res_space : list (dim N); res_rng : RNG }.

Section Optimizer.
  Context {N RNG M : Type} (O : numops N) (G : rng_ops N RNG) (W : world N M).
  Notation val := (pyval N).
  Notation row := (list (pyval N)).
  Notation state := (opt N RNG M).

  (** *** Methods: a new state and a value or an exception *)
  Definition op A := state -> state * res A.
  Definition ret {A} (a : A) : op A := fun o => (o, Ok a).
  Definition lift {A} (r : res A) : op A := fun o => (o, r).
  Definition get : op state := fun o => (o, Ok o).
  Definition upd (f : state -> state) : op unit := fun o => (f o, Ok tt).
  Definition andthen {A B} (m : op A) (k : A -> op B) : op B :=
    fun o => match m o with
             | (o', Ok a) => k a o'
             | (o', Raise e) => (o', Raise e)
             end.
  Notation "x <-- m ;; k" := (andthen m (fun x => k)) (at level 61, m at next level, right associativity).

  Definition set_left z (o : state) : state := mkOpt (o_cfg o) z (o_init o) (o_models o) (o_Xi o) (o_yi o) (o_cache o) (o_next o) (o_next_xs o) (o_gains o) (o_rng o).
  Definition set_init i (o : state) : state := mkOpt (o_cfg o) (o_left o) i (o_models o) (o_Xi o) (o_yi o) (o_cache o) (o_next o) (o_next_xs o) (o_gains o) (o_rng o).
  Definition set_models m (o : state) : state := mkOpt (o_cfg o) (o_left o) (o_init o) m (o_Xi o) (o_yi o) (o_cache o) (o_next o) (o_next_xs o) (o_gains o) (o_rng o).
  Definition set_Xi x (o : state) : state := mkOpt (o_cfg o) (o_left o) (o_init o) (o_models o) x (o_yi o) (o_cache o) (o_next o) (o_next_xs o) (o_gains o) (o_rng o).
  Definition set_yi y (o : state) : state := mkOpt (o_cfg o) (o_left o) (o_init o) (o_models o) (o_Xi o) y (o_cache o) (o_next o) (o_next_xs o) (o_gains o) (o_rng o).
  Definition set_cache c (o : state) : state := mkOpt (o_cfg o) (o_left o) (o_init o) (o_models o) (o_Xi o) (o_yi o) c (o_next o) (o_next_xs o) (o_gains o) (o_rng o).
  Definition set_next n (o : state) : state := mkOpt (o_cfg o) (o_left o) (o_init o) (o_models o) (o_Xi o) (o_yi o) (o_cache o) n (o_next_xs o) (o_gains o) (o_rng o).
  Definition set_next_xs n (o : state) : state := mkOpt (o_cfg o) (o_left o) (o_init o) (o_models o) (o_Xi o) (o_yi o) (o_cache o) (o_next o) n (o_gains o) (o_rng o).
  Definition set_gains g (o : state) : state := mkOpt (o_cfg o) (o_left o) (o_init o) (o_models o) (o_Xi o) (o_yi o) (o_cache o) (o_next o) (o_next_xs o) g (o_rng o).
  Definition set_rng g (o : state) : state := mkOpt (o_cfg o) (o_left o) (o_init o) (o_models o) (o_Xi o) (o_yi o) (o_cache o) (o_next o) (o_next_xs o) (o_gains o) g.

  Definition has_est (o : state) : bool := match c_est (o_cfg o) with Some _ => true | None => false end.

  (** create_result, utils.py 29-72. *)
  Definition create_result (Xi : list (xarg N)) (yi : list (yval N)) (dims : list (dim N)) (rng : RNG)
             (models : list M) : res (result N RNG M) :=
    let vals := map y_obj yi in
    let two := match yi with YP _ _ :: _ => true | _ => false end in
    match np_argmin O vals with
    | None => Raise ValueError
    | Some best =>
      match nth_error Xi best, nth_error vals best with
      | Some x, Some y =>
        Ok (mkResult x y vals Xi models
              (if two then Some (map (fun v => match v with YP _ t => t | YS y => y end) yi) else None)
              dims rng)
      | _, _ => Raise IndexError
      end
    end.
  (** get_result, optimizer.py 663-676; also the end of _tell and run. *)
  Definition get_result : op (result N RNG M) :=
    fun o => (o, create_result (o_Xi o) (o_yi o) (c_dims (o_cfg o)) (o_rng o) (o_models o)).

  (** *** Fitting and the next suggestion, optimizer.py 530-609 *)
  (** The stored points; an entry that is itself a batch has no defined transform. *)
  Definition plain (x : xarg N) : res (point N) := match x with X1 p => Ok p | X2 _ => Raise NotModelled end.

  Fixpoint sub_list (a b : list N) : res (list N) :=
    match a, b with
    | [], [] => Ok []
    | x :: a', y :: b' => r <- sub_list a' b' ;; Ok (nsub O x y :: r)
    | _, _ => Raise ValueError
    end.
  (** optimizer.py 538-539 *)
  Definition update_gains (est : M) : op unit :=
    o <-- get ;;
    match o_next_xs o, c_acq (o_cfg o) with
    | Some xs, AHedge =>
      match xs with
      | [] => lift (Raise ValueError)               (* np.vstack([]) *)
      | _ =>
        p <-- lift (w_predict W est xs) ;;
        g <-- lift (sub_list (o_gains o) p) ;;
        upd (set_gains g)
      end
    | _, _ => ret tt
    end.
  (** optimizer.py 541-548 *)
  Definition push_model (est : M) : op unit :=
    o <-- get ;;
    match c_queue (o_cfg o) with
    | None => upd (set_models (o_models o ++ [est]))
    | Some q =>
      if (Z.of_nat (length (o_models o)) <? q)%Z then upd (set_models (o_models o ++ [est]))
      else match o_models o with
           | [] => lift (Raise IndexError)          (* pop from empty list *)
           | _ :: ms => upd (set_models (ms ++ [est]))
           end
    end.
  (** space.transform(space.rvs(n_points, rng)), optimizer.py 552-553 *)
  Definition candidates : op (list row) :=
    o <-- get ;;
    let '(P, g) := space_rvs O G (c_dims (o_cfg o)) (c_npoints (o_cfg o)) (o_rng o) in
    _ <-- upd (set_rng g) ;;
    P <-- lift P ;;
    lift (space_transform O (c_dims (o_cfg o)) P).

  Definition nth_row (X : list row) (i : nat) : res row :=
    match nth_error X i with Some r => Ok r | None => Raise IndexError end.
  (** optimizer.py 556-589: best sampled point, or best L-BFGS end point. *)
  Definition pick (c : cfg N) (a : acq1) (est : M) (yopt : N) (X : list row) : res row :=
    values <- w_acq W a est yopt X ;;
    if c_lbfgs c then
      x0 <- mapM (nth_row X) (firstn (c_restarts c) (w_argsort W values)) ;;
      results <- mapM (w_lbfgs W a est yopt (space_tbounds O (c_dims c))) x0 ;;
      nth_of (map fst results) (np_argmin O (map snd results))
    else nth_of X (np_argmin O values).
  (** np.clip(next_x, lower, upper), optimizer.py 593-596. *)
  Definition clip_val (b : N * N) (v : val) : res val :=
    match to_num O v with
    | Some x => Ok (VFloat (nclip O (fst b) (snd b) x))
    | None => Raise TypeError
    end.
  Definition clip_row (bounds : list (N * N)) (r : row) : res row :=
    if Nat.eqb (length bounds) (length r) then mapM (fun bv => clip_val (fst bv) (snd bv)) (combine bounds r)
    else Raise ValueError.
  Fixpoint fill_next_xs (l : list acq1) (est : M) (X : list row) : op unit :=
    match l with
    | [] => ret tt
    | a :: l' =>
      o <-- get ;;
      yopt <-- lift (np_min O (y_flat (o_yi o))) ;;
      x <-- lift (pick (o_cfg o) a est yopt X) ;;
      x' <-- lift (if is_categorical (c_dims (o_cfg o)) then Ok x
                   else clip_row (space_tbounds O (c_dims (o_cfg o))) x) ;;
      _ <-- upd (set_next_xs (Some (match o_next_xs o with Some xs => xs | None => [] end ++ [x']))) ;;
      fill_next_xs l' est X
    end.
  (** softmax of the gains, optimizer.py 600-603. *)
  Definition hedge_weights (eta : N) (gains : list N) : res (list N) :=
    m <- np_max O gains ;;
    let e := map (fun g => nexp O (nmul O eta (nsub O g m))) gains in
    Ok (map (fun x => ndiv O x (np_sum O e)) e).
  (** optimizer.py 599-607 *)
  Definition choose_next : op row :=
    o <-- get ;;
    let xs := match o_next_xs o with Some xs => xs | None => [] end in
    match c_acq (o_cfg o) with
    | AHedge =>
      ps <-- lift (hedge_weights (c_eta (o_cfg o)) (o_gains o)) ;;
      let '(i, g) := rg_multinomial G (o_rng o) ps in
      _ <-- upd (set_rng g) ;;
      lift (nth_row xs i)
    | AOne _ => lift (nth_row xs 0)
    end.
  Definition first_of {A} (l : list A) : res A := match l with x :: _ => Ok x | [] => Raise IndexError end.
  (** optimizer.py 530-609 *)
  Definition refit : op unit :=
    o <-- get ;;
    P <-- lift (mapM plain (o_Xi o)) ;;
    Xt <-- lift (space_transform O (c_dims (o_cfg o)) P) ;;
    est <-- lift (w_fit W Xt (o_yi o)) ;;
    _ <-- update_gains est ;;
    _ <-- push_model est ;;
    X <-- candidates ;;
    _ <-- upd (set_next_xs (Some [])) ;;
    _ <-- fill_next_xs (cand_acqs (c_acq (o_cfg o))) est X ;;
    nx <-- choose_next ;;
    P' <-- lift (space_inverse O (c_dims (o_cfg o)) [nx]) ;;
    p <-- lift (first_of P') ;;
    upd (set_next (Some p)).

  (** *** _tell, optimizer.py 495-615 *)
  (** [x]: a point, a list of points, or a stored history (copy); [y]: one observation or a list. *)
  Inductive targ := P1 (p : point N) | P2 (ps : list (point N)) | PH (l : list (xarg N)).
  Inductive ytold := Y1 (v : yval N) | Yn (l : list (yval N)).
  Definition entries (x : targ) : list (xarg N) :=
    match x with P1 p => [X1 p] | P2 ps => map (@X1 N) ps | PH l => l end.

  Definition record_obs (x : targ) (y : ytold) : op unit :=
    match x, y with
    | P1 p, Y1 v =>
      upd (fun o => set_left (o_left o - 1) (set_yi (o_yi o ++ [v]) (set_Xi (o_Xi o ++ [X1 p]) o)))
    | P2 ps, Y1 v =>                       (* a batch told with a scalar: appended as one entry *)
      upd (fun o => set_left (o_left o - 1) (set_yi (o_yi o ++ [v]) (set_Xi (o_Xi o ++ [X2 ps]) o)))
    | P2 _, Yn l | PH _, Yn l =>
      upd (fun o => set_left (o_left o - Z.of_nat (length l))
                      (set_yi (o_yi o ++ l) (set_Xi (o_Xi o ++ entries x) o)))
    | _, _ => lift (Raise NotModelled)     (* excluded by the callers *)
    end.
  Definition tell_ (x : targ) (y : ytold) (fit : bool) : op (result N RNG M) :=
    _ <-- record_obs x y ;;
    _ <-- upd (set_cache []) ;;
    o <-- get ;;
    _ <-- (if fit && (o_left o <=? 0)%Z && has_est o then refit else ret tt) ;;
    get_result.

  (** *** tell, optimizer.py 455-493; _check_y_is_valid 617-640 *)
  Definition is_num (y : yarg N) : bool := match y with YNum _ => true | _ => false end.
  Definition is_lst (y : yarg N) : bool := match y with YLst _ => true | _ => false end.
  (** np.ndim(y) == 1 and len(y) == 2. A ragged nesting raises ValueError in recent numpy; here it is a
      TypeError like the other rejections. *)
  Definition is_pair (y : yarg N) : bool :=
    match y with YLst [a; b] => negb (is_lst a) && negb (is_lst b) | _ => false end.
  Definition check_y (ps : bool) (x : xarg N) (y : yarg N) : res unit :=
    if ps then
      match x with
      | X2 _ =>
        match y with
        | YLst ((_ :: _) as l) => if forallb is_pair l then Ok tt else Raise TypeError
        | _ => Raise TypeError
        end
      | X1 _ => if is_pair y then Ok tt else Raise TypeError
      end
    else
      match x, y with
      | X2 _, YLst l => if forallb is_num l then Ok tt else Raise ValueError
      | _, _ => if is_num y then Ok tt else Raise ValueError
      end.
  (** math.log: ValueError outside the domain. *)
  Definition math_log (t : N) : res N := if nleb O t (nofZ O 0) then Raise ValueError else Ok (nlog O t).
  (** [[val, log(t)]]; a time that is no number raises TypeError; a value that is no number would
      be stored by Python (not modelled). *)
  Definition log_pair (y : yarg N) : res (yval N) :=
    match y with
    | YLst [v; t] =>
      match t with
      | YNum t =>
        lt <- math_log t ;;
        match v with YNum v => Ok (YP v lt) | _ => Raise NotModelled end
      | _ => Raise TypeError
      end
    | _ => Raise ValueError
    end.
  Definition scalar (y : yarg N) : res (yval N) :=
    match y with YNum y => Ok (YS y) | _ => Raise NotModelled end.
  Definition convert_y (ps : bool) (x : xarg N) (y : yarg N) : res ytold :=
    match x, y with
    | X2 _, YLst l => l' <- mapM (if ps then log_pair else scalar) l ;; Ok (Yn l')
    | _, _ => v <- (if ps then log_pair y else scalar y) ;; Ok (Y1 v)
    end.
  Definition targ_of (x : xarg N) : targ := match x with X1 p => P1 p | X2 ps => P2 ps end.

  Definition tell (x : xarg N) (y : yarg N) (fit : bool) : op (result N RNG M) :=
    o <-- get ;;
    let ps := is_ps (c_acq (o_cfg o)) in
    _ <-- lift (check_x_in_space O x (c_dims (o_cfg o))) ;;
    _ <-- lift (check_y ps x y) ;;
    y' <-- lift (convert_y ps x y) ;;
    tell_ (targ_of x) y' fit.

  (** *** _ask, optimizer.py 423-453 *)
  Definition ask1 : op (point N) :=
    o <-- get ;;
    if (0 <? o_left o)%Z || negb (has_est o) then
      match o_init o with
      | None =>
        let '(P, g) := space_rvs O G (c_dims (o_cfg o)) 1 (o_rng o) in
        _ <-- upd (set_rng g) ;;
        P <-- lift P ;;
        lift (first_of P)
      | Some l =>
        match py_index l (Z.of_nat (length l) - o_left o) with
        | Some p => ret p
        | None => lift (Raise IndexError)
        end
      end
    else
      match o_models o with
      | [] => lift (Raise RuntimeError)
      | _ =>
        match o_next o with
        | None => lift (Raise AttributeError)
        | Some p =>
          ds <-- lift (mapM (fun xi => q <- plain xi ;; space_distance O (c_dims (o_cfg o)) p q) (o_Xi o)) ;;
          match ds with
          | [] => lift (Raise ValueError)             (* min([]) *)
          | _ => ret p                                (* the minimum only triggers a warning *)
          end
        end
      end.

  (** *** __init__, optimizer.py 163-305 *)
  Record oargs := mkArgs {
    a_dims : list (dim N);
    a_est : option est_desc;     (* None: base_estimator None or "dummy" *)
    a_est_str : bool;            (* given by name: costs one random draw *)
    a_n0 : Z; a_gen : bool;      (* an initial point generator other than "random" *)
    a_acq : string; a_acqopt : string; a_queue : option Z;
    a_npoints : nat; a_restarts : nat; a_eta : N }.
  Definition acq_of (s : string) : option acqf :=
    if String.eqb s "gp_hedge" then Some AHedge
    else if String.eqb s "EI" then Some (AOne EI)
    else if String.eqb s "LCB" then Some (AOne LCB)
    else if String.eqb s "PI" then Some (AOne PI)
    else if String.eqb s "EIps" then Some (AOne EIps)
    else if String.eqb s "PIps" then Some (AOne PIps)
    else None.
  Definition acq_name (a : acqf) : string :=
    (match a with AHedge => "gp_hedge" | AOne EI => "EI" | AOne LCB => "LCB" | AOne PI => "PI"
     | AOne EIps => "EIps" | AOne PIps => "PIps" end)%string.
  Definition int_max : Z := 2147483647.
  (** MultiOutputRegressor(est); it has no [kernel] attribute, so has_gradients is True. *)
  Definition wrap_multi (e : est_desc) : est_desc :=
    {| ed_gp := false; ed_multi := true; ed_grad := true; ed_regressor := true |}.

  (** optimizer.py 266-305: the space, the initial design, empty storage. Generating the design
      leaves the transformers as they were (281, 285). *)
  Definition finish (a : oargs) (acq : acqf) (e : option est_desc) (lb norm : bool) (g : RNG)
    : RNG * res state :=
    match (if norm then set_kinds_all KNormalize (a_dims a) else Ok (a_dims a)) with
    | Raise x => (g, Raise x)
    | Ok dims =>
      let c := mkCfg dims acq lb (a_npoints a) (a_restarts a) (a_eta a) e (a_gen a) (a_n0 a) (a_queue a) in
      let gains := match acq with AHedge => [nofZ O 0; nofZ O 0; nofZ O 0] | AOne _ => [] end in
      if a_gen a then
        let '(seed, g') := rg_randint G g 0 int_max in
        match w_generate W dims (a_n0 a) seed with
        | Raise x => (g', Raise x)
        | Ok l => (g', Ok (mkOpt c (a_n0 a) (Some l) [] [] [] [] None None gains g'))
        end
      else (g, Ok (mkOpt c (a_n0 a) None [] [] [] [] None None gains g))
    end.

  Definition make_optimizer (a : oargs) (g : RNG) : RNG * res state :=
    match acq_of (a_acq a) with
    | None => (g, Raise ValueError)
    | Some acq =>
      if (a_n0 a <? 0)%Z then (g, Raise ValueError)
      else
        let g1 := if a_est_str a then snd (rg_randint G g 0 int_max) else g in
        match a_est a with
        | Some e =>
          if negb (ed_regressor e) then (g1, Raise ValueError)
          else
            let e' := if is_ps acq && negb (ed_multi e) then wrap_multi e else e in
            let ao := if String.eqb (a_acqopt a) "auto" then (if ed_grad e' then "lbfgs" else "sampling")%string
                      else a_acqopt a in
            if negb (String.eqb ao "lbfgs" || String.eqb ao "sampling") then (g1, Raise ValueError)
            else if negb (ed_grad e') && negb (String.eqb ao "sampling") then (g1, Raise ValueError)
            else
              (* a GP named by a string has its dimensions normalised by cook_estimator *)
              let norm := ed_gp e' || (a_est_str a && ed_gp e) in
              finish a acq (Some e') (String.eqb ao "lbfgs") norm g1
        | None =>
          (* "ps" with None: MultiOutputRegressor(None), not modelled *)
          if is_ps acq then (g1, Raise NotModelled)
          else if String.eqb (a_acqopt a) "auto" || String.eqb (a_acqopt a) "sampling"
          then finish a acq None false false g1
          else (g1, Raise ValueError)
        end
    end.

  (** *** copy, optimizer.py 307-333 (model_queue_size is not passed on) *)
  Definition copy_args (o : state) : oargs :=
    let c := o_cfg o in
    mkArgs (c_dims c) (c_est c) false (c_n0 c) (c_gen c) (acq_name (c_acq c))
      (if c_lbfgs c then "lbfgs" else "sampling")%string None (c_npoints c) (c_restarts c) (c_eta c).
  Definition copy (o : state) (g : RNG) : RNG * res state :=
    match make_optimizer (copy_args o) g with
    | (g', Raise x) => (g', Raise x)
    | (g', Ok o1) =>
      let o2 := set_gains (o_gains o) (set_init (o_init o) o1) in
      match o_Xi o with
      | [] => (g', Ok o2)
      | _ =>
        match tell_ (PH (o_Xi o)) (Yn (o_yi o)) true o2 with
        | (o3, Ok _) => (o_rng o3, Ok o3)
        | (o3, Raise x) => (o_rng o3, Raise x)
        end
      end
    end.

  (** *** ask, optimizer.py 335-421 *)
  Inductive nparg := NPNone | NPInt (z : Z) | NPOther.
  Inductive liar := ClMin | ClMean | ClMax.
  Definition liar_of (s : string) : option liar :=
    if String.eqb s "cl_min" then Some ClMin
    else if String.eqb s "cl_mean" then Some ClMean
    else if String.eqb s "cl_max" then Some ClMax
    else None.
  Definition lie_stat (s : liar) (l : list N) : res N :=
    match s with ClMin => np_min O l | ClMean => np_mean O l | ClMax => np_max O l end.
  (** optimizer.py 395-408. [np.min(opt.yi)] of pairs is over values and log times together. *)
  Definition the_lie (s : liar) (ps : bool) (yi : list (yval N)) : res (yval N) :=
    y <- (match yi with [] => Ok (nofZ O 0) | _ => lie_stat s (y_flat yi) end) ;;
    if ps then
      t <- (match yi with
            | [] => Ok (w_logmax W)
            | _ => lie_stat s (map (fun v => match v with YP _ t => t | YS y => y end) yi)
            end) ;;
      Ok (YP y t)
    else Ok (YS y).
  (** One round of the loop 391-415 on the copy. *)
  Definition lie_once (s : liar) (ps : bool) : op (point N) :=
    x <-- ask1 ;;
    o <-- get ;;
    v <-- lift (the_lie s ps (o_yi o)) ;;
    _ <-- tell_ (P1 x) (Y1 v) true ;;
    ret x.
  Fixpoint lie_loop (s : liar) (ps : bool) (n : nat) : op (list (point N)) :=
    match n with
    | 0 => ret []
    | S n' =>
      x <-- lie_once s ps ;;
      xs <-- lie_loop s ps n' ;;
      ret (x :: xs)
    end.
  Definition key_eqb (a b : Z * string) : bool := Z.eqb (fst a) (fst b) && String.eqb (snd a) (snd b).

  Definition ask_n (n : Z) (strategy : string) : op (list (point N)) :=
    if (n <=? 0)%Z then lift (Raise ValueError)
    else match liar_of strategy with
         | None => lift (Raise ValueError)
         | Some s =>
           o <-- get ;;
           match dict_get key_eqb (o_cache o) (n, strategy) with
           | Some X => ret X
           | None =>
             let '(seed, g) := rg_randint G (o_rng o) 0 int_max in
             _ <-- upd (set_rng g) ;;
             cp <-- lift (snd (copy o (rg_seed G seed))) ;;
             X <-- lift (snd (lie_loop s (is_ps (c_acq (o_cfg o))) (Z.to_nat n) cp)) ;;
             _ <-- upd (set_cache [((n, strategy), X)]) ;;
             ret X
           end
         end.

  Inductive asked := A1pt (p : point N) | Apts (ps : list (point N)).
  Definition ask (n : nparg) (strategy : string) : op asked :=
    match n with
    | NPNone => p <-- ask1 ;; ret (A1pt p)
    | NPOther => lift (Raise ValueError)
    | NPInt z => l <-- ask_n z strategy ;; ret (Apts l)
    end.

  (** *** run, optimizer.py 642-651. The objective sees how often it has been called (it may be
      stateful) and may raise. *)
  Definition objective := nat -> point N -> res (yarg N).
  Fixpoint run_loop (f : objective) (k n : nat) : op unit :=
    match n with
    | 0 => ret tt
    | S n' =>
      x <-- ask1 ;;
      y <-- lift (f k x) ;;
      _ <-- tell (X1 x) y true ;;
      run_loop f (S k) n'
    end.
  Definition run (f : objective) (n : nat) : op (result N RNG M) :=
    _ <-- run_loop f 0 n ;; get_result.

  (** *** update_next, optimizer.py 653-661. The copy shares the generator. *)
  Definition update_next : op unit :=
    _ <-- upd (set_cache []) ;;
    o <-- get ;;
    match o_next o with
    | None => ret tt
    | Some _ =>
      let '(g, cp) := copy o (o_rng o) in
      _ <-- upd (set_rng g) ;;
      cp <-- lift cp ;;
      match o_next cp with
      | None => lift (Raise AttributeError)
      | Some p => upd (set_next (Some p))
      end
    end.
End Optimizer.
Arguments P1 {N} p.
Arguments P2 {N} ps.
Arguments PH {N} l.
Arguments Y1 {N} v.
Arguments Yn {N} l.
Arguments A1pt {N} p.
Arguments Apts {N} ps.
Arguments objective : clear implicits.
Arguments asked : clear implicits.
Arguments targ : clear implicits.
Arguments ytold : clear implicits.
Arguments oargs : clear implicits.
