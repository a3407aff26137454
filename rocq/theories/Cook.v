(** skopt/utils.py 301-450 (has_gradients, cook_estimator, cook_initial_point_generator), 569-607
    (normalize_dimensions), and the part of Optimizer.__init__ that puts estimator, acquisition optimizer and space
    together (optimizer.py 219-281). Dimension objects live on a heap: functions that are handed an object work on that
    object, not on a copy. *)
From Coq Require Import String List ZArith Bool Ascii Reals.
From Verif Require Import Base Num Values Transformers Dimension Space CheckDim Switch Optimizer Kernels Gpr.
Import ListNotations.
Open Scope list_scope.
Set Implicit Arguments.

(** str.upper and str.lower, for ASCII letters *)
Definition up (c : ascii) : ascii :=
  let n := nat_of_ascii c in if Nat.leb 97 n && Nat.leb n 122 then ascii_of_nat (n - 32) else c.
Definition low (c : ascii) : ascii :=
  let n := nat_of_ascii c in if Nat.leb 65 n && Nat.leb n 90 then ascii_of_nat (n + 32) else c.
Fixpoint smap (f : ascii -> ascii) (s : string) : string :=
  match s with EmptyString => EmptyString | String c s' => String (f c) (smap f s') end.
Definition upper := smap up.
Definition lower := smap low.

(** *** Estimators: a class and the parameters that get_params() lists. *)
Inductive eclass :=
| CGP                                (* skopt.learning.GaussianProcessRegressor *)
| CRF | CET                          (* skopt.learning.RandomForestRegressor, ExtraTreesRegressor *)
| CGBRT                              (* skopt.learning.GradientBoostingQuantileRegressor *)
| CGB                                (* sklearn.ensemble.GradientBoostingRegressor *)
| CMulti                             (* sklearn.multioutput.MultiOutputRegressor *)
| CUser (regressor : bool).          (* any other object *)
Inductive pval :=
| PNone | PInt (z : Z) | PStr (s : string) | PBool (b : bool) | PNum (x : R) | PNums (l : list R)
| PKernel (k : kernel) | PEst (e : est)
with est := Est (c : eclass) (ps : list (string * pval)).
Definition e_class (e : est) : eclass := let 'Est c _ := e in c.
Definition e_params (e : est) : list (string * pval) := let 'Est _ p := e in p.
Definition param (e : est) (s : string) : option pval := dict_get String.eqb (e_params e) s.

(** The parameters after the constructor calls of cook_estimator, 384-399: gpr.py 155-164, forest.py 197-215 and 393-411,
    gbrt.py 41-46. Of sklearn's gradient boosting, which cook_estimator does not set parameters of, only some are kept. *)
Definition gp_est (k : kernel) : est := Est CGP
  [("kernel", PKernel k); ("alpha", PNum (/ 10000000000)%R); ("optimizer", PStr "fmin_l_bfgs_b");
   ("n_restarts_optimizer", PInt 2); ("normalize_y", PBool true); ("copy_X_train", PBool true);
   ("random_state", PNone); ("noise", PStr "gaussian")]%string.
Definition forest_params (bootstrap : bool) : list (string * pval) :=
  [("n_estimators", PInt 100); ("criterion", PStr "mse"); ("max_depth", PNone); ("min_samples_split", PInt 2);
   ("min_samples_leaf", PInt 3); ("min_weight_fraction_leaf", PNum 0); ("max_features", PStr "auto");
   ("max_leaf_nodes", PNone); ("min_impurity_decrease", PNum 0); ("bootstrap", PBool bootstrap);
   ("oob_score", PBool false); ("n_jobs", PInt 1); ("random_state", PNone); ("verbose", PInt 0);
   ("warm_start", PBool false); ("min_variance", PNum 0)]%string.
Definition gbr_est : est := Est CGB [("n_estimators", PInt 30); ("loss", PStr "quantile"); ("random_state", PNone)]%string.
Definition gbrt_est : est := Est CGBRT
  [("quantiles", PNums [16 / 100; 1 / 2; 84 / 100]%R); ("base_estimator", PEst gbr_est); ("n_jobs", PInt 1);
   ("random_state", PNone)]%string.

(** sklearn's set_params for keys without "__" (others are not modelled): an unknown name raises ValueError. *)
Fixpoint set_params (e : est) (kw : list (string * pval)) : res est :=
  match kw with
  | [] => Ok e
  | (k, v) :: kw' =>
    match param e k with
    | None => Raise ValueError
    | Some _ => set_params (Est (e_class e) (dict_set String.eqb (e_params e) k v)) kw'
    end
  end.
Definition is_regressor (e : est) : bool := match e_class e with CUser b => b | _ => true end.

(** has_gradients, 301-330. get_params() of a kernel lists the kernels it is built from. *)
Fixpoint has_hamming (k : kernel) : bool :=
  match k with
  | Hamming _ => true
  | Expo k _ => has_hamming k
  | Sum k1 k2 | Prod k1 k2 => has_hamming k1 || has_hamming k2
  | _ => false
  end.
Definition is_tree (c : eclass) : bool := match c with CRF | CET | CGBRT => true | _ => false end.
(** any([isinstance(params[p], HammingKernel)]): parameters that are estimators list theirs as well *)
Fixpoint mentions_hamming (v : pval) : bool :=
  match v with
  | PKernel k => has_hamming k
  | PEst (Est _ ps) => (fix go l := match l with [] => false | (_, v) :: l' => mentions_hamming v || go l' end) ps
  | _ => false
  end.
Definition has_gradients (e : option est) : bool :=
  match e with
  | None => false
  | Some e =>
    if is_tree (e_class e) then false
    else match param e "kernel" with
         | None => true
         | Some _ => negb (existsb (fun kv => mentions_hamming (snd kv)) (e_params e))
         end
  end.

(** Keyword arguments that predict takes: gpr.py 239-240, forest.py 217 and 413, gbrt.py 91; sklearn's take none. *)
Definition predict_keywords (c : eclass) : list string :=
  (match c with
   | CGP => ["return_std"; "return_cov"; "return_mean_grad"; "return_std_grad"]
   | CRF | CET => ["return_std"]
   | CGBRT => ["return_std"; "return_quantiles"]
   | _ => []
   end)%string.

Section Cook.
  Context {N : Type} (O : numops N).
  Notation obj := (dobj N).
  (** Dimension objects by address *)
  Definition heap := list obj.
  (** A dimension as the caller hands it over: an object, or a shorthand *)
  Inductive harg := HObj (a : nat) | HSeq (l : list (pyval N)) | HOther.

  Fixpoint update (h : heap) (a : nat) (o : obj) : heap :=
    match h, a with
    | [], _ => []
    | _ :: h', 0 => o :: h'
    | x :: h', S a' => x :: update h' a' o
    end.
  (** check_dimension, space.py 87-136: an object is returned as it is, a shorthand makes a new one. *)
  Definition check_arg (h : heap) (d : harg) : heap * res nat :=
    match d with
    | HObj a => (h, if Nat.ltb a (length h) then Ok a else Raise NotModelled)
    | HSeq l => match check_dimension O None (CSeq l) with
                | Ok d => (h ++ [new_obj d], Ok (length h))
                | Raise e => (h, Raise e)
                end
    | HOther => (h, Raise ValueError)
    end.
  (** Space(dimensions), space.py 770-771; a Space is an iterable of its objects as well (783-784). *)
  Fixpoint make_space (h : heap) (ds : list harg) : heap * res (list nat) :=
    match ds with
    | [] => (h, Ok [])
    | d :: ds' =>
      match check_arg h d with
      | (h1, Raise e) => (h1, Raise e)
      | (h1, Ok a) =>
        match make_space h1 ds' with
        | (h2, Raise e) => (h2, Raise e)
        | (h2, Ok l) => (h2, Ok (a :: l))
        end
      end
    end.
  Definition at_ (h : heap) (a : nat) : res obj := match nth_error h a with Some o => Ok o | None => Raise NotModelled end.
  (** normalize_dimensions, 569-607, on a space that has been made *)
  Fixpoint normalize_all (h : heap) (l : list nat) : heap * res unit :=
    match l with
    | [] => (h, Ok tt)
    | a :: l' =>
      match at_ h a with
      | Raise e => (h, Raise e)
      | Ok o =>
        match set_transformer "normalize" o with
        | (o', Raise e) => (update h a o', Raise e)
        | (o', Ok _) => normalize_all (update h a o') l'
        end
      end
    end.
  Definition normalize_dimensions (h : heap) (ds : list harg) : heap * res (list nat) :=
    match make_space h ds with
    | (h1, Raise e) => (h1, Raise e)
    | (h1, Ok l) => match normalize_all h1 l with (h2, Raise e) => (h2, Raise e) | (h2, Ok _) => (h2, Ok l) end
    end.

  (** The kernel of the default Gaussian process, 365-382 *)
  Definition default_kernel (os : list obj) : kernel :=
    let n := fold_right (fun o n => (obj_tsize o + n)%nat) 0%nat os in
    Prod (Const 1)
      (if forallb (fun o => is_cat (ob_dim o)) os then Hamming (Aniso (repeat 1%R n))
       else Matern Nu5Half (Aniso (repeat 1%R n))).

  Inductive bname := BName (s : string) | BEst (e : est) | BNone.
  (** 401-402: n_jobs is dropped for an estimator without that attribute *)
  Definition drop_n_jobs (e : est) (kw : list (string * pval)) : list (string * pval) :=
    match param e "n_jobs" with
    | Some _ => kw
    | None => filter (fun kv => negb (String.eqb (fst kv) "n_jobs")) kw
    end.
  Definition finish_cook (e : est) (kw : list (string * pval)) : res (option est) :=
    e' <- set_params e (drop_n_jobs e kw) ;; Ok (Some e').
  (** cook_estimator, 333-405. [space]: None, or dimensions. An estimator that is given is changed in place; only the
      result is modelled. *)
  Definition cook_estimator (h : heap) (b : bname) (space : option (list harg)) (kw : list (string * pval))
    : heap * res (option est) :=
    match b with
    | BNone => (h, Raise ValueError)                         (* None is not a regressor *)
    | BEst e => (h, if is_regressor e then finish_cook e kw else Raise ValueError)
    | BName s =>
      let s := upper s in
      if String.eqb s "GP" then
        match space with
        | None => (h, Raise ValueError)
        | Some ds =>
          match normalize_dimensions h ds with
          | (h1, Raise e) => (h1, Raise e)
          | (h1, Ok l) => (h1, os <- mapM (at_ h1) l ;; finish_cook (gp_est (default_kernel os)) kw)
          end
        end
      else if String.eqb s "RF" then (h, finish_cook (Est CRF (forest_params true)) kw)
      else if String.eqb s "ET" then (h, finish_cook (Est CET (forest_params false)) kw)
      else if String.eqb s "GBRT" then (h, finish_cook gbrt_est kw)
      else if String.eqb s "DUMMY" then (h, Ok None)
      else (h, Raise ValueError)
    end.

  (** *** Optimizer.__init__, optimizer.py 219-281: the estimator, the acquisition optimizer, the space *)
  Record setting := mkSetting { s_est : option est; s_lbfgs : bool; s_space : list nat }.
  Definition multi (e : option est) : est :=
    Est CMulti [("estimator", match e with Some e => PEst e | None => PNone end)]%string.
  Definition is_multi (e : option est) : bool := match e with Some (Est CMulti _) => true | _ => false end.
  Definition is_gp (e : option est) : bool := match e with Some (Est CGP _) => true | _ => false end.
  Definition setup (h : heap) (ds : list harg) (b : bname) (acq : acqf) (acqopt : string) (seed n_jobs : Z)
    : heap * res setting :=
    let '(h1, be) := match b with
                     | BName s => cook_estimator h b (Some ds) [("random_state", PInt seed); ("n_jobs", PInt n_jobs)]%string
                     | BEst e => (h, Ok (Some e))
                     | BNone => (h, Ok None)
                     end in
    match be with
    | Raise e => (h1, Raise e)
    | Ok be =>
      if match be with Some e => negb (is_regressor e) | None => false end then (h1, Raise ValueError)
      else
        let be' := if is_ps acq && negb (is_multi be) then Some (multi be) else be in
        let ao := if String.eqb acqopt "auto" then (if has_gradients be' then "lbfgs" else "sampling")%string else acqopt in
        if negb (String.eqb ao "lbfgs" || String.eqb ao "sampling") then (h1, Raise ValueError)
        else if negb (has_gradients be') && negb (String.eqb ao "sampling") then (h1, Raise ValueError)
        else
          match (if is_gp be' then normalize_dimensions h1 ds else make_space h1 ds) with
          | (h2, Raise e) => (h2, Raise e)
          | (h2, Ok l) => (h2, Ok (mkSetting be' (String.eqb ao "lbfgs") l))
          end
    end.
  (** The dimensions of a space as the functions of Space.v take them. *)
  Definition dims_at (h : heap) (l : list nat) : res (list (dim N)) := mapM (fun a => rmap (@ob_dim N) (at_ h a)) l.
End Cook.
Arguments heap : clear implicits.
Arguments harg : clear implicits.
Arguments HObj {N} a.
Arguments HSeq {N} l.
Arguments HOther {N}.

(** *** cook_initial_point_generator, 408-450. A generator: its class and the attributes its constructor sets. *)
Inductive gclass := GSobol | GHalton | GHammersly | GLhs | GGrid | GUser.
Inductive gval := GInt (z : Z) | GStr (s : string) | GBool (b : bool) | GNone.
Record generator := mkGen { gen_class : gclass; gen_attrs : list (string * gval) }.
Inductive garg := GArgNone | GArgName (s : string) | GArgGen (g : generator) | GArgOther.
(** Default constructors: sobol.py 90, halton.py 37, hammersly.py 39, lhs.py 43, grid.py 77 *)
Definition new_generator (c : gclass) : generator := mkGen c
  (match c with
   | GSobol => [("skip", GInt 0); ("randomize", GBool true)]
   | GHalton | GHammersly => [("min_skip", GInt 0); ("max_skip", GInt 0); ("primes", GNone)]
   | GLhs => [("lhs_type", GStr "classic"); ("criterion", GStr "maximin"); ("iterations", GInt 1000)]
   | GGrid => [("border", GStr "exclude"); ("use_full_layout", GBool true); ("append_border", GStr "only")]
   | GUser => []
   end)%string.
(** set_params, sampler/base.py 8-27: setattr, whatever the name *)
Definition gen_set (g : generator) (kw : list (string * gval)) : generator :=
  fold_left (fun g kv => mkGen (gen_class g) (dict_set String.eqb (gen_attrs g) (fst kv) (snd kv))) kw g.
Definition cook_generator (a : garg) (kw : list (string * gval)) : res (option generator) :=
  match a with
  | GArgNone => Ok None
  | GArgOther => Raise ValueError
  | GArgGen g => Ok (Some (gen_set g kw))
  | GArgName s =>
    let s := lower s in
    if String.eqb s "sobol" then Ok (Some (gen_set (new_generator GSobol) kw))
    else if String.eqb s "halton" then Ok (Some (gen_set (new_generator GHalton) kw))
    else if String.eqb s "hammersly" then Ok (Some (gen_set (new_generator GHammersly) kw))
    else if String.eqb s "lhs" then Ok (Some (gen_set (new_generator GLhs) kw))
    else if String.eqb s "grid" then Ok (Some (gen_set (new_generator GGrid) kw))
    else if String.eqb s "random" then Ok None
    else Raise ValueError
  end.

(** The regressor of Gpr.v that an estimator object stands for *)
Definition noise_of (v : pval) : option noise :=
  match v with
  | PNone => Some NoNoise
  | PStr s => Some (if String.eqb s "gaussian" then NoiseGaussian else NoiseOther)
  | PNum x => Some (if Req_EM_T x 0 then NoNoise else NoiseLevel x)
  | _ => None
  end.
Definition to_gpr (e : est) : option gpr :=
  match e_class e, param e "kernel", param e "noise", param e "alpha", param e "normalize_y" with
  | CGP, Some k, Some n, Some (PNum a), Some (PBool b) =>
    match (match k with PKernel k => Some (Some k) | PNone => Some None | _ => None end), noise_of n with
    | Some k, Some n => Some (mkGpr k n a b None)
    | _, _ => None
    end
  | _, _, _, _, _ => None
  end.
