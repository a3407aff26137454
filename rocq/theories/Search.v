(** skopt/searchcv.py: BayesSearchCV. Cross-validation is an oracle: what sklearn's evaluate_candidates is
    modelled as is said at [evaluate]. *)
From Coq Require Import String List ZArith Bool.
From Verif Require Import Base Num Values Transformers Dimension Space Optimizer Minimize Named.
Import ListNotations.
Open Scope list_scope.
Set Implicit Arguments.

Section Search.
  Context {N RNG M : Type} (O : numops N) (G : rng_ops N RNG) (W : world N M).
  Context (neg : N -> N).        (* [-score] *)
  Notation state := (opt N RNG M).
  Notation result := (result N RNG M).
  Notation callback := (callback N RNG M).
  Definition space_dict := list (string * dim N).
  Definition candidate := list (string * pyval N).
  Definition batch := list (candidate * N).

  (** The [search_spaces] argument. Values are dimensions already checked and converted (check_dimension, 355-357,
      is in Dimension.v). *)
  Inductive space_elem :=
  | EDict (sp : space_dict)
  | EPair (sp : space_dict) (n : Z)      (* a tuple (dict, int) *)
  | EPairOther                           (* a tuple of length 2 whose second item is no int *)
  | ETuple (len : nat)                   (* a tuple of another length *)
  | EOther.
  Inductive spaces_arg := SDict (sp : space_dict) | SList (l : list space_elem) | SOther (len : nat).

  (** _check_search_space, 310-361 *)
  Definition check_elem (e : space_elem) : res unit :=
    match e with
    | EDict _ => Ok tt
    | EPair _ n => if (n <? 0)%Z then Raise ValueError else Ok tt
    | EPairOther => Raise ValueError
    | ETuple _ => Raise ValueError
    | EOther => Raise TypeError
    end.
  Definition check_search_space (s : spaces_arg) : res unit :=
    match s with
    | SDict [] => Raise ValueError
    | SDict _ => Ok tt
    | SList [] => Raise ValueError
    | SList l => rmap (fun _ => tt) (mapM check_elem l)
    | SOther 0 => Raise ValueError
    | SOther _ => Raise TypeError
    end.

  Record search := mkSearch {
    s_spaces : spaces_arg;
    s_niter : Z;
    s_npoints : Z;
    s_kwargs : oargs N }.     (* optimizer_kwargs; [a_dims] is not read *)

  (** total_iterations, 417-438. Iterating over a dict yields its keys, which are no tuples. *)
  Definition total_iterations (s : search) : Z :=
    match s_spaces s with
    | SDict sp => fold_right (fun _ t => s_niter s + t)%Z 0%Z sp
    | SList l => fold_right (fun e t => (match e with EPair _ n => n | _ => s_niter s end) + t)%Z 0%Z l
    | SOther len => (s_niter s * Z.of_nat len)%Z
    end.

  (** _make_optimizer, 368-395. Dimensions without a name are given their key as name (388-393): not modelled,
      no other modelled code reads it. *)
  Definition search_optimizer (kw : oargs N) (sp : space_dict) (g : RNG) : RNG * res state :=
    match dimensions_aslist sp with
    | Raise e => (g, Raise e)
    | Ok ds => make_optimizer O G W
                 (mkArgs ds (a_est kw) (a_est_str kw) (a_n0 kw) (a_gen kw) (a_acq kw) (a_acqopt kw) (a_queue kw)
                         (a_npoints kw) (a_restarts kw) (a_eta kw)) g
    end.

  (** sklearn's evaluate_candidates: scores the candidates in order and appends them to those evaluated before;
      [scorer k c] is the mean test score of [c] when it is the [k]-th candidate of the whole search. What the
      call returns is the table of all candidates so far (cv_results_), [concat log']. *)
  Fixpoint score_from (scorer : nat -> candidate -> res N) (k : nat) (cs : list candidate) : res batch :=
    match cs with
    | [] => Ok []
    | c :: cs' => v <- scorer k c ;; rest <- score_from scorer (S k) cs' ;; Ok ((c, v) :: rest)
    end.
  Definition evaluate (scorer : nat -> candidate -> res N) (log : list batch) (cs : list candidate)
    : res (list batch) :=
    if Nat.eqb (length cs) 0 then Raise ValueError      (* sklearn: no fits were performed *)
    else new <- score_from scorer (length (concat log)) cs ;; Ok (log ++ [new]).

  (** [l[-n:]] *)
  Definition slice_last {A} (n : nat) (l : list A) : list A :=
    if Nat.eqb n 0 then l else skipn (length l - n) l.

  (** _step, 397-415. Converting values to native types (402-403) is the identity here. *)
  Definition step (scorer : nat -> candidate -> res N) (sp : space_dict) (n : Z) (o : state) (log : list batch)
    : res (state * list batch * result) :=
    match ask O G W (NPInt n) "cl_min"%string o with
    | (_, Raise e) => Raise e
    | (_, Ok (A1pt _)) => Raise NotModelled      (* ask with a number of points gives a list *)
    | (o1, Ok (Apts params)) =>
      let dicts := map (point_asdict sp) params in
      log' <- evaluate scorer log dicts ;;
      let local_results := slice_last (length params) (map snd (concat log')) in
      match tell O G W (X2 params) (YLst (map (fun s => YNum (neg s)) local_results)) true o1 with
      | (_, Raise e) => Raise e
      | (o2, Ok r) => Ok (o2, log', r)
      end
    end.

  (** eval_callbacks (utils.py 75-102): every callback is called, in order. *)
  Definition stops (cbs : list callback) (seen : list result) : res bool :=
    answers <- mapM (fun c => c seen) cbs ;;
    Ok (existsb (fun a => match a with Some true => true | _ => false end) answers).

  (** What the loop over one space changes: the optimizer, the evaluated candidates, the results the callbacks
      have seen and the variable [optim_result] (None: not yet assigned). *)
  Record running := mkRunning {
    r_opt : state; r_log : list batch; r_seen : list result; r_last : option result }.

  (** 505-519. [fuel] bounds the number of rounds: a round lowers [n_iter] by [n_points], and [n_points] below one
      makes the round raise. *)
  Fixpoint search_loop (scorer : nat -> candidate -> res N) (cbs : list callback) (sp : space_dict) (n_points : Z)
    (fuel : nat) (n_iter : Z) (s : running) : res running :=
    if (n_iter <=? 0)%Z then Ok s
    else match fuel with
         | 0 => Raise NotModelled
         | S fuel' =>
           t <- step scorer sp (Z.min n_iter n_points) (r_opt s) (r_log s) ;;
           let '(o, log, r) := t in
           let s' := mkRunning o log (r_seen s ++ [r]) (Some r) in
           stop <- stops cbs (r_seen s') ;;
           if stop then Ok s'
           else search_loop scorer cbs sp n_points fuel' (n_iter - n_points)%Z s'
         end.

  Definition elems (s : spaces_arg) : res (list space_elem) :=
    match s with SDict sp => Ok [EDict sp] | SList l => Ok l | SOther _ => Raise NotModelled end.
  Definition space_of (e : space_elem) : res space_dict :=
    match e with EDict sp => Ok sp | EPair sp _ => Ok sp | _ => Raise NotModelled end.
  Definition iters_of (n_iter : Z) (e : space_elem) : Z :=
    match e with EPair _ n => n | _ => n_iter end.

  (** 488-494: the optimizers are made in order and share one random state. *)
  Fixpoint make_all (kw : oargs N) (l : list space_elem) (g : RNG) : RNG * res (list state) :=
    match l with
    | [] => (g, Ok [])
    | e :: l' =>
      match space_of e with
      | Raise x => (g, Raise x)
      | Ok sp =>
        match search_optimizer kw sp g with
        | (g1, Raise x) => (g1, Raise x)
        | (g1, Ok o) => match make_all kw l' g1 with
                        | (g2, Ok os) => (g2, Ok (o :: os))
                        | (g2, Raise x) => (g2, Raise x)
                        end
        end
      end
    end.

  (** 500-520. The random state is shared: each optimizer goes on from where the previous one left it. An optimizer
      in the returned list keeps the random state as it was when its own loop ended. *)
  Fixpoint search_spaces (scorer : nat -> candidate -> res N) (cbs : list callback) (n_iter n_points : Z)
    (l : list (space_elem * state)) (g : RNG) (log : list batch) (seen : list result) (prev : option result)
    : res (list state * list batch * list result) :=
    match l with
    | [] => Ok ([], log, [])
    | (e, o) :: l' =>
      sp <- space_of e ;;
      s <- search_loop scorer cbs sp n_points (Z.to_nat (iters_of n_iter e)) (iters_of n_iter e)
             (mkRunning (set_rng g o) log seen prev) ;;
      match r_last s with
      | None => Raise UnboundLocalError
      | Some r =>
        t <- search_spaces scorer cbs n_iter n_points l' (o_rng (r_opt s)) (r_log s) (r_seen s) (Some r) ;;
        let '(os, log', rs) := t in Ok (r_opt s :: os, log', r :: rs)
      end
    end.

  (** The constructor's check and _run_search, 477-520: the optimizers, the evaluated candidates in batches
      (cv_results_ is their concatenation) and optimizer_results_. *)
  Definition search_fit (s : search) (scorer : nat -> candidate -> res N) (cbs : list callback) (g : RNG)
    : res (list state * list batch * list result) :=
    _ <- check_search_space (s_spaces s) ;;
    l <- elems (s_spaces s) ;;
    match make_all (s_kwargs s) l g with
    | (_, Raise e) => Raise e
    | (g', Ok os) => search_spaces scorer cbs (s_niter s) (s_npoints s) (combine l os) g' [] [] None
    end.
End Search.
Arguments space_dict N : clear implicits.
Arguments candidate N : clear implicits.
Arguments batch N : clear implicits.
Arguments space_elem N : clear implicits.
Arguments spaces_arg N : clear implicits.
Arguments search N : clear implicits.
Arguments running N RNG M : clear implicits.
Arguments EPairOther {N}.
Arguments ETuple {N} len.
Arguments EOther {N}.
Arguments SOther {N} len.
