(** skopt/optimizer/base.py base_minimize (24-305), the minimisers built on it (dummy.py, gp.py, forest.py,
    gbrt.py), eval_callbacks (utils.py 75-102) and check_callback (callbacks.py 19-35).

    Not modelled: [result.specs], printing, warnings, and callbacks that modify the result or the
    optimizer they are shown. *)
From Coq Require Import String List ZArith Bool.
From Verif Require Import Base Num Values Transformers Dimension Space Optimizer.
Import ListNotations.
Open Scope list_scope.
Set Implicit Arguments.

(** The [x0] argument. An item is a value or a list/tuple of values. *)
Inductive item (N : Type) := IVal (v : pyval N) | IPt (p : point N).
Arguments IVal {N} v.
Arguments IPt {N} p.
Inductive x0arg (N : Type) :=
| X0None
| X0Seq (is_list : bool) (l : list (item N))      (* a list (true) or a tuple (false) *)
| X0Other.                                         (* not subscriptable: TypeError *)
Arguments X0None {N}.
Arguments X0Seq {N} is_list l.
Arguments X0Other {N}.
(** The [y0] argument. [Y0Other]: neither iterable nor a number, and true in a condition. *)
Inductive y0arg (N : Type) := Y0None | Y0Num (x : N) | Y0Seq (l : list (yarg N)) | Y0Other.
Arguments Y0None {N}.
Arguments Y0Num {N} x.
Arguments Y0Seq {N} l.
Arguments Y0Other {N}.

Section Minimize.
  Context {N RNG M : Type} (O : numops N) (G : rng_ops N RNG) (W : world N M).
  Notation state := (opt N RNG M).
  Notation result := (result N RNG M).

  (** A callback may keep state: it answers from all results it has been shown, newest last. Its answer is
      None or a value that is true or false in a condition; it may raise. *)
  Definition callback := list result -> res (option bool).
  Inductive cbarg := CBNone | CBOne (c : callback) | CBList (l : list callback) | CBOther.
  (** callbacks.py 19-35 *)
  Definition check_callback (c : cbarg) : res (list callback) :=
    match c with
    | CBNone => Ok []
    | CBOne c => Ok [c]
    | CBList l => Ok l
    | CBOther => Raise ValueError
    end.
  (** VerboseCallback (callbacks.py 38-113): prints and returns None. *)
  Definition verbose_callback : callback := fun _ => Ok None.

  (** What the outside world sees: evaluations of the objective and calls of the i-th callback. *)
  Inductive event := EEval (p : point N) | ECall (i : nat) (r : result).
  Definition mop A := state * list event -> (state * list event) * res A.
  Definition mret {A} (a : A) : mop A := fun s => (s, Ok a).
  Definition mlift {A} (r : res A) : mop A := fun s => (s, r).
  Definition emit (e : event) : mop unit := fun s => ((fst s, snd s ++ [e]), Ok tt).
  Definition onopt {A} (m : op A) : mop A := fun s => let '(o', r) := m (fst s) in ((o', snd s), r).
  Definition mthen {A B} (m : mop A) (k : A -> mop B) : mop B :=
    fun s => match m s with
             | (s', Ok a) => k a s'
             | (s', Raise e) => (s', Raise e)
             end.
  Notation "x <== m ;; k" := (mthen m (fun x => k)) (at level 61, m at next level, right associativity).

  (** eval_callbacks, utils.py 75-102: [seen] are the results of earlier steps. *)
  Fixpoint eval_callbacks (cbs : list callback) (i : nat) (seen : list result) (r : result) (stop : bool) : mop bool :=
    match cbs with
    | [] => mret stop
    | c :: cbs' =>
      _ <== emit (ECall i r) ;;
      d <== mlift (c (seen ++ [r])) ;;
      eval_callbacks cbs' (S i) seen r
        (match d with None => stop | Some b => stop || b end)
    end.
  (** list(map(func, x0)), base.py 281; [k] evaluations were made before. *)
  Fixpoint eval_points (f : objective N) (k : nat) (xs : list (point N)) : mop (list (yarg N)) :=
    match xs with
    | [] => mret []
    | x :: xs' =>
      _ <== emit (EEval x) ;;
      y <== mlift (f k x) ;;
      ys <== eval_points f (S k) xs' ;;
      mret (y :: ys)
    end.
  (** The loop of base.py 296-303. [last] is the variable [result]. *)
  Fixpoint min_loop (f : objective N) (cbs : list callback) (k n : nat) (seen : list result) (last : option result)
    : mop (option result) :=
    match n with
    | 0 => mret last
    | S n' =>
      x <== onopt (ask1 O G) ;;
      _ <== emit (EEval x) ;;
      y <== mlift (f k x) ;;
      r <== onopt (tell O G W (X1 x) y true) ;;
      stop <== eval_callbacks cbs 0 seen r false ;;
      if stop then mret (Some r)
      else min_loop f cbs (S k) n' (seen ++ [r]) (Some r)
    end.

  Record margs := mkMargs {
    m_opt : oargs N;                   (* what is handed to Optimizer; its n_initial_points is replaced *)
    m_ncalls : Z; m_n0 : Z; m_random_starts : option Z;
    m_x0 : x0arg N; m_y0 : y0arg N; m_callback : cbarg; m_verbose : bool }.

  (** base.py 224-229. A point that has a list among its coordinates is not modelled. *)
  Definition as_value (i : item N) : res (pyval N) :=
    match i with IVal v => Ok v | IPt _ => Raise NotModelled end.
  Definition x0_items (x0 : x0arg N) : res (list (item N)) :=
    match x0 with
    | X0None => Ok []
    | X0Other => Raise TypeError
    | X0Seq _ [] => Raise IndexError                           (* x0[0] *)
    | X0Seq _ ((IVal _ :: _) as l) => p <- mapM as_value l ;; Ok [IPt p]
    | X0Seq true ((IPt _ :: _) as l) => Ok l
    | X0Seq false (IPt _ :: _) => Raise ValueError
    end.
  (** base.py 260: every item must be iterable (a str is, which is not modelled). *)
  Definition as_point (i : item N) : res (point N) :=
    match i with
    | IPt p => Ok p
    | IVal (VStr _) => Raise NotModelled
    | IVal _ => Raise AssertionError
    end.
  (** base.py 241-244 *)
  Definition y0_list (y0 : y0arg N) : y0arg N := match y0 with Y0Num x => Y0Seq [YNum x] | _ => y0 end.
  Definition y0_falsy (y0 : y0arg N) : bool := match y0 with Y0None | Y0Seq [] => true | _ => false end.
  Definition set_n0 (n : Z) (a : oargs N) : oargs N :=
    mkArgs (a_dims a) (a_est a) (a_est_str a) n (a_gen a) (a_acq a) (a_acqopt a) (a_queue a) (a_npoints a)
      (a_restarts a) (a_eta a).
  Definition is_nil {A} (l : list A) : bool := match l with [] => true | _ => false end.

  (** base.py 278-303, once everything is checked. *)
  Definition min_body (f : objective N) (cbs : list callback) (n_calls : Z) (x0 : list (point N)) (y0 : y0arg N)
    : mop (option result) :=
    match x0 with
    | [] => min_loop f cbs 0 (Z.to_nat n_calls) [] None
    | _ =>
      y0k <== (match y0 with
               | Y0None => ys <== eval_points f 0 x0 ;; mret (ys, length ys)
               | Y0Seq ys => mret (ys, 0)
               | _ => mlift (Raise ValueError)
               end) ;;
      let '(ys, k) := y0k in
      if negb (Nat.eqb (length x0) (length ys)) then mlift (Raise ValueError)
      else
        r <== onopt (tell O G W (X2 x0) (YLst ys) true) ;;
        stop <== eval_callbacks cbs 0 [] r false ;;
        if stop then mret (Some r)
        else min_loop f cbs k (Z.to_nat (n_calls - Z.of_nat k)) [r] (Some r)
    end.

  (** base_minimize: the events, the optimizer if one was made, and the returned value. *)
  Definition base_minimize (f : objective N) (a : margs) (g : RNG)
    : list event * option state * res (option result) :=
    match x0_items (m_x0 a) with
    | Raise e => ([], None, Raise e)
    | Ok items =>
      let n0 := match m_random_starts a with Some n => n | None => m_n0 a end in
      if (n0 <=? 0)%Z && is_nil items then ([], None, Raise ValueError)
      else
        let y0 := y0_list (m_y0 a) in
        let len := Z.of_nat (length items) in
        if (m_ncalls a <? n0 + (if y0_falsy y0 then len else 0))%Z then ([], None, Raise ValueError)
        else
          match make_optimizer O G W (set_n0 (n0 + len) (m_opt a)) g with
          | (_, Raise e) => ([], None, Raise e)
          | (_, Ok o) =>
            match mapM as_point items with
            | Raise e => ([], Some o, Raise e)
            | Ok x0 =>
              if negb (forallb (fun p => Nat.eqb (length p) (length (c_dims (o_cfg o)))) x0)
              then ([], Some o, Raise RuntimeError)
              else
                match check_callback (m_callback a) with
                | Raise e => ([], Some o, Raise e)
                | Ok cbs =>
                  let cbs := if m_verbose a then cbs ++ [verbose_callback] else cbs in
                  let '((o', t), r) := min_body f cbs (m_ncalls a) x0 y0 (o, []) in
                  (t, Some o', r)
                end
            end
          end
    end.

  (** dummy.py 106-119. [len(x0)] is the length of the argument as given. *)
  Definition x0_len (x0 : x0arg N) : res nat :=
    match x0 with X0Seq _ l => Ok (length l) | X0None => Ok 0 | X0Other => Raise TypeError end.
  Definition dummy_opt (a : oargs N) : oargs N :=
    mkArgs (a_dims a) None true (a_n0 a) (a_gen a) "EI" "sampling" (a_queue a) (a_npoints a) (a_restarts a)
      (a_eta a).
  Definition dummy_minimize (f : objective N) (a : margs) (g : RNG)
    : list event * option state * res (option result) :=
    let n0 := match m_x0 a, m_y0 a with
              | X0None, _ => Ok (m_ncalls a)
              | x0, Y0None => rmap (fun n => m_ncalls a - Z.of_nat n)%Z (x0_len x0)
              | _, _ => Ok (m_ncalls a)
              end in
    match n0 with
    | Raise e => ([], None, Raise e)
    | Ok n0 =>
      base_minimize f (mkMargs (dummy_opt (m_opt a)) (m_ncalls a) n0 None (m_x0 a) (m_y0 a) (m_callback a)
                               (m_verbose a)) g
    end.

  (** forest.py 186-196: base_minimize with acq_optimizer="sampling". *)
  Definition with_acqopt (s : string) (a : oargs N) : oargs N :=
    mkArgs (a_dims a) (a_est a) (a_est_str a) (a_n0 a) (a_gen a) (a_acq a) s (a_queue a) (a_npoints a)
      (a_restarts a) (a_eta a).
  Definition with_opt (o : oargs N) (a : margs) : margs :=
    mkMargs o (m_ncalls a) (m_n0 a) (m_random_starts a) (m_x0 a) (m_y0 a) (m_callback a) (m_verbose a).
  Definition forest_minimize (f : objective N) (a : margs) (g : RNG) :=
    base_minimize f (with_opt (with_acqopt "sampling" (m_opt a)) a) g.
  (** gbrt.py 173-187: as forest_minimize; a default estimator shares the generator but draws nothing. *)
  Definition gbrt_minimize (f : objective N) (a : margs) (g : RNG) := forest_minimize f a g.
  (** gp.py 250-268: the space is normalised first; a default estimator costs one draw. [own]: an estimator
      was given. *)
  Definition with_dims (d : list (dim N)) (a : oargs N) : oargs N :=
    mkArgs d (a_est a) (a_est_str a) (a_n0 a) (a_gen a) (a_acq a) (a_acqopt a) (a_queue a) (a_npoints a)
      (a_restarts a) (a_eta a).
  Definition gp_minimize (own : bool) (f : objective N) (a : margs) (g : RNG)
    : list event * option state * res (option result) :=
    match set_kinds_all KNormalize (a_dims (m_opt a)) with
    | Raise e => ([], None, Raise e)
    | Ok d =>
      let g1 := if own then g else snd (rg_randint G g 0 int_max) in
      base_minimize f (with_opt (with_dims d (m_opt a)) a) g1
    end.
End Minimize.
Arguments callback : clear implicits.
Arguments cbarg : clear implicits.
Arguments event : clear implicits.
Arguments margs : clear implicits.
Arguments CBNone {N RNG M}.
Arguments CBOther {N RNG M}.
Arguments EEval {N RNG M} p.
