(** Vocabulary of the optimizer properties (C13-C26, C61): calls a user can make, the observations
    they amount to, and the optimizers that can arise. *)
From Coq Require Import String List ZArith Bool Sorted Permutation.
From Verif Require Import Base Num Values Transformers Dimension Space Optimizer SpaceSpec.
Import ListNotations.
Open Scope list_scope.
Set Implicit Arguments.

Section OptSpec.
  Context {N RNG M : Type} (O : numops N) (G : rng_ops N RNG) (W : world N M).
  Notation state := (opt N RNG M).

  (** *** Calls *)
  Inductive call :=
  | CAsk (n : nparg) (strategy : string)
  | CTell (x : xarg N) (y : yarg N) (fit : bool)
  | CRun (f : objective N) (n : nat)
  | CResult
  | CUpdate.
  Inductive answer := RAsked (a : asked N) | RResult (r : result N RNG M) | RNone.

  Definition do_call (c : call) (o : state) : state * res answer :=
    match c with
    | CAsk n s => let '(o', r) := ask O G W n s o in (o', rmap RAsked r)
    | CTell x y fit => let '(o', r) := tell O G W x y fit o in (o', rmap RResult r)
    | CRun f n => let '(o', r) := run O G W f n o in (o', rmap RResult r)
    | CResult => let '(o', r) := get_result O o in (o', rmap RResult r)
    | CUpdate => let '(o', r) := update_next O G W o in (o', rmap (fun _ => RNone) r)
    end.
  (** A sequence of calls; exceptions are caught by the user, who carries on. *)
  Fixpoint exec (cs : list call) (o : state) : state * list (res answer) :=
    match cs with
    | [] => (o, [])
    | c :: cs' => let '(o1, r) := do_call c o in
                  let '(o2, rs) := exec cs' o1 in (o2, r :: rs)
    end.

  (** Optimizers that can arise: new ones, after any call (also a failing one), copies, and with the
      random generator advanced by someone else sharing it. *)
  Inductive reachable : state -> Prop :=
  | r_make a g g' o : make_optimizer O G W a g = (g', Ok o) -> reachable o
  | r_call c o : reachable o -> reachable (fst (do_call c o))
  | r_copy o g g' o' : reachable o -> copy O G W o g = (g', Ok o') -> reachable o'
  | r_rng g o : reachable o -> reachable (set_rng g o).

  (** *** Observations *)
  (** What telling the value [y] records; with per-second acquisition [y] is a pair of a value and a
      time. *)
  Inductive observation : bool -> yarg N -> yval N -> Prop :=
  | obs_plain y : observation false (YNum y) (YS y)
  | obs_timed y t : observation true (YLst [YNum y; YNum t]) (YP y (nlog O t)).
  Inductive told (ps : bool) : xarg N -> yarg N -> list (point N * yval N) -> Prop :=
  | told_one p y v : observation ps y v -> told ps (X1 p) y [(p, v)]
  | told_many pts ys vs : length pts = length ys -> Forall2 (observation ps) ys vs ->
      told ps (X2 pts) (YLst ys) (combine pts vs).
  Inductive evaluated (ps : bool) (f : objective N) : nat -> list (point N * yval N) -> Prop :=
  | ev_nil k : evaluated ps f k []
  | ev_cons k p y v L : f k p = Ok y -> observation ps y v -> evaluated ps f (S k) L ->
      evaluated ps f k ((p, v) :: L).
  (** The observations a successful call adds. *)
  Inductive logs (ps : bool) : call -> list (point N * yval N) -> Prop :=
  | lg_tell x y fit L : told ps x y L -> logs ps (CTell x y fit) L
  | lg_run f L : evaluated ps f 0 L -> logs ps (CRun f (length L)) L
  | lg_ask n s : logs ps (CAsk n s) []
  | lg_result : logs ps CResult []
  | lg_update : logs ps CUpdate [].
  (** Batches are told with one value per point. *)
  Definition matched (c : call) : Prop :=
    match c with
    | CTell (X2 pts) y _ => exists ys, y = YLst ys /\ length ys = length pts
    | _ => True
    end.

  Definition ps_of (o : state) : bool := is_ps (c_acq (o_cfg o)).

  (** Points of a space as [tell] checks them. *)
  Definition member (dims : list (dim N)) (p : point N) : Prop := Forall2 (accepts O) dims p.
  Definition valid_x (dims : list (dim N)) (x : xarg N) : Prop :=
    match x with X1 p => member dims p | X2 ps => Forall (member dims) ps end.
  (** Values that fit the points: a number per point, or a pair with a positive time. *)
  Definition valid_y1 (ps : bool) (y : yarg N) : Prop :=
    if ps then exists v t, y = YLst [YNum v; YNum t] /\ nleb O t (nofZ O 0) = false
    else exists v, y = YNum v.
  Definition valid_y (ps : bool) (x : xarg N) (y : yarg N) : Prop :=
    match x with
    | X1 _ => valid_y1 ps y
    | X2 _ => exists ys, y = YLst ys /\ Forall (valid_y1 ps) ys /\ (ps = true -> ys <> [])
    end.
  (** The unchecked combination. *)
  Definition batch_scalar (x : xarg N) (y : yarg N) : Prop :=
    exists pts v, x = X2 pts /\ y = YNum v.

  (** A result reports the first best observation. *)
  Definition best_first (r : result N RNG M) : Prop :=
    exists i, nth_error (res_func_vals r) i = Some (res_fun r) /\
              nth_error (res_x_iters r) i = Some (res_x r) /\
              (forall j v, nth_error (res_func_vals r) j = Some v -> nleb O (res_fun r) v = true) /\
              (forall j v, j < i -> nth_error (res_func_vals r) j = Some v -> nltb O (res_fun r) v = true).
  Definition no_nan (l : list N) : Prop := Forall (fun v => nisnan O v = false) l.

  (** What is assumed of an initial point generator asked for [n] points of a space. *)
  Definition gen_ok (dims : list (dim N)) (n : Z) : Prop :=
    forall seed l, w_generate W dims n seed = Ok l ->
      length l = Z.to_nat n /\ Forall (member dims) l.
  (** What is proved of sampling (C06). *)
  Definition rvs_ok (dims : list (dim N)) : Prop :=
    forall n g P g', space_rvs O G dims n g = (Ok P, g') -> length P = n /\ Forall (member dims) P.

  (** The most recent [q] elements. *)
  Definition keep {A} (q : option Z) (l : list A) : list A :=
    match q with None => l | Some q => skipn (length l - Z.to_nat q) l end.

  (** [w] is [v], or the bound that [v] exceeds. *)
  Definition clipped (b : N * N) (v w : pyval N) : Prop :=
    exists x y, to_num O v = Some x /\ w = VFloat y /\
      (nleb O (fst b) x = true -> nleb O x (snd b) = true -> y = x) /\
      (nltb O x (fst b) = true -> nleb O (fst b) (snd b) = true -> y = fst b) /\
      (nltb O (snd b) x = true -> nleb O (fst b) (snd b) = true -> y = snd b).
  Definition clipped_row (bounds : list (N * N)) (r r' : list (pyval N)) : Prop :=
    length r = length bounds /\ Forall2 (fun bv w => clipped (fst bv) (snd bv) w) (combine bounds r) r'.
  (** What is assumed of np.argsort: a rearrangement of the indices by value. *)
  Definition argsort_ok : Prop :=
    forall l, no_nan l -> Permutation (w_argsort W l) (seq 0 (length l)) /\
      StronglySorted (fun i j => forall a b, nth_error l i = Some a -> nth_error l j = Some b -> nleb O a b = true) (w_argsort W l).

  (** Asking and telling by hand, [n] times. *)
  Inductive by_hand (f : objective N) : nat -> nat -> state -> state -> option (result N RNG M) -> Prop :=
  | bh_0 k o : by_hand f k 0 o o None
  | bh_S k n o o1 o2 o3 p y r r' :
      ask O G W NPNone "cl_min" o = (o1, Ok (A1pt p)) -> f k p = Ok y ->
      tell O G W (X1 p) y true o1 = (o2, Ok r) ->
      by_hand f (S k) n o2 o3 r' ->
      by_hand f k (S n) o o3 (Some (match r' with Some r' => r' | None => r end)).
End OptSpec.
Arguments call : clear implicits.
Arguments CAsk {N} n strategy.
Arguments CResult {N}.
Arguments CUpdate {N}.
