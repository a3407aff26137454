(** Vocabulary of the minimiser properties (C27-C31). *)
From Coq Require Import String List ZArith Bool.
From Verif Require Import Base Num Values Transformers Dimension Space Optimizer OptSpec Minimize.
Import ListNotations.
Open Scope list_scope.
Set Implicit Arguments.

Section MinSpec.
  Context {N RNG M : Type} (O : numops N) (G : rng_ops N RNG) (W : world N M).
  Notation state := (opt N RNG M).
  Notation result := (result N RNG M).
  Notation event := (event N RNG M).
  Notation callback := (callback N RNG M).

  Inductive minimizer := MBase | MDummy | MForest | MGbrt | MGp (own_estimator : bool).
  Definition minimize (m : minimizer) : objective N -> margs N RNG M -> RNG ->
                                        list event * option state * res (option result) :=
    match m with
    | MBase => base_minimize O G W
    | MDummy => dummy_minimize O G W
    | MForest => forest_minimize O G W
    | MGbrt => gbrt_minimize O G W
    | MGp own => gp_minimize O G W own
    end.

  (** The points the objective was evaluated at, in order. *)
  Definition evals (t : list event) : list (point N) :=
    flat_map (fun e => match e with EEval p => [p] | ECall _ _ => [] end) t.

  (** Ways to give points: none, one point, a list of points. *)
  Inductive given : x0arg N -> list (point N) -> Prop :=
  | gv_none : given X0None []
  | gv_one b vs : vs <> [] -> given (X0Seq b (map IVal vs)) [vs]
  | gv_list ps : ps <> [] -> given (X0Seq true (map IPt ps)) ps.
  (** Their values, if given. *)
  Definition values_of (y0 : y0arg N) : option (list (yarg N)) :=
    match y0 with Y0Num x => Some [YNum x] | Y0Seq l => Some l | Y0None | Y0Other => None end.

  (** The callbacks in force; [verbose] adds one that never stops. *)
  Definition callbacks_of (a : margs N RNG M) : list callback :=
    match m_callback a with CBNone | CBOther => [] | CBOne c => [c] | CBList l => l end ++
    (if m_verbose a then [fun _ => Ok None] else []).
  Definition wants_stop (cbs : list callback) (seen : list result) : Prop :=
    exists c, In c cbs /\ c seen = Ok (Some true).
  Definition never_stops (cbs : list callback) : Prop := forall seen, ~ wants_stop cbs seen.

  (** One step: the evaluations made, and the result shown to every callback in turn. *)
  Definition round_events (n_callbacks : nat) (rd : list (point N) * result) : list event :=
    map EEval (fst rd) ++ map (fun i => ECall i (snd rd)) (seq 0 n_callbacks).
  (** The initial number of points to suggest before fitting, as asked for. *)
  Definition n_initial (a : margs N RNG M) : Z := match m_random_starts a with Some n => n | None => m_n0 a end.

  (** Doing the same by hand, from a new optimizer [o0]: tell the given points with their values, computed in
      order where not given; then ask, evaluate, tell until [n_calls] evaluations are made. *)
  Definition hand_session (f : objective N) (a : margs N RNG M) (x0 : list (point N)) (o0 o1 : state) (r : result) : Prop :=
    match x0 with
    | [] => by_hand O G W f 0 (Z.to_nat (m_ncalls a)) o0 o1 (Some r)
    | _ => exists ys k o2 r2 last, tell O G W (X2 x0) (YLst ys) true o0 = (o2, Ok r2) /\ length ys = length x0 /\
        match values_of (m_y0 a) with
        | Some l => ys = l /\ k = 0
        | None => k = length x0 /\
            forall i x, nth_error x0 i = Some x -> exists y, nth_error ys i = Some y /\ f i x = Ok y
        end /\
        by_hand O G W f k (Z.to_nat (m_ncalls a - Z.of_nat k)) o2 o1 last /\
        r = match last with Some r' => r' | None => r2 end
    end.
End MinSpec.
