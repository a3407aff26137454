(** C95: what verbose=True prints. *)
From Coq Require Import String List ZArith Bool.
From Verif Require Import Base Num Values Dimension Space Optimizer NumLaws Samples SpaceProps2 OptSpec OptSamples Minimize MinSpec MinSamples CbSamples
  Verbose VerboseSpec VerboseProps VerboseSamples.
Import ListNotations.
Open Scope list_scope.

(** Every successful minimisation: one announcement and one report per call of the callbacks, numbered from 1. The value
    reported is the newest observation and the minimum the least one so far; the times are those between the announcement
    and the report. With given points, the first iteration stands for all of them. *)
Theorem C95_reports : forall (N RNG M : Type) (O : numops N) (G : rng_ops N RNG) (W : world N M), order_laws O ->
  forall clk m f a g t o' r, minimize O G W m f a g = (t, o', Ok (Some r)) -> m <> MDummy -> m_verbose a = true ->
  exists x0 data, given (m_x0 a) x0 /\
    (let len := Z.of_nat (length x0) in
     let provided := match values_of (m_y0 a) with None => len | Some _ => 0%Z end in
     let described k := if (k <=? provided)%Z then Provided else if (k <=? provided + (n_initial a + len))%Z then Random else Search in
     verbose_screen O clk (length (callbacks_of a)) (n_initial a) (m_ncalls a) x0 (m_y0 a) t = Ok (announces described (m_ncalls a) data)) /\
    map fst data = match x0, values_of (m_y0 a) with
                   | [], _ => map (fun p => [p]) (evals t)
                   | _, None => x0 :: map (fun p => [p]) (skipn (length x0) (evals t))
                   | _, Some _ => [] :: map (fun p => [p]) (evals t)
                   end /\
    forall i pts tm v w, nth_error data i = Some (pts, (tm, v, w)) ->
      ((Z.of_nat i < m_ncalls a)%Z -> tm = nsub O (clk (2 * i + 1)) (clk (2 * i))) /\
      reports O (firstn (match x0 with [] => S i | _ => length x0 + i end) (res_func_vals r)) v w.
Proof. exact @c95. Qed.
Print Assumptions C95_reports.

(** Without given points every iteration is one evaluation, and is described as what it is: the first n_initial_points as
    random, the others as searches. *)
Theorem C95_plain : forall (N RNG M : Type) (O : numops N) (G : rng_ops N RNG) (W : world N M), order_laws O ->
  forall clk m f a g t o' r, minimize O G W m f a g = (t, o', Ok (Some r)) -> m <> MDummy -> m_verbose a = true -> m_x0 a = X0None ->
  exists data,
    verbose_screen O clk (length (callbacks_of a)) (n_initial a) (m_ncalls a) [] (m_y0 a) t =
      Ok (announces (fun k => if (k <=? n_initial a)%Z then Random else Search) (m_ncalls a) (combine (map (fun p => [p]) (evals t)) data)) /\
    length data = length (evals t) /\ (0 < n_initial a)%Z /\
    forall i tm v w, nth_error data i = Some (tm, v, w) ->
      tm = nsub O (clk (2 * i + 1)) (clk (2 * i)) /\ reports O (firstn (S i) (res_func_vals r)) v w.
Proof. exact @c95_plain. Qed.
Print Assumptions C95_plain.
Example C95_plain_case : m_verbose (margs0 3 2 X0None Y0None CBNone) = true /\ m_x0 (margs0 3 2 X0None Y0None CBNone) = X0None /\
  exists t o r, minimize O0 G0 W0 MBase fm (margs0 3 2 X0None Y0None CBNone) 7 = (t, o, Ok (Some r)) /\
  length (evals t) = 3 /\
  forall l, verbose_screen O0 ticks 1 2 3 [] Y0None t = Ok l ->
    nth_error l 0 = Some (Line (Status 1 true Random)) /\ nth_error l 2 = Some (Line (Status 1 false Random)) /\
    nth_error l 6 = Some (Line (Status 2 true Random)) /\ nth_error l 12 = Some (Line (Status 3 true Search)) /\ nth_error l 18 = None.
Proof. exact verbose_plain. Qed.

(** With given points the descriptions are not right: an evaluation "at provided point" of a point that was not given ... *)
Theorem C95_provided_refuted : exists t o r, minimize O0 G0 W0 MBase fm (margs0 5 2 pts0 Y0None CBNone) 7 = (t, o, Ok (Some r)) /\
  exists p pre post, verbose_screen O0 ticks 1 2 5 [pb; pc] Y0None t = Ok (pre ++ Line (Status 2 true Provided) :: Evaluated p :: post) /\ ~ In p [pb; pc].
Proof. exact verbose_provided. Qed.
Print Assumptions C95_provided_refuted.

(** ... and, with given values, an "evaluation done at random point" where nothing was evaluated. *)
Theorem C95_evaluated_refuted : exists t o r, minimize O0 G0 W0 MBase fm (margs0 3 2 pts0 (Y0Seq [num 1; num 2]) CBNone) 7 = (t, o, Ok (Some r)) /\
  exists post, verbose_screen O0 ticks 1 2 3 [pb; pc] (Y0Seq [num 1; num 2]) t = Ok (Line (Status 1 true Random) :: Line (Status 1 false Random) :: post).
Proof. exact verbose_values. Qed.
Print Assumptions C95_evaluated_refuted.
