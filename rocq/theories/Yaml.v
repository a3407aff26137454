(** skopt/space/space.py 808-872: Space.from_yaml, on what yaml.safe_load returns for the file, and the constructors of the
    dimensions called with keyword arguments (252-282, 437-473, 604-621). *)
From Coq Require Import String List ZArith Bool Ascii.
From Verif Require Import Base Num Values Transformers Dimension CheckDim Switch Optimizer Cook.
Import ListNotations.
Open Scope list_scope.
Set Implicit Arguments.

(** What yaml.safe_load makes of a file: plain values, lists and dicts (dates and sets are left out). *)
Inductive ynode (N : Type) :=
| YVal (v : pyval N)
| YList (l : list (ynode N))
| YDict (l : list (pyval N * ynode N)).
Arguments YVal {N} v.
Arguments YList {N} l.
Arguments YDict {N} l.

Section Yaml.
  Context {N : Type} (O : numops N).
  Notation val := (pyval N).
  Notation node := (ynode N).

  (** *** Keyword arguments *)
  Definition kwargs := list (string * node).
  Definition arg (kw : kwargs) (s : string) : option node := dict_get String.eqb kw s.
  (** An unexpected keyword raises TypeError. *)
  Definition expects (names : list string) (kw : kwargs) : res unit :=
    if forallb (fun kv => existsb (String.eqb (fst kv)) names) kw then Ok tt else Raise TypeError.
  Definition required (kw : kwargs) (s : string) : res node :=
    match arg kw s with Some v => Ok v | None => Raise TypeError end.

  (** prior not in [...], 257-259, 442-444 *)
  Definition prior_arg (kw : kwargs) : res prior :=
    match arg kw "prior" with
    | None => Ok PUniform
    | Some (YVal v) => match prior_of v with Some p => Ok p | None => Raise ValueError end
    | Some _ => Raise ValueError
    end.
  (** np.log10(base), 264, 449: lists make an array; not modelled *)
  Definition base_arg (kw : kwargs) : res N :=
    match arg kw "base" with
    | None => Ok (ten O)
    | Some (YVal v) => match to_num O v with Some x => Ok x | None => Raise TypeError end
    | Some _ => Raise NotModelled
    end.
  (** The setter of Dimension.name, 197-202 *)
  Definition name_arg (kw : kwargs) : res (option string) :=
    match arg kw "name" with
    | None | Some (YVal VNone) => Ok None
    | Some (YVal (VStr s)) => Ok (Some s)
    | Some _ => Raise ValueError
    end.
  (** 270-278; a dtype that is neither a str nor a type is not refused: not modelled *)
  Definition float_dtype (s : string) : option fdtype :=
    if String.eqb s "float" || String.eqb s "float64" then Some DT64
    else if String.eqb s "float32" then Some DT32
    else if String.eqb s "float16" then Some DT16
    else None.
  Definition fdtype_arg (kw : kwargs) : res fdtype :=
    match arg kw "dtype" with
    | None => Ok DT64
    | Some (YVal (VStr s)) => match float_dtype s with Some d => Ok d | None => Raise ValueError end
    | Some _ => Raise NotModelled
    end.
  (** 455-470 *)
  Definition int_dtype (s : string) : option idtype :=
    let signed n := Some {| id_signed := true; id_bits := n |} in
    let unsigned n := Some {| id_signed := false; id_bits := n |} in
    if String.eqb s "int" || String.eqb s "int64" then signed 64%Z
    else if String.eqb s "int32" then signed 32%Z
    else if String.eqb s "int16" then signed 16%Z
    else if String.eqb s "int8" then signed 8%Z
    else if String.eqb s "uint64" then unsigned 64%Z
    else if String.eqb s "uint32" then unsigned 32%Z
    else if String.eqb s "uint16" then unsigned 16%Z
    else if String.eqb s "uint8" then unsigned 8%Z
    else None.
  Definition idtype_arg (kw : kwargs) : res idtype :=
    match arg kw "dtype" with
    | None => Ok int64
    | Some (YVal (VStr s)) => match int_dtype s with Some d => Ok d | None => Raise ValueError end
    | Some _ => Raise NotModelled
    end.
  (** transform: None stands for the default; other values that are no names are refused by set_transformer. *)
  Definition kind_arg (kw : kwargs) : res (option tkind) :=
    match arg kw "transform" with
    | None | Some (YVal VNone) => Ok None
    | Some (YVal (VStr s)) => match kind_of s with Some k => Ok (Some k) | None => Raise ValueError end
    | Some _ => Raise ValueError
    end.

  (** high <= low, 254, 439. Two strings can be compared, and lists: not modelled. *)
  Definition real_bounds (l h : node) : res (N * N) :=
    match l, h with
    | YVal a, YVal b =>
      match to_num O a, to_num O b with
      | Some x, Some y => if nleb O y x then Raise ValueError else Ok (x, y)
      | _, _ => match a, b with VStr _, VStr _ => Raise NotModelled | _, _ => Raise TypeError end
      end
    | _, _ => Raise NotModelled
    end.
  Definition as_int (v : val) : option Z := match v with VInt z => Some z | VBool b => Some (b2z b) | _ => None end.
  (** Float bounds of an Integer are not modelled, as in CheckDim.v. *)
  Definition int_bounds (l h : node) : res (Z * Z) :=
    match l, h with
    | YVal a, YVal b =>
      match as_int a, as_int b with
      | Some x, Some y => if (y <=? x)%Z then Raise ValueError else Ok (x, y)
      | _, _ => match a, b with
                | VStr _, VStr _ | VFloat _, VFloat _ | VFloat _, (VInt _ | VBool _) | (VInt _ | VBool _), VFloat _ => Raise NotModelled
                | _, _ => Raise TypeError
                end
      end
    | _, _ => Raise NotModelled
    end.
  Definition number_names : list string := ["low"; "high"; "prior"; "base"; "transform"; "name"; "dtype"]%string.
  (** Real( **kw ), 252-282 *)
  Definition real_of (kw : kwargs) : res (dim N) :=
    _ <- expects number_names kw ;;
    l <- required kw "low" ;; h <- required kw "high" ;;
    b <- real_bounds l h ;;
    p <- prior_arg kw ;; base <- base_arg kw ;; n <- name_arg kw ;; dt <- fdtype_arg kw ;; k <- kind_arg kw ;;
    make_real O (fst b) (snd b) p base k n dt.
  (** Integer( **kw ), 437-473 *)
  Definition integer_of (kw : kwargs) : res (dim N) :=
    _ <- expects number_names kw ;;
    l <- required kw "low" ;; h <- required kw "high" ;;
    b <- int_bounds l h ;;
    p <- prior_arg kw ;; base <- base_arg kw ;; n <- name_arg kw ;; dt <- idtype_arg kw ;; k <- kind_arg kw ;;
    make_int (fst b) (snd b) p base k n dt.

  Definition plain (n : node) : res val := match n with YVal v => Ok v | _ => Raise NotModelled end.
  (** tuple(categories), 605: the characters of a string, the keys of a dict *)
  Definition categories_of (n : node) : res (list val) :=
    match n with
    | YList l => mapM plain l
    | YDict l => Ok (map fst l)
    | YVal (VStr s) => Ok (map (fun c => VStr (String c EmptyString)) (list_ascii_of_string s))
    | YVal _ => Raise TypeError
    end.
  (** Probabilities that are not a list of numbers are not modelled. *)
  Definition probability (n : node) : res N :=
    match n with YVal v => match to_num O v with Some x => Ok x | None => Raise NotModelled end | _ => Raise NotModelled end.
  Definition weights_arg (kw : kwargs) : res (option (list N)) :=
    match arg kw "prior" with
    | None | Some (YVal VNone) => Ok None
    | Some (YList l) => ps <- mapM probability l ;; Ok (Some ps)
    | Some _ => Raise NotModelled
    end.
  (** scipy's rv_discrete (655-658): as many probabilities as values, and their sum is close to 1. (Newer versions refuse
      negative ones as well.) *)
  Definition check_weights (cats : list val) (ps : option (list N)) (k : option tkind) : res unit :=
    match ps, k with
    | None, _ | _, Some KNormalize => Ok tt
    | Some ps, _ =>
      if Nat.eqb (length ps) (length cats) && allclose O (np_sum O ps) (nofZ O 1) then Ok tt else Raise ValueError
    end.
  (** Categorical( **kw ), 604-621 *)
  Definition categorical_of (kw : kwargs) : res (dim N) :=
    _ <- expects ["categories"; "prior"; "transform"; "name"]%string kw ;;
    c <- required kw "categories" ;;
    cats <- categories_of c ;;
    n <- name_arg kw ;; ps <- weights_arg kw ;;
    _ <- (match cats, ps with [], None => Raise ZeroDivisionError | _, _ => Ok tt end) ;;
    k <- kind_arg kw ;;
    _ <- check_weights cats ps k ;;
    make_cat cats ps k n.

  (** *** Space.from_yaml *)
  (** k.lower() *)
  Definition lower_key (v : val) : res string := match v with VStr s => Ok (lower s) | _ => Raise AttributeError end.
  (** 860-868: one entry. {k.lower(): v ...}: of two keys that become the same the later value counts. *)
  Definition lowered (kv : val * node) : res (string * node) := k <- lower_key (fst kv) ;; Ok (k, snd kv).
  Definition read_entry (e : node) : res (option (dim N)) :=
    match e with
    | YDict [] => Raise StopIteration
    | YDict ((key, body) :: _) =>
      c <- lower_key key ;;
      kvs <- (match body with YDict l => Ok l | _ => Raise AttributeError end) ;;
      values <- mapM lowered kvs ;;
      let kw := dict_of String.eqb values in
      if String.eqb c "real" then d <- real_of kw ;; Ok (Some d)
      else if String.eqb c "integer" then d <- integer_of kw ;; Ok (Some d)
      else if String.eqb c "categorical" then d <- categorical_of kw ;; Ok (Some d)
      else Ok None
    | _ => Raise AttributeError
    end.
  (** 847-856 *)
  Fixpoint item_of (l : list (val * node)) (s : string) : res node :=
    match l with
    | [] => Raise KeyError
    | (k, v) :: l' => if py_eqb O k (VStr s) then Ok v else item_of l' s
    end.
  Definition options_of (config : node) (namespace : option string) : res node :=
    match config with
    | YDict l => match namespace with
                 | None => match l with [] => Raise StopIteration | (_, v) :: _ => Ok v end
                 | Some s => item_of l s
                 end
    | YList _ => Ok config
    | YVal _ => Raise TypeError
    end.
  (** for option in options *)
  Definition elements (n : node) : res (list node) :=
    match n with
    | YList l => Ok l
    | YDict l => Ok (map (fun kv => YVal (fst kv)) l)
    | YVal (VStr s) => Ok (map (fun c => YVal (VStr (String c EmptyString))) (list_ascii_of_string s))
    | YVal _ => Raise TypeError
    end.
  Fixpoint somes {A} (l : list (option A)) : list A :=
    match l with [] => [] | Some a :: l' => a :: somes l' | None :: l' => somes l' end.
  (** 843-872; Space(dimensions) keeps Dimension objects as they are. *)
  Definition from_yaml (config : node) (namespace : option string) : res (list (dim N)) :=
    o <- options_of config namespace ;;
    es <- elements o ;;
    ds <- mapM read_entry es ;;
    Ok (somes ds).
End Yaml.
