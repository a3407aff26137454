(** skopt/utils.py dump and load (105-174) on a heap of Python objects.

    An object is a dict (or a dict with attribute access, as OptimizeResult) or a sequence; its items are
    references to other objects or atoms. Atoms are what copy.deepcopy returns unchanged: None, numbers, str,
    functions, classes. Not modelled: objects with their own __deepcopy__ or __reduce__ (an instance counts as
    the dict of its attributes), the recursion limit, and what joblib does with what it is handed. *)
From Coq Require Import String List Arith Bool.
From Verif Require Import Base.
Import ListNotations.
Open Scope list_scope.
Set Implicit Arguments.

Inductive ref := RAtom (s : string) | RObj (n : nat).
Inductive cell := CDict (l : list (string * ref)) | CSeq (l : list ref).
Definition heap := list cell.
Definition memo := list (nat * nat).

Fixpoint assoc {A} (k : string) (l : list (string * A)) : option A :=
  match l with
  | [] => None
  | (k', v) :: l' => if String.eqb k k' then Some v else assoc k l'
  end.
Fixpoint lookup (n : nat) (m : memo) : option nat :=
  match m with
  | [] => None
  | (a, b) :: m' => if Nat.eqb n a then Some b else lookup n m'
  end.
Fixpoint set_nth {A} (n : nat) (x : A) (l : list A) : list A :=
  match l, n with
  | [], _ => []
  | _ :: l', 0 => x :: l'
  | a :: l', S n' => a :: set_nth n' x l'
  end.

(** v.key and v[key] *)
Definition get_attr (h : heap) (v : ref) (k : string) : res ref :=
  match v with
  | RAtom _ => Raise AttributeError
  | RObj n => match nth_error h n with
              | Some (CDict l) => match assoc k l with Some x => Ok x | None => Raise AttributeError end
              | Some (CSeq _) => Raise AttributeError
              | None => Raise NotModelled
              end
  end.
Definition get_item (h : heap) (v : ref) (k : string) : res ref :=
  match v with
  | RAtom _ => Raise TypeError
  | RObj n => match nth_error h n with
              | Some (CDict l) => match assoc k l with Some x => Ok x | None => Raise KeyError end
              | Some (CSeq _) => Raise TypeError
              | None => Raise NotModelled
              end
  end.
(** key in v, for a dict v *)
Definition has_key (h : heap) (v : ref) (k : string) : res bool :=
  match v with
  | RAtom _ => Raise TypeError
  | RObj n => match nth_error h n with
              | Some (CDict l) => Ok (match assoc k l with Some _ => true | None => false end)
              | _ => Raise NotModelled
              end
  end.
(** del v[key] *)
Definition remove_key {A} (k : string) (l : list (string * A)) : list (string * A) :=
  filter (fun p => negb (String.eqb k (fst p))) l.
Definition del_item (h : heap) (v : ref) (k : string) : res heap :=
  match v with
  | RAtom _ => Raise TypeError
  | RObj n => match nth_error h n with
              | Some (CDict l) => match assoc k l with
                                  | Some _ => Ok (set_nth n (CDict (remove_key k l)) h)
                                  | None => Raise KeyError
                                  end
              | _ => Raise NotModelled
              end
  end.

(** copy.deepcopy: the new object is made and recorded first, then its items are copied in order. The items are
    stored at the end here; nothing reads the new object before. *)
Fixpoint copy_all (copy : heap * memo -> ref -> res (heap * memo * ref)) (s : heap * memo) (l : list ref)
  : res (heap * memo * list ref) :=
  match l with
  | [] => Ok (s, [])
  | v :: l' =>
    sv <- copy s v ;;
    sl <- copy_all copy (fst sv) l' ;;
    Ok (fst sl, snd sv :: snd sl)
  end.
Fixpoint deepcopy (fuel : nat) (s : heap * memo) (v : ref) : res (heap * memo * ref) :=
  match v with
  | RAtom _ => Ok (s, v)
  | RObj n =>
    match lookup n (snd s) with
    | Some m => Ok (s, RObj m)
    | None =>
      match fuel with
      | 0 => Raise RuntimeError
      | S fuel' =>
        let m := length (fst s) in
        match nth_error (fst s) n with
        | None => Raise NotModelled
        | Some (CDict l) =>
          sl <- copy_all (deepcopy fuel') (fst s ++ [CDict []], (n, m) :: snd s) (map snd l) ;;
          Ok (set_nth m (CDict (combine (map fst l) (snd sl))) (fst (fst sl)), snd (fst sl), RObj m)
        | Some (CSeq l) =>
          sl <- copy_all (deepcopy fuel') (fst s ++ [CSeq []], (n, m) :: snd s) l ;;
          Ok (set_nth m (CSeq (snd sl)) (fst (fst sl)), snd (fst sl), RObj m)
        end
      end
    end
  end.

(** dump: the heap afterwards, and the heap and object handed to joblib.dump. *)
Definition dump (h : heap) (r : ref) (store_objective : bool) : res (heap * (heap * ref)) :=
  if store_objective then Ok (h, (h, r))
  else
    specs <- get_attr h r "specs" ;;
    args <- get_item h specs "args" ;;
    has <- has_key h args "func" ;;
    if has then
      c <- deepcopy (length h) (h, []) r ;;
      let h1 := fst (fst c) in
      specs' <- get_attr h1 (snd c) "specs" ;;
      args' <- get_item h1 specs' "args" ;;
      h2 <- del_item h1 args' "func" ;;
      Ok (h2, (h2, snd c))
    else Ok (h, (h, r)).
