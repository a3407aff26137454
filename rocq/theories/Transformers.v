(** skopt/space/transformers.py *)
From Coq Require Import String List ZArith Bool.
From Verif Require Import Base Num Values.
Import ListNotations.
Open Scope list_scope.
Set Implicit Arguments.

(** A transformer object. The fitted state of the encoders is determined by the categories.
    [TString] carries [self.dtype]. *)
Inductive transformer (N : Type) :=
| TIdentity                                  (* transformers.py 20-28 *)
| TString (ty : pytype)                      (* 31-82 *)
| TLogN (base : N)                           (* 85-95 *)
| TCatEnc (cats : list (pyval N))            (* 98-152, after fit(cats) *)
| TLabelEnc (cats : list (pyval N))          (* 155-218, after fit(cats) *)
| TNormalize (low high : N) (is_int : bool)  (* 221-276 *)
| TPipeline (ts : list (transformer N)).     (* 279-310 *)
Arguments TIdentity {N}.
Arguments TString {N} ty.

(** A column handed to a transformer: 1-D, or 2-D (one row per sample). *)
Inductive arr (A : Type) := A1 (l : list A) | A2 (rows : list (list A)).

Section Transformers.
  Context {N : Type} (O : numops N).
  Notation val := (pyval N).

  (** CategoricalEncoder.fit, transformers.py 113-114: mapping_ and inverse_mapping_. *)
  Definition cat_mapping (cats : list val) : list (val * nat) :=
    dict_of (py_eqb O) (map (fun iv => (snd iv, fst iv)) (enumerate cats)).
  Definition invert_mapping (m : list (val * nat)) : list (nat * val) :=
    dict_of Nat.eqb (map (fun kv => (snd kv, fst kv)) m).

  (** LabelBinarizer.fit on a list of non-negative ints: classes_ = sorted distinct values
      (scikit-learn). *)
  Fixpoint nat_insert (n : nat) (l : list nat) : list nat :=
    match l with
    | [] => [n]
    | m :: l' => if Nat.eqb n m then l else if Nat.ltb n m then n :: l else m :: nat_insert n l'
    end.
  Definition lb_classes (ys : list nat) : list nat := fold_left (fun acc n => nat_insert n acc) ys [].

  (** [self.mapping_[v] for v in X], KeyError when absent. *)
  Definition lookup (m : list (val * nat)) (v : val) : res nat :=
    match dict_get (py_eqb O) m v with Some i => Ok i | None => Raise KeyError end.
  Definition inv_lookup (m : list (nat * val)) (i : nat) : res val :=
    match dict_get Nat.eqb m i with Some v => Ok v | None => Raise KeyError end.

  (** Fitted classes of the CategoricalEncoder, transformers.py 115. *)
  Definition cat_classes (cats : list val) : res (list nat) :=
    is <- mapM (lookup (cat_mapping cats)) cats ;; Ok (lb_classes is).

  Definition v01 (b : bool) : val := VInt (if b then 1%Z else 0%Z).

  (** LabelBinarizer.transform (neg_label 0, pos_label 1): one class gives a column of zeros,
      two classes one column, more classes one column per class. Labels not in classes_ give a
      zero row. Returned shape is always 2-D. *)
  Definition lb_transform (classes : list nat) (ys : list nat) : res (list (list val)) :=
    match ys with
    | [] => Raise ValueError    (* "y has 0 samples" *)
    | _ =>
      Ok (map (fun y =>
        match classes with
        | [_] => [v01 false]
        | [_; c1] => [v01 (Nat.eqb y c1)]
        | _ => map (fun c => v01 (Nat.eqb y c)) classes
        end) ys)
    end.

  (** np.argmax over a row: first maximum (NaN is maximal and first). *)
  Fixpoint argmax_from (i : nat) (best : nat) (bv : N) (l : list N) : nat :=
    match l with
    | [] => best
    | x :: l' =>
      if nisnan O bv then best
      else if nisnan O x || nltb O bv x then argmax_from (S i) i x l'
      else argmax_from (S i) best bv l'
    end.
  Definition argmax (l : list N) : option nat :=
    match l with [] => None | x :: l' => Some (argmax_from 1 0 x l') end.

  Definition nums (l : list val) : res (list N) :=
    mapM (fun v => match to_num O v with Some x => Ok x | None => Raise TypeError end) l.

  (** LabelBinarizer.inverse_transform: 1-D or single-column input with at most two classes is
      thresholded at 0.5; with three or more classes argmax picks the class. *)
  Definition lb_inverse1 (classes : list nat) (row : list val) : res nat :=
    xs <- nums row ;;
    match classes with
    | [] => Raise ValueError
    | [c] => Ok c
    | [c0; c1] =>
      match xs with
      | [x] => Ok (if nltb O (nhalf O) x then c1 else c0)
      | [_; x] => Ok (if nltb O (nhalf O) x then c1 else c0)
      | _ => Raise ValueError
      end
    | _ =>
      match argmax xs with
      | Some k => match nth_error classes k with
                  | Some c => Ok c
                  | None => match last (map Some classes) None with Some c => Ok c | None => Raise ValueError end
                  end (* take(..., mode="clip") *)
      | None => Raise ValueError
      end
    end.

  Definition rows_of (a : arr val) : list (list val) :=
    match a with A1 l => map (fun v => [v]) l | A2 r => r end.

  (** LabelEncoder.fit, transformers.py 161-179. *)
  Definition label_mapping (cats : list val) : list (val * nat) :=
    let X := np_asarray O cats in
    match np_dtype cats with
    | NObject => dict_of (py_eqb O) (map (fun iv => (snd iv, fst iv)) (enumerate X))
    | _ => dict_of (py_eqb O) (map (fun iv => (snd iv, fst iv)) (enumerate (np_unique O X)))
    end.

  Definition znat (z : Z) : option nat := if (z <? 0)%Z then None else Some (Z.to_nat z).

  (** Normalize.transform, transformers.py 243-265. *)
  Definition normalize_transform (low high : N) (is_int : bool) (X : list N) : res (list N) :=
    if is_int then
      if existsb (fun x => nltb O high (nround O x)) X then Raise ValueError
      else if existsb (fun x => nltb O (nround O x) low) X then Raise ValueError
      else if neqb O (nsub O high low) (nofZ O 0) then Ok (map (fun x => nmul O x (nofZ O 0)) X)
      else Ok (map (fun x => ndiv O (nsub O (nofZ O (ntoint O (nround O x))) low) (nsub O high low)) X)
    else
      if existsb (fun x => nltb O (nadd O high (neps O)) x) X then Raise ValueError
      else if existsb (fun x => nltb O x (nsub O low (neps O))) X then Raise ValueError
      else if neqb O (nsub O high low) (nofZ O 0) then Ok (map (fun x => nmul O x (nofZ O 0)) X)
      else Ok (map (fun x => ndiv O (nsub O x low) (nsub O high low)) X).

  (** Normalize.inverse_transform, transformers.py 267-276. *)
  Definition normalize_inverse (low high : N) (is_int : bool) (X : list N) : res (list val) :=
    if existsb (fun x => nltb O (nadd O (nofZ O 1) (neps O)) x) X then Raise ValueError
    else if existsb (fun x => nltb O x (nsub O (nofZ O 0) (neps O))) X then Raise ValueError
    else
      Ok (map (fun x =>
        let o := nadd O (nmul O x (nsub O high low)) low in
        if is_int then VInt (ntoint O (nround O o)) else VFloat o) X).

  Definition as_A1 (a : arr val) : res (list val) :=
    match a with A1 l => Ok l | A2 _ => Raise NotModelled end.

  (** [self.inverse_mapping_[int(np.round(i))]], transformers.py 216-218; int(nan) and int(inf)
      raise (ValueError / OverflowError), shown as ValueError. *)
  Definition label_inverse1 (m : list (nat * val)) (v : val) : res val :=
    match to_num O v with
    | None => Raise TypeError
    | Some x =>
      if nisnan O x then Raise ValueError
      else match znat (ntoint O (nround O x)) with
           | Some i => inv_lookup m i
           | None => Raise KeyError
           end
    end.

  Fixpoint transform (t : transformer N) (a : arr val) {struct t} : res (arr val) :=
    match t with
    | TIdentity => Ok a
    | TString _ => l <- as_A1 a ;; Ok (A1 (map (fun v => VStr (py_str O v)) l))
    | TLogN base =>
      l <- as_A1 a ;; xs <- nums l ;;
      Ok (A1 (map (fun x => VFloat (ndiv O (nlog10 O x) (nlog10 O base))) xs))
    | TCatEnc cats =>
      l <- as_A1 a ;;
      ys <- mapM (lookup (cat_mapping cats)) l ;;
      cl <- cat_classes cats ;;
      rows <- lb_transform cl ys ;;
      Ok (A2 rows)
    | TLabelEnc cats =>
      l <- as_A1 a ;;
      ys <- mapM (lookup (label_mapping cats)) (np_asarray O l) ;;
      Ok (A1 (map (fun i => VInt (Z.of_nat i)) ys))
    | TNormalize low high is_int =>
      l <- as_A1 a ;; xs <- nums l ;;
      ys <- normalize_transform low high is_int xs ;;
      Ok (A1 (map (@VFloat N) ys))
    | TPipeline ts =>
      (fix go (ts : list (transformer N)) (a : arr val) : res (arr val) :=
         match ts with
         | [] => Ok a
         | t :: ts' => a' <- transform t a ;; go ts' a'
         end) ts a
    end.

  Fixpoint inverse_transform (t : transformer N) (a : arr val) {struct t} : res (arr val) :=
    match t with
    | TIdentity => Ok a
    | TString ty =>
      l <- as_A1 a ;;
      l' <- mapM (fun v => py_construct O ty (py_str O v)) l ;;
      Ok (A1 l')
    | TLogN base =>
      l <- as_A1 a ;; xs <- nums l ;;
      Ok (A1 (map (fun x => VFloat (npow O base x)) xs))
    | TCatEnc cats =>
      cl <- cat_classes cats ;;
      ys <- mapM (lb_inverse1 cl) (rows_of a) ;;
      l <- mapM (inv_lookup (invert_mapping (cat_mapping cats))) ys ;;
      Ok (A1 l)
    | TLabelEnc cats =>
      l <- as_A1 a ;;
      l' <- mapM (label_inverse1 (invert_mapping (label_mapping cats))) l ;;
      Ok (A1 l')
    | TNormalize low high is_int =>
      l <- as_A1 a ;; xs <- nums l ;;
      ys <- normalize_inverse low high is_int xs ;;
      Ok (A1 ys)
    | TPipeline ts =>
      (fix go (ts : list (transformer N)) (a : arr val) : res (arr val) :=
         match ts with
         | [] => Ok a
         | t :: ts' => a' <- go ts' a ;; inverse_transform t a'
         end) ts a
    end.
End Transformers.
