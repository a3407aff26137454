(** The minimum of the six dimensional Hartmann function, by branch and bound over the four exponents (C80).
    With q_i(x) the exponents, a combination sum_i c_i q_i(x) with c >= 0 is a separable quadratic in x whose least value
    is known exactly; on a box of exponents every exp(-q_i) lies below a chord. *)
From Coq Require Import List ZArith Bool Reals Lra Lia Psatz.
From Verif Require Import Base Benchmarks.
Import ListNotations.
Open Scope Z_scope.

Definition SC : Z := 17592186044416.             (* 2^44: scale of the values *)
Definition UN : Z := 1048576.                           (* 2^20: exponents are in units of 1 / UN *)
Definition BIG : Z := 549755813888.                   (* 2^39 *)
(** SC * exp(- q / UN), rounded up: 19 squarings of exp(- q / 2^39) <= 1 / (1 + q / 2^39) *)
Fixpoint squares (n : nat) (z : Z) : Z := match n with O => z | S n => squares n (Z.shiftr (z * z) 44 + 1) end.
Definition expup (q : Z) : Z := squares 19 (SC * BIG / (BIG + q) + 1).

(** Tables: ten times alpha; by column, a hundred times A and a million times P *)
Definition alz : list Z := [10; 12; 30; 32].
Definition cols : list (list (Z * Z)) :=
  [ [(1000, 131200); (5, 232900); (300, 234800); (1700, 404700)];
    [(300, 169600); (1000, 413500); (350, 145100); (800, 882800)];
    [(1700, 556900); (1700, 830700); (170, 352200); (5, 873200)];
    [(350, 12400); (10, 373600); (1000, 288300); (1000, 574300)];
    [(170, 828300); (800, 100400); (1700, 304700); (10, 109100)];
    [(800, 588600); (1400, 999100); (800, 665000); (1400, 38100)] ].
Definition ystar : list Z := [201690; 150010; 476874; 275332; 311652; 657300].

Definition box := list (Z * option Z).
(** The chord over an interval: slope, constant, and how much is lost *)
Definition chord (a : Z) (i : Z * option Z) : Z * Z * Z :=
  let '(l, h) := i in
  let el := a * expup l in
  match h with
  | None => (0, el, el)
  | Some h =>
    let eh := a * expup h in
    let s := Z.max 0 ((el - eh) / (h - l)) in
    (s, Z.max (el + s * l) (eh + s * h), s * ((h - l) * (h - l)) / (8 * UN))
  end.
Fixpoint chords (al : list Z) (b : box) : list (Z * Z * Z) :=
  match al, b with a :: al', i :: b' => chord a i :: chords al' b' | _, _ => [] end.
Fixpoint wsum (f : Z -> Z) (lam : list Z) (col : list (Z * Z)) : Z :=
  match lam, col with l :: lam', (a, p) :: col' => l * a * f p + wsum f lam' col' | _, _ => 0 end.
Definition weight lam col := wsum (fun _ => 1) lam col.
Definition first lam col := wsum (fun p => p) lam col.
Definition second lam col := wsum (fun p => p * p) lam col.
Definition colmin lam col := let w := weight lam col in if w =? 0 then 0 else second lam col - (first lam col * first lam col / w + 1).
Definition zsum (l : list Z) : Z := fold_right Z.add 0 l.
Definition bound (cs : list (Z * Z * Z)) : Z :=
  10 ^ 14 * zsum (map (fun c => snd (fst c)) cs) - UN * zsum (map (colmin (map (fun c => fst (fst c)) cs)) cols).
Fixpoint near_all (lam : list Z) (slack r : Z) (cs : list (list (Z * Z))) (ys : list Z) : bool :=
  match cs, ys with
  | c :: cs', y :: ys' =>
    let w := weight lam c in
    let d := Z.abs (first lam c - y * w) in
    (0 <? w) && (d <=? r * w) && (slack * w <=? UN * ((r * w - d) * (r * w - d))) && near_all lam slack r cs' ys'
  | _, _ => true
  end.
Definition T : Z := 3322370.
Definition T1 : Z := 3322360.
Definition RAD : Z := 1000.
Definition okbox (cs : list (Z * Z * Z)) : bool :=
  let b := bound cs in
  (b <=? 10 ^ 9 * SC * T1) ||
  ((b <=? 10 ^ 9 * SC * T) && near_all (map (fun c => fst (fst c)) cs) (b - 10 ^ 9 * SC * T1) RAD cols ystar).
Definition proper (b : box) : bool := forallb (fun i => (0 <=? fst i) && match snd i with Some h => 0 <=? h | None => true end) b.
(** Split where most is lost *)
Fixpoint worst (cs : list (Z * Z * Z)) : Z * nat :=
  match cs with
  | [] => (-1, O)
  | c :: cs' => let '(g, i) := worst cs' in if g <? snd c then (snd c, O) else (g, S i)
  end.
Fixpoint split_at (n : nat) (b : box) : box * box :=
  match b, n with
  | [], _ => ([], [])
  | (l, h) :: b', O => let m := match h with Some h => (l + h) / 2 | None => l + 2 * UN end in ((l, Some m) :: b', (m, h) :: b')
  | i :: b', S n => let '(x, y) := split_at n b' in (i :: x, i :: y)
  end.
(** The chords after a split: only the one at [n] changes *)
Fixpoint recut (n : nat) (al : list Z) (b : box) (cs : list (Z * Z * Z)) : list (Z * Z * Z) :=
  match n, al, b, cs with
  | O, a :: _, i :: _, _ :: cs' => chord a i :: cs'
  | S n, _ :: al', _ :: b', c :: cs' => c :: recut n al' b' cs'
  | _, _, _, _ => chords al b
  end.
Fixpoint check (fuel : nat) (b : box) (cs : list (Z * Z * Z)) : bool :=
  if proper b && okbox cs then true
  else match fuel with
       | O => false
       | S f => let n := snd (worst cs) in let '(x, y) := split_at n b in check f x (recut n alz x cs) && check f y (recut n alz y cs)
       end.
Definition start : box := [(0, None); (0, None); (0, None); (0, None)].
Lemma check_all : check 60 start (chords alz start) = true.
Proof. vm_cast_no_check (eq_refl true). Qed.
