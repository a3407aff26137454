(** The initial point generators behind one interface: skopt/sampler/base.py 30-36, and the call of optimizer.py 277-282. *)
From Coq Require Import String List ZArith Bool.
From Verif Require Import Base Num Values Dimension Space Sampler Sobol Cook.
Import ListNotations.
Open Scope list_scope.

(** A generator object with the attributes [generate] reads. *)
Inductive designer := DHalton (a : halton_args) | DHammersly (a : halton_args) | DLhs (t : lhs_type) (c : criterion) (iterations : nat)
| DGrid (a : grid_args) | DSobol (s : sobol).

(** The attributes as [generate] compares them: halton.py 67-95, lhs.py 71-128 and 141-149, grid.py 97-165. Other values than
    the ones named are told apart by [LOtherType], [COther], [BOther]; primes can only be absent here. *)
Definition lhs_type_of (v : gval) : option lhs_type :=
  match v with GStr s => Some (if String.eqb s "classic" then LClassic else if String.eqb s "centered" then LCentered else LOtherType) | _ => None end.
Definition criterion_of (v : gval) : option criterion :=
  match v with
  | GNone => Some CNone
  | GStr s => Some (if String.eqb s "correlation" then CCorrelation else if String.eqb s "maximin" then CMaximin
                    else if String.eqb s "ratio" then CRatio else COther)
  | _ => None
  end.
Definition border_of (v : gval) : option border :=
  match v with
  | GStr s => Some (if String.eqb s "include" then BInclude else if String.eqb s "exclude" then BExclude
                    else if String.eqb s "only" then BOnly else BOther)
  | _ => None
  end.
Definition attr (g : generator) (k : string) : option gval := dict_get String.eqb (gen_attrs g) k.
Definition halton_of (g : generator) : option halton_args :=
  match attr g "min_skip", attr g "max_skip", attr g "primes" with
  | Some (GInt a), Some (GInt b), Some GNone => Some (mkHalton a b None)
  | _, _, _ => None
  end.
(** A new Sobol object; skip is checked by its constructor, sobol.py 90-98. *)
Definition designer_of (g : generator) : option designer :=
  match gen_class g with
  | GHalton => option_map DHalton (halton_of g)
  | GHammersly => option_map DHammersly (halton_of g)
  | GLhs =>
    match option_map lhs_type_of (attr g "lhs_type"), option_map criterion_of (attr g "criterion"), attr g "iterations" with
    | Some (Some t), Some (Some c), Some (GInt i) => Some (DLhs t c (Z.to_nat i))
    | _, _, _ => None
    end
  | GGrid =>
    match option_map border_of (attr g "border"), attr g "use_full_layout", option_map border_of (attr g "append_border") with
    | Some (Some b), Some (GBool f), Some (Some ab) => Some (DGrid (mkGrid b f ab))
    | _, _, _ => None
    end
  | GSobol =>
    match attr g "skip", attr g "randomize" with
    | Some (GInt k), Some (GBool r) => match sobol_new k r with Ok s => Some (DSobol s) | Raise _ => None end
    | _, _ => None
    end
  | GUser => None
  end.

Section Generate.
  Context {N RNG : Type} (O : numops N) (G : rng_ops N RNG) (S : @lhs_stats N).
  (** generator.generate(dimensions, n_samples, random_state=seed): optimizer.py 279-281 *)
  Definition generate (k : designer) (dims : list (dim N)) (n_samples : Z) (seed : Z) : res (list (point N)) :=
    let g := rg_seed G seed in
    let n := Z.to_nat n_samples in
    match k with
    | DHalton a => snd (halton_generate O G a dims n g)
    | DHammersly a => snd (hammersly_generate O G a dims n g)
    | DLhs t c its => snd (lhs_generate O G S t c its dims n g)
    | DGrid a => snd (grid_generate O G a dims n g)
    | DSobol s => snd (snd (sobol_generate O G s dims n g))
    end.
End Generate.
