(** Concrete generators and spaces for the generator properties. *)
From Coq Require Import String List ZArith Bool Reals Lra Lia Permutation.
From Flocq Require Import Core.Core.
From Verif Require Import Base BaseLemmas Num NumLaws Values Transformers Dimension Space SpaceSpec Samples SpaceProps2
  Sampler SamplerSpec VdcLemmas PrimeLemmas HaltonLemmas DesignLemmas GridLemmas SamplerProps.
Import ListNotations.
Open Scope nat_scope.
Open Scope list_scope.

Definition GR : rng_ops R nat := {|
  rg_random := fun g => ((if Nat.even g then 0 else / 2)%R, S g);
  rg_randint := fun g lo hi => ((lo + Z.of_nat g mod (hi - lo))%Z, S g);
  rg_choice := fun g p => (Nat.modulo g (length p), S g);
  rg_perm := fun g n => (rev (seq 0 n), S g);
  rg_multinomial := fun g p => (Nat.modulo g (length p), S g);
  rg_seed := fun z => Z.to_nat z |}.
Lemma GR_ok : rng_ok Rops GR.
Proof.
  assert (M : forall g (p : list R), p <> [] -> Nat.modulo g (length p) < length p).
  { intros g p Hp. apply Nat.mod_upper_bound. now destruct p. }
  split; [|split; [|split; [|split]]]; try exact M.
  - intros g. cbn. split; [apply Rleb_spec|apply Rltb_spec]; destruct (Nat.even g); lra.
  - intros g lo hi H. cbn. pose proof (Z.mod_pos_bound (Z.of_nat g) (hi - lo)). lia.
  - intros g n. cbn. apply Permutation_sym, Permutation_rev.
Qed.
Definition spaceR : list (dim R) :=
  [DReal (mkReal (-5)%R 10%R PUniform 10%R KIdentity None DT64);
   DReal (mkReal 1%R 100%R PLogUniform 10%R KNormalize None DT64);
   DInt (mkInt (-3) 12 PUniform 10%R KIdentity None int64);
   DCat (mkCat [VStr "b"; VStr "a"; VStr "c"]%string None KOnehot None)].
Lemma spaceR_plain : Forall plain spaceR.
Proof.
  repeat apply Forall_cons; try apply Forall_nil; (split; [|try exact I; try (cbn; lia)]); cbn [wf_dim].
  - split; [apply Rltb_spec; cbn [r_low r_high]; lra|]. split; [reflexivity|now left].
  - split; [apply Rltb_spec; cbn [r_low r_high]; lra|]. split; [reflexivity|now right].
  - unfold wf_int. cbn [i_low i_high i_dtype i_kind]. split; [lia|]. split; [lia|]. split; [lia|]. split; [|now left]. intros z Hz. unfold int_cast.
    change (id_bits int64) with 64%Z. change (id_signed int64) with true. cbn [andb].
    destruct (Z_le_gt_dec 0 z).
    + rewrite (Z.mod_small z) by lia. destruct (Z.leb_spec (2 ^ (64 - 1)) z); lia.
    + assert (E : (z mod 2 ^ 64 = z + 2 ^ 64)%Z) by (symmetry; apply Z.mod_unique with (-1)%Z; lia). rewrite E.
      destruct (Z.leb_spec (2 ^ (64 - 1)) (z + 2 ^ 64)); lia.
  - split; [discriminate|]. split; [eexists; repeat constructor|]. split; repeat constructor.
Qed.

(** The model run in float64. *)
Definition show (r : list (dim float) * res (list (point float))) := rmap (map (map view)) (snd r).
Definition frow (l : list float) := map BinarySingleNaN.B2SF l.
Definition hal := mkHalton 0 0 None.
Definition fin (m : positive) (e : Z) := VFloat (SpecFloat.S754_finite false m e).
Definition numR (r : res (list (list float))) : res (list (list SpecFloat.spec_float)) := rmap (map frow) r.
