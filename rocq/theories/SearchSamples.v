(** Concrete cases for named points and BayesSearchCV (C38-C41). *)
From Coq Require Import String List ZArith Bool Lia Permutation Sorted.
From Flocq Require Import IEEE754.BinarySingleNaN.
From Verif Require Import Base Num Values Dimension Space Optimizer NumLaws SpaceSpec Samples SpaceProps2 OptSpec OptSamples
  Minimize Named Search SearchSpec NamedLemmas SearchLemmas.
Import ListNotations.
Open Scope list_scope.

Definition spA : space_dict float := [("rate", real1 KIdentity); ("depth", int1 KIdentity)]%string.
Definition spB : space_dict float := [("alpha", real1 KIdentity)]%string.
Definition kw0 : oargs float := mkArgs [] (Some gp_est) true 2 false "EI" "sampling" None 3 2 (fofZ 1).
Definition search0 (s : spaces_arg float) (n_iter n_points : Z) : search float := mkSearch s n_iter n_points kw0.
(** The score is the position of the candidate in the whole search. *)
Definition scorer0 (k : nat) (c : candidate float) : res float := Ok (fofZ (Z.of_nat k)).
Definition fit0 s n_iter n_points cbs := search_fit O0 G0 W0 (@Bopp 53 1024) (search0 s n_iter n_points) scorer0 cbs 7.
Definition two_spaces : spaces_arg float := SList [EPair spA 5; EDict spB].
Definition sizes (r : res (list (opt float nat nat) * list (batch float) * list (result float nat nat))) : list nat :=
  match r with Ok (_, log, _) => map (@length _) log | Raise _ => [] end.
Definition told_values (r : res (list (opt float nat nat) * list (batch float) * list (result float nat nat)))
  : list (list (yval SpecFloat.spec_float)) :=
  match r with Ok (os, _, _) => map (fun o => map view_y (o_yi o)) os | Raise _ => [] end.
Definition first_names (r : res (list (opt float nat nat) * list (batch float) * list (result float nat nat))) : list (list string) :=
  match r with Ok (_, log, _) => map (fun b => flat_map (fun cv => map fst (fst cv)) (firstn 1 b)) log | Raise _ => [] end.
Definition failed {A} (e : exn) (r : res A) : bool :=
  match r, e with Raise UnboundLocalError, UnboundLocalError => true | Raise ValueError, ValueError => true
  | Raise TypeError, TypeError => true | _, _ => false end.

Lemma spA_dict : is_dict spA.
Proof. unfold is_dict. simpl. repeat constructor; simpl; intuition discriminate. Qed.
Lemma spB_dict : is_dict spB.
Proof. unfold is_dict. simpl. repeat constructor; simpl; intuition discriminate. Qed.
Lemma two_dicts : all_dicts (given_spaces two_spaces).
Proof.
  intros e sp He Hs. destruct He as [<-|[<-|[]]]; destruct Hs as [H|[n H]]; try discriminate; injection H as <-;
    [apply spA_dict|apply spB_dict].
Qed.
Lemma sizes_ok : sizes (fit0 two_spaces 3 2 []) = [2; 2; 1; 2; 1].
Proof. vm_compute. reflexivity. Qed.
Lemma C38_sample : is_ok (fit0 two_spaces 3 2 []) = true /\ sizes (fit0 two_spaces 3 2 []) = [2; 2; 1; 2; 1] /\
  total_iterations (search0 two_spaces 3 2) = 8%Z /\ all_dicts (given_spaces two_spaces) /\
  @never_stops float nat nat [].
Proof.
  split; [vm_compute; reflexivity|]. split; [exact sizes_ok|]. split; [vm_compute; reflexivity|]. split; [exact two_dicts|].
  intros c seen [].
Qed.
Definition score_view (k : Z) : yval SpecFloat.spec_float := view_y (YS (fofZ (- k))).
Lemma C39_sample : told_values (fit0 two_spaces 3 2 []) =
    [view_y (YS (Bopp (fofZ 0))) :: map score_view [1; 2; 3; 4]; map score_view [5; 6; 7]]%Z /\
  first_names (fit0 two_spaces 3 2 []) =
    [["depth"; "rate"]; ["depth"; "rate"]; ["depth"; "rate"]; ["alpha"]; ["alpha"]]%string.
Proof. split; vm_compute; reflexivity. Qed.
(** A callback that stops at once ends each space after one batch. *)
Definition stop_now : callback float nat nat := fun _ => Ok (Some true).
Lemma C38_stop_sample : sizes (fit0 two_spaces 3 2 [stop_now]) = [2; 2].
Proof. vm_compute. reflexivity. Qed.

(** A single dict counts once per name. *)
Lemma c38_dict : sizes (fit0 (SDict spA) 5 2 []) = [2; 2; 1] /\ total_iterations (search0 (SDict spA) 5 2) = 10%Z.
Proof. split; vm_compute; reflexivity. Qed.
(** A space with no iterations. *)
Lemma c38_zero : failed UnboundLocalError (fit0 (SList [EPair spA 0; EDict spB]) 3 2 []) = true /\
  check_search_space (SList [EPair spA 0; EDict spB]) = Ok tt.
Proof. split; [vm_compute; reflexivity|reflexivity]. Qed.
Definition stale (r : res (list (opt float nat nat) * list (batch float) * list (result float nat nat))) : list (nat * nat) :=
  match r with
  | Ok (os, _, rs) => combine (map (fun o => length (o_Xi o)) os) (map (fun r => length (res_x_iters r)) rs)
  | Raise _ => []
  end.
Lemma c38_stale : stale (fit0 (SList [EDict spB; EPair spA 0]) 3 2 []) = [(3, 3); (0, 3)].
Proof. vm_compute. reflexivity. Qed.

Lemma fit_count (r : res (list (opt float nat nat) * list (batch float) * list (result float nat nat))) n :
  is_ok r = true -> list_sum (sizes r) = n -> exists os log rs, r = Ok (os, log, rs) /\ length (concat log) = n.
Proof.
  destruct r as [[[os log] rs]|]; [|discriminate]. intros _ H. exists os, log, rs. split; [reflexivity|]. rewrite <- H. clear H.
  unfold sizes. induction log as [|b log IH]; [easy|]. simpl. rewrite app_length. congruence.
Qed.
Lemma spA_arg : all_dicts (given_spaces (s_spaces (search0 (SDict spA) 5 2))).
Proof.
  intros e sp He Hs. destruct He as [<-|[]]; destruct Hs as [H|[n H]]; try discriminate; injection H as <-; apply spA_dict.
Qed.
Lemma spA_total : total_iterations (search0 (SDict spA) 5 2) = 10%Z.
Proof. vm_compute. reflexivity. Qed.
Lemma c38_dict_refuted : exists N RNG M (O : numops N) (G : rng_ops N RNG) (W : world N M) neg s scorer g os log rs,
  search_fit O G W neg s scorer [] g = Ok (os, log, rs) /\ all_dicts (given_spaces (s_spaces s)) /\
  Z.of_nat (length (concat log)) <> total_iterations s.
Proof.
  exists float, nat, nat, O0, G0, W0, (@Bopp 53 1024), (search0 (SDict spA) 5 2), scorer0, 7.
  destruct (@fit_count (search_fit O0 G0 W0 (@Bopp 53 1024) (search0 (SDict spA) 5 2) scorer0 [] 7) 5) as (os & log & rs & E & El);
    [vm_compute; reflexivity|vm_compute; reflexivity|].
  exists os, log, rs. split; [exact E|]. split; [exact spA_arg|]. rewrite El, spA_total. discriminate.
Qed.

(** C40, C41 *)
Definition spC : list (string * nat) := [("rate", 1); ("depth", 2); ("alpha", 3)]%string.
Lemma C40_sample : is_dict spC /\ point_asdict spC [10; 20; 30] = [("alpha", 10); ("depth", 20); ("rate", 30)]%string /\
  dimensions_aslist spC = Ok [3; 2; 1] /\ point_aslist spC [("depth", 5); ("rate", 6); ("alpha", 7)]%string = Ok [7; 5; 6].
Proof.
  split; [|repeat split; reflexivity]. unfold is_dict. simpl. repeat constructor; simpl; intuition discriminate.
Qed.
Definition echo (d : list (string * nat)) : res (list (string * nat)) := Ok d.
Definition apply_named (ds : list named_elem) (x : list nat) : res (list (string * nat)) :=
  w <- use_named_args ds echo ;; w x.
Lemma C41_sample : apply_named [NDim (Some "foo"); NDim (Some "bar")]%string [1; 2] = Ok [("foo", 1); ("bar", 2)]%string /\
  apply_named [NDim (Some "foo"); NDim (Some "bar")]%string [1] = Raise ValueError /\
  use_named_args [NDim (Some "foo"); NDim None]%string echo = Raise ValueError.
Proof. repeat split; reflexivity. Qed.
(** Two dimensions of one name: the function gets one argument, from the last. *)
Lemma c41_dup_refuted : exists (V Y : Type) (func : list (string * V) -> res Y) names x w,
  use_named_args (map (fun n => NDim (Some n)) names) func = Ok w /\ length x = length names /\
  w x <> func (combine names x).
Proof.
  exists nat, _, echo, ["foo"; "foo"]%string, [1; 2]. eexists. split; [reflexivity|]. split; [reflexivity|]. vm_compute. discriminate.
Qed.
