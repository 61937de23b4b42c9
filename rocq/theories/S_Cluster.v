(** Specification vocabulary for clusters and solid particles: the graph that
    cluster_atoms works on, in terms of the atoms before the call. *)
From Coq Require Import ZArith List.
From Verif Require Import Base Num Types M_Container.
Import ListNotations.
Set Implicit Arguments.
Unset Strict Implicit.

Section Graph.
Variable N : num.
Variable l : list (atom N).            (* the real atoms *)
Variable condition : atom N -> res Z.  (* the property given to cluster_atoms *)
Variable cutoff : N.                   (* 0: every atom's own cutoff *)

Definition selected (i : nat) : Prop :=
  exists a v, nth_error l i = Some a /\ condition a = Ok v /\ v <> 0%Z.
Definition range (a : atom N) : N := if neqb cutoff n0 then a_cutoff a else cutoff.
(** [j] is one of the neighbours of [i] and within the cutoff. *)
Definition near (i j : nat) : Prop :=
  exists a e, nth_error l i = Some a /\ In e (a_nbrs a) /\ nb_idx e = j /\
              nleb (nb_dist e) (range a) = true.
Definition joined (i j : nat) : Prop := selected i /\ selected j /\ near i j.
(** Chains of selected neighbouring atoms. *)
Inductive chain : nat -> nat -> Prop :=
| chain_end i : selected i -> chain i i
| chain_step i j k : joined i j -> chain j k -> chain i k.
(** The first atom from which [i] can be reached. *)
Definition source (u i : nat) : Prop := chain u i /\ forall u', chain u' i -> u <= u'.
End Graph.

Section Result.
Variable N : num.
(** Cluster id of atom [i]; -1: none. *)
Definition id_at (l : list (atom N)) (i : nat) : option Z :=
  option_map (@a_belongs N) (nth_error l i).
(** Number of atoms of a cluster. *)
Definition size (l : list (atom N)) (c : Z) : Z :=
  Z.of_nat (length (filter (fun a => Z.eqb (a_belongs a) c) l)).
Definition flagged (l : list (atom N)) (i : nat) : option bool :=
  option_map (@a_lcluster N) (nth_error l i).
(** What clustering does not change. *)
Definition but_cluster (a : atom N) : atom N :=
  a <| a_cond := 0%Z |> <| a_cutoff := n0 |> <| a_belongs := 0%Z |>
    <| a_lcluster := false |> <| a_surface := false |>.
End Result.

(** Number of atoms stored after assigning a list of [n] atoms (C10). *)
Definition padded (n : nat) : nat :=
  if Z.ltb (Z.of_nat n) 200 then
    let r := small_reps (Z.of_nat n) in n + length (shifts r r r) * n
  else n.
