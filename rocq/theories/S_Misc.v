(** Specification vocabulary for the functions of misc.py (C70, C71). *)
From Coq Require Import Reals ZArith List Sorted.
From Verif Require Import Base Num NumR Types M_Text S_Voro S_Formats.
Import ListNotations.

(** [l'] is the part of [l] that has the property. *)
Inductive kept {A} (P : A -> Prop) : list A -> list A -> Prop :=
| kept_nil : kept P [] []
| kept_yes x l l' : P x -> kept P l l' -> kept P (x :: l) (x :: l')
| kept_no x l l' : ~ P x -> kept P l l' -> kept P (x :: l) l'.

(** Four of the atoms in [near], repetitions not counted, are as near as the
    nearest, up to the given relative precision. *)
Definition four_nearest (D : nat -> R) (near : list nat) (precision : R) : Prop :=
  exists m ns, (exists x, In x near /\ D x = m) /\ (forall x, In x near -> m <= D x)%R /\
    NoDup ns /\ length ns = 4%nat /\
    forall x, In x ns <-> In x near /\ (m * (1 - precision) <= D x <= m * (1 + precision))%R.

(** The different values in a list, increasing, with their numbers. *)
Definition tally (l : list R) (u : list (R * Z)) : Prop :=
  StronglySorted Rlt (map fst u) /\ (forall x, In x (map fst u) <-> In x l) /\
  forall x c, In (x, c) u -> exists n, c = Z.of_nat n /\ such (fun y => y = x) l n.
(** The text shows the numbers. *)
Definition shows (v : list Z) (t : text) : Prop := mapM parse_int (words t) = Ok v.
(** Larger values go with alphabetically later texts. *)
Definition ordered_alike (l : list (R * text)) : Prop :=
  forall q q', In q l -> In q' l -> (fst q < fst q')%R <-> alphabetical (snd q) (snd q').
