(** Specifications for POSCAR files and ASE objects. *)
From Coq Require Import Reals ZArith List Ascii String Sorted Permutation.
From Coq.Floats Require Import SpecFloat.
From Flocq Require Import Core BinarySingleNaN.
From Verif Require Import Base Num NumR Types M_Text.
Import ListNotations.

(** [y] is [x] rounded to [k] decimals. *)
Definition decimals (k : nat) (x y : R) : Prop :=
  (Rabs (y - x) * IZR (10 ^ Z.of_nat k) <= 1 / 2)%R /\ exists z : Z, y = (IZR z / IZR (10 ^ Z.of_nat k))%R.
(** The same for doubles: [y] is the double nearest to the number of [k]
    decimals nearest to [x]. *)
Definition decimals_F (k : nat) (x y : spec_float) : Prop :=
  match x with
  | S754_finite _ _ _ =>
      (Rabs (SF2R radix2 x) <= bpow radix2 1000)%R ->
      is_finite_SF y = true /\
      SF2R radix2 y = round radix2 (FLT_exp (-1074) 53) ZnearestE
                        (IZR (ZnearestE (SF2R radix2 x * IZR (10 ^ Z.of_nat k))) / IZR (10 ^ Z.of_nat k))
  | _ => y = x
  end.

(** A line of three numbers that are the components of [v], up to [near]. *)
Definition reads_vector {N : num} (T : textnum N) (near : N -> N -> Prop) (v : v3 N) (line : text) : Prop :=
  exists x y z, mapM (parse_float T) (words line) = Ok [x; y; z] /\ near (vx v) x /\ near (vy v) y /\ near (vz v) z.

(** The atoms sorted by type, each type in the given order. *)
Definition has_type {N : num} (t : Z) (a : atom N) : bool := Z.eqb (a_type a) t.
Definition by_type {N : num} (atoms out : list (atom N)) : Prop :=
  Permutation out atoms /\ StronglySorted (fun a b => (a_type a <= a_type b)%Z) out /\
  forall t, filter (has_type t) out = filter (has_type t) atoms.
(** The numbers of atoms of the types that occur, by increasing type. *)
Definition type_counts {N : num} (atoms : list (atom N)) (cs : list Z) : Prop :=
  exists ts, StronglySorted Z.lt ts /\ (forall t, In t ts <-> exists a, In a atoms /\ a_type a = t) /\
    cs = map (fun t => Z.of_nat (List.length (filter (has_type t) atoms))) ts.

(** Alphabetical order: a prefix first, or a smaller character code after a
    common part. *)
Definition alphabetical (a b : text) : Prop :=
  exists p, (exists c r, a = p /\ b = p ++ c :: r) \/
            (exists c d x y, a = p ++ c :: x /\ b = p ++ d :: y /\ (N_of_ascii c < N_of_ascii d)%N).
(** The different symbols, sorted. *)
Definition sorted_symbols (symbols u : list text) : Prop :=
  StronglySorted alphabetical u /\ forall x, In x u <-> In x symbols.
(** [t] is the position of [c] in the list, from 1. *)
Definition numbered (u : list text) (t : Z) (c : text) : Prop :=
  (1 <= t)%Z /\ nth_error u (Z.to_nat (t - 1)) = Some c.
(** What the atom at place [i] of a list of symbols and positions looks like:
    id from 1, stored index from 0, the symbol in the dictionary, and the type
    numbering the symbols. *)
Definition from_symbols {N : num} (symbols : list text) (positions : list (v3 N)) (i : nat)
    (a : atom N) (custom : list (text * text)) : Prop :=
  exists p c, nth_error positions i = Some p /\ nth_error symbols i = Some c /\
    custom = [(list_ascii_of_string "species", c)] /\ a_pos a = p /\ a_id a = (Z.of_nat i + 1)%Z /\
    a_loc a = Z.of_nat i /\ a_ghost a = 0%Z /\
    forall u, sorted_symbols symbols u -> numbered u (a_type a) c.
