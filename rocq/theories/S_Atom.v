(** What the attributes of an Atom promise (C73), written from the
    documentation strings of atom_binding.cpp and independent of the model of
    the accessors. *)
From Coq Require Import String ZArith List.
From Verif Require Import Base Num Types M_Atom.
Import ListNotations.

(** A Python value of a documented type; C integers have 32 bits. *)
Fixpoint has_kind {N : num} (k : kind) (v : value N) : Prop :=
  match k, v with
  | KInt, VInt _ z => (- 2 ^ 31 <= z < 2 ^ 31)%Z
  | KBool, VBool _ _ => True
  | KFloat, VFloat _ => True
  | KDict, VDict _ _ => True
  | KList k, VList l => Forall (has_kind k) l
  | _, _ => False
  end.

(** The number of elements of a list value. *)
Definition len {N : num} (v : value N) : nat := match v with VList l => length l | _ => 0 end.

(** The attributes that can be assigned, with their type and the admissible
    lengths of a list. *)
Definition free : nat -> Prop := fun _ => True.
Definition upto300 : nat -> Prop := fun n => n <= 300.
Definition documented : list (string * (kind * (nat -> Prop))) := [
  ("pos", (KList KFloat, fun n => n = 3)); ("id", (KInt, free)); ("condition", (KInt, free)); ("mask", (KBool, free));
  ("loc", (KInt, free)); ("type", (KInt, free)); ("ghost", (KInt, free)); ("custom", (KDict, free));
  ("neighbors", (KList KInt, upto300)); ("neighbor_distance", (KList KFloat, free));
  ("neighbor_weights", (KList KFloat, upto300)); ("cutoff", (KFloat, free));
  ("next_neighbors", (KList (KList KInt), free)); ("next_neighbor_distances", (KList (KList KFloat), free));
  ("neighbor_vector", (KList (KList KFloat), free)); ("local_angles", (KList (KList KFloat), free));
  ("allq", (KList KFloat, fun n => n = 11)); ("allaq", (KList KFloat, fun n => n = 11));
  ("sij", (KList KFloat, free)); ("avg_sij", (KFloat, free)); ("disorder", (KFloat, free)); ("avg_disorder", (KFloat, free));
  ("cluster", (KInt, free)); ("solid", (KBool, free)); ("surface", (KBool, free)); ("largest_cluster", (KBool, free));
  ("structure", (KInt, free)); ("volume", (KFloat, free)); ("avg_volume", (KFloat, free));
  ("face_vertices", (KList KInt, upto300)); ("face_perimeters", (KList KFloat, upto300));
  ("vertex_numbers", (KList KInt, free)); ("vertex_vectors", (KList KFloat, free));
  ("vertex_positions", (KList (KList KFloat), free)); ("edge_lengths", (KList (KList KFloat), free));
  ("vorovector", (KList KInt, fun n => n = 4)); ("angular", (KFloat, free)); ("avg_angular", (KFloat, free));
  ("chiparams", (KList KInt, free)); ("cna", (KList (KList KInt), free)); ("common", (KList (KList KInt), free));
  ("bonds", (KList (KList KInt), free)); ("sro", (KList KFloat, free)); ("centrosymmetry", (KFloat, free));
  ("entropy", (KFloat, free)); ("avg_entropy", (KFloat, free)); ("energy", (KFloat, free)); ("avg_energy", (KFloat, free))]%string.
Definition admissible {N : num} (p : string * value N) : Prop :=
  exists k sz, In (fst p, (k, sz)) documented /\ has_kind k (snd p) /\ sz (len (snd p)).

(** Attributes with one element per neighbour. *)
Definition per_neighbor : list string :=
  ["neighbor_distance"; "neighbor_weights"; "neighbor_vector"; "local_angles"; "sij"; "face_vertices"; "face_perimeters"]%string.

(** The value last assigned to an attribute. *)
Fixpoint last_assigned {N : num} (h : list (string * value N)) (name : string) : option (value N) :=
  match h with
  | [] => None
  | (n, v) :: h => match last_assigned h name with
                   | Some w => Some w
                   | None => if String.eqb n name then Some v else None
                   end
  end.

(** The C++ arrays have their declared sizes, and the number of neighbours does
    not exceed the capacity. *)
Definition sized {N : num} (a : catom N) : Prop :=
  c_n a <= 300 /\ length (c_nbrs a) = 300 /\ length (c_dist a) = 300 /\ length (c_weight a) = 300 /\
  length (c_dx a) = 300 /\ length (c_dy a) = 300 /\ length (c_dz a) = 300 /\
  length (c_phi a) = 300 /\ length (c_theta a) = 300 /\ length (c_sij a) = 300 /\
  length (c_facev a) = 300 /\ length (c_facep a) = 300 /\ length (c_q a) = 11 /\ length (c_aq a) = 11.

(** The property: after any admissible assignments every attribute reads as
    the value last assigned to it, or as before if there was none. *)
Definition reads_back {N : num} (get : catom N -> string -> res (value N)) (a0 a : catom N)
  (h : list (string * value N)) (name : string) : Prop :=
  match last_assigned h name with
  | Some v => get a name = Ok v
  | None => get a name = get a0 name
  end.
