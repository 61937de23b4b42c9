(** atom.cpp, atom.h and atom_binding.cpp: the attributes of an Atom as they
    are read and assigned from Python.  Model only.  The functions get_q,
    set_q and get_qlm are in M_Steinhardt, the entropy functions in M_Order. *)
From Coq Require Import String.
From Verif Require Import Base Num Types.
Set Implicit Arguments.
Unset Strict Implicit.
Local Open Scope num_scope.

(** The members behind the attributes made with def_readwrite, and the two
    vectors edgelengths and vertex_positions. *)
Inductive member :=
| M_id | M_condition | M_mask | M_loc | M_type | M_ghost | M_custom | M_cutoff
| M_next_neighbors | M_next_neighbor_distances | M_avq6q6 | M_disorder | M_avgdisorder
| M_belongsto | M_frenkelnumber | M_issolid | M_issurface | M_lcluster | M_structure
| M_volume | M_avgvolume | M_vertex_numbers | M_vertex_vectors | M_vertex_positions
| M_edgelengths | M_angular | M_avg_angular | M_chiparams | M_cna | M_common | M_bonds
| M_sro | M_centrosymmetry | M_entropy | M_avg_entropy | M_energy | M_avg_energy.
Definition member_dec (m m' : member) : {m = m'} + {m <> m'}.
Proof. decide equality. Defined.

(** The C++ types of the members (atom.h:75-244). *)
Inductive kind := KInt | KBool | KFloat | KDict | KList (k : kind).
Definition member_kind (m : member) : kind :=
  match m with
  | M_id | M_condition | M_loc | M_type | M_ghost | M_belongsto | M_frenkelnumber | M_structure => KInt
  | M_mask | M_issolid | M_issurface | M_lcluster => KBool
  | M_custom => KDict
  | M_cutoff | M_avq6q6 | M_disorder | M_avgdisorder | M_volume | M_avgvolume | M_angular | M_avg_angular
  | M_centrosymmetry | M_entropy | M_avg_entropy | M_energy | M_avg_energy => KFloat
  | M_vertex_vectors | M_sro => KList KFloat
  | M_vertex_numbers | M_chiparams => KList KInt
  | M_next_neighbors | M_cna | M_common | M_bonds => KList (KList KInt)
  | M_next_neighbor_distances | M_edgelengths | M_vertex_positions => KList (KList KFloat)
  end.

(** The accessors of atom_binding.cpp. *)
Inductive accessor :=
| Rw (m : member)           (* def_readwrite *)
| Ro_coordination           (* def_readonly n_neighbors *)
| P_pos | P_neighbors | P_neighdist | P_weights | P_vectors | P_angles
| P_allq | P_allaq | P_sij | P_facevertices | P_faceperimeters | P_vorovector.

(** atom_binding.cpp:81-451, in the order of the file.  The properties
    edge_lengths and vertex_positions copy a vector in both directions
    (atom.cpp:356-372), as def_readwrite does. *)
Definition bindings : list (string * accessor) := [
  ("pos", P_pos); ("id", Rw M_id); ("condition", Rw M_condition); ("mask", Rw M_mask); ("loc", Rw M_loc);
  ("type", Rw M_type); ("ghost", Rw M_ghost); ("custom", Rw M_custom);
  ("neighbors", P_neighbors); ("neighbor_distance", P_neighdist); ("coordination", Ro_coordination);
  ("neighbor_weights", P_weights); ("cutoff", Rw M_cutoff); ("next_neighbors", Rw M_next_neighbors);
  ("next_neighbor_distances", Rw M_next_neighbor_distances); ("neighbor_vector", P_vectors);
  ("local_angles", P_angles); ("allq", P_allq); ("allaq", P_allaq); ("sij", P_sij); ("avg_sij", Rw M_avq6q6);
  ("disorder", Rw M_disorder); ("avg_disorder", Rw M_avgdisorder);
  ("cluster", Rw M_belongsto); ("bonds", Rw M_frenkelnumber); ("solid", Rw M_issolid); ("surface", Rw M_issurface);
  ("largest_cluster", Rw M_lcluster); ("structure", Rw M_structure);
  ("volume", Rw M_volume); ("avg_volume", Rw M_avgvolume); ("face_vertices", P_facevertices);
  ("face_perimeters", P_faceperimeters); ("vertex_numbers", Rw M_vertex_numbers); ("vertex_vectors", Rw M_vertex_vectors);
  ("vertex_positions", Rw M_vertex_positions); ("edge_lengths", Rw M_edgelengths); ("vorovector", P_vorovector);
  ("angular", Rw M_angular); ("avg_angular", Rw M_avg_angular); ("chiparams", Rw M_chiparams);
  ("cna", Rw M_cna); ("common", Rw M_common); ("bonds", Rw M_bonds);
  ("sro", Rw M_sro); ("centrosymmetry", Rw M_centrosymmetry); ("entropy", Rw M_entropy);
  ("avg_entropy", Rw M_avg_entropy); ("energy", Rw M_energy); ("avg_energy", Rw M_avg_energy)]%string.

(** pybind11 stores each property as an attribute of the class, so the last
    definition of a name is the one that counts. *)
Definition lookup_attr (name : string) : option accessor :=
  option_map snd (find (fun p => String.eqb (fst p) name) (rev bindings)).

Section Atom.
Variable N : num.

(** Python values; a dictionary is a reference to an object. *)
Inductive value := VInt (z : Z) | VBool (b : bool) | VFloat (x : N) | VDict (ref : Z) | VList (l : list value).

(** The conversions of pybind11: int does not take floats or numbers beyond 32
    bits, double takes int and bool (rounded; an int too large for a double is
    not modelled), bool takes any number. *)
Definition int_fits (z : Z) : bool := Z.leb (- 2147483648) z && Z.ltb z 2147483648.
Definition bool_int (b : bool) : Z := if b then 1%Z else 0%Z.
Fixpoint cast (k : kind) (v : value) : res value :=
  match k, v with
  | KInt, VInt z => if int_fits z then Ok (VInt z) else Err TypeError
  | KInt, VBool b => Ok (VInt (bool_int b))
  | KBool, VBool b => Ok (VBool b)
  | KBool, VInt z => Ok (VBool (negb (Z.eqb z 0)))
  | KBool, VFloat x => Ok (VBool (negb (x =? n0)))
  | KFloat, VFloat x => Ok (VFloat x)
  | KFloat, VInt z => Ok (VFloat (nofZ z))
  | KFloat, VBool b => Ok (VFloat (nofZ (bool_int b)))
  | KDict, VDict r => Ok (VDict r)
  | KList k, VList l => l <- mapM (cast k) l ;; Ok (VList l)
  | _, _ => Err TypeError
  end.
(** The same to a std::vector<int> and a std::vector<double>. *)
Definition to_ints (v : value) : res (list Z) :=
  v <- cast (KList KInt) v ;;
  match v with VList l => mapM (fun v => match v with VInt z => Ok z | _ => Err TypeError end) l | _ => Err TypeError end.
Definition to_floats (v : value) : res (list N) :=
  v <- cast (KList KFloat) v ;;
  match v with VList l => mapM (fun v => match v with VFloat x => Ok x | _ => Err TypeError end) l | _ => Err TypeError end.

(** The members of the class that the attributes use; the arrays have
    MAXNUMBEROFNEIGHBORS = 300 or 11 elements. *)
Record catom := mkC {
  c_x : N; c_y : N; c_z : N;
  c_mem : member -> value;
  c_n : nat;                                   (* n_neighbors *)
  c_nbrs : list Z; c_dist : list N; c_weight : list N;
  c_dx : list N; c_dy : list N; c_dz : list N; c_phi : list N; c_theta : list N;
  c_sij : list N; c_facev : list Z; c_facep : list N;
  c_q : list N; c_aq : list N;
  c_n3 : Z; c_n4 : Z; c_n5 : Z; c_n6 : Z
}.
#[global] Instance eta_catom : Settable _ := settable! mkC
  <c_x; c_y; c_z; c_mem; c_n; c_nbrs; c_dist; c_weight; c_dx; c_dy; c_dz; c_phi; c_theta;
   c_sij; c_facev; c_facep; c_q; c_aq; c_n3; c_n4; c_n5; c_n6>.

Definition ints (l : list Z) : value := VList (map VInt l).
Definition floats (l : list N) : value := VList (map VFloat l).
Definition put_mem (a : catom) (m : member) (v : value) : catom :=
  a <| c_mem := fun m' => if member_dec m m' then v else c_mem a m' |>.

(** atom.cpp:14-62: the members not mentioned keep what is in memory ([raw]);
    the vectors and the dictionary are made by their own constructors. *)
Definition vector0 (m : member) : bool := match member_kind m with KList _ => true | _ => false end.
Definition ctor (raw : catom) (dict : Z) (x y z : N) (id typ : Z) : catom :=
  let mem := fun m =>
    match m with
    | M_id => VInt id | M_type => VInt typ | M_ghost => VInt 0 | M_belongsto => VInt (-1)
    | M_issolid => VBool false | M_issurface => VBool false | M_lcluster => VBool false | M_loc => VInt 0
    | M_entropy => VFloat n0 | M_avg_entropy => VFloat n0 | M_energy => VFloat n0 | M_avg_energy => VFloat n0
    | M_custom => VDict dict
    | _ => if vector0 m then VList [] else c_mem raw m
    end in
  let neg := nofZ (-1) in
  raw <| c_x := x |> <| c_y := y |> <| c_z := z |> <| c_mem := mem |> <| c_n := 0 |>
    <| c_nbrs := repeat (-1)%Z 300 |> <| c_dist := repeat neg 300 |> <| c_weight := repeat neg 300 |>
    <| c_facev := repeat (-1)%Z 300 |> <| c_facep := repeat neg 300 |> <| c_sij := repeat neg 300 |>
    <| c_q := repeat neg 11 |> <| c_aq := repeat neg 11 |>.
(** catom.Atom(pos, id, type), atom_binding.cpp:76: pos[0..2] of a shorter list
    is outside the vector. *)
Definition new_atom (raw : catom) (dict : Z) (pos : value) (id typ : Z) : res catom :=
  l <- to_floats pos ;;
  match l with x :: y :: z :: _ => Ok (ctor raw dict x y z id typ) | _ => Err UB end.

(** Reading an attribute; atom.cpp:73-211 and 334-381. *)
Definition read (a : catom) (p : accessor) : value :=
  let n := c_n a in
  match p with
  | Rw m => c_mem a m
  | Ro_coordination => VInt (Z.of_nat n)
  | P_pos => floats [c_x a; c_y a; c_z a]
  | P_neighbors => ints (firstn n (c_nbrs a))
  | P_neighdist => floats (firstn n (c_dist a))
  | P_weights => floats (firstn n (c_weight a))
  | P_vectors => VList (firstn n (map (fun p => floats [fst (fst p); snd (fst p); snd p])
                                      (combine (combine (c_dx a) (c_dy a)) (c_dz a))))
  | P_angles => VList (firstn n (map (fun p => floats [fst p; snd p]) (combine (c_phi a) (c_theta a))))
  | P_allq => floats (firstn 11 (c_q a))
  | P_allaq => floats (firstn 11 (c_aq a))
  | P_sij => floats (firstn n (c_sij a))
  | P_facevertices => ints (firstn n (c_facev a))
  | P_faceperimeters => floats (firstn n (c_facep a))
  | P_vorovector => ints [c_n3 a; c_n4 a; c_n5 a; c_n6 a]
  end.
Definition getattr (a : catom) (name : string) : res value :=
  match lookup_attr name with Some p => Ok (read a p) | None => Err AttributeError end.

(** The loops that copy a vector into an array; beyond its end they write
    outside the array. *)
Definition blit {A} (arr new : list A) : res (list A) :=
  if Nat.leb (length new) (length arr) then Ok (new ++ skipn (length new) arr) else Err UB.
(** [arr[i] = v[i]] for all elements of the array. *)
Definition fill {A} (n : nat) (new : list A) : res (list A) :=
  if Nat.leb n (length new) then Ok (firstn n new) else Err UB.

Definition nilvalue : Z := 333333.
(** Assigning an attribute: the argument is converted, then the member or the
    setter is called. *)
Definition write (a : catom) (p : accessor) (v : value) : res catom :=
  match p with
  | Rw m => v <- cast (member_kind m) v ;; Ok (put_mem a m v)
  | Ro_coordination => Err AttributeError
  | P_pos =>
      (* atom.cpp:81-85 *)
      l <- to_floats v ;;
      match l with x :: y :: z :: _ => Ok (a <| c_x := x |> <| c_y := y |> <| c_z := z |>) | _ => Err UB end
  | P_neighbors =>
      (* atom.cpp:112-130 *)
      l <- to_ints v ;;
      nb <- blit (repeat nilvalue (length (c_nbrs a))) l ;;
      w <- blit (c_weight a) (repeat n1 (length l)) ;;
      Ok (a <| c_nbrs := nb |> <| c_dist := repeat (nofZ (-1)) (length (c_dist a)) |> <| c_weight := w |> <| c_n := length l |>)
  | P_weights => (* atom.cpp:132-136 *) l <- to_floats v ;; w <- blit (c_weight a) l ;; Ok (a <| c_weight := w |>)
  | P_neighdist => (* atom.cpp:101-102, empty *) _ <- to_floats v ;; Ok a
  | P_sij => (* atom.cpp:186-187, empty *) _ <- to_floats v ;; Ok a
  | P_vectors | P_angles => (* atom.cpp:146-148 and 165-167, empty *) _ <- cast (KList (KList KFloat)) v ;; Ok a
  | P_allq => (* atom.cpp:213-217 *) l <- to_floats v ;; q <- fill 11 l ;; Ok (a <| c_q := q |>)
  | P_allaq => (* atom.cpp:219-223 *) l <- to_floats v ;; q <- fill 11 l ;; Ok (a <| c_aq := q |>)
  | P_facevertices => (* atom.cpp:328-332 *) l <- to_ints v ;; w <- blit (c_facev a) l ;; Ok (a <| c_facev := w |>)
  | P_faceperimeters => (* atom.cpp:342-346 *) l <- to_floats v ;; w <- blit (c_facep a) l ;; Ok (a <| c_facep := w |>)
  | P_vorovector =>
      (* atom.cpp:383-389 *)
      l <- to_ints v ;;
      match l with
      | n3 :: n4 :: n5 :: n6 :: _ => Ok (a <| c_n3 := n3 |> <| c_n4 := n4 |> <| c_n5 := n5 |> <| c_n6 := n6 |>)
      | _ => Err UB
      end
  end.
Definition setattr (a : catom) (name : string) (v : value) : res catom :=
  match lookup_attr name with Some p => write a p v | None => Err AttributeError end.

(** A sequence of assignments. *)
Definition assign (h : list (string * value)) (a : catom) : res catom :=
  foldM (fun a p => setattr a (fst p) (snd p)) h a.
End Atom.
