(** Property C73: the attributes of an Atom (atom.cpp, atom_binding.cpp). *)
From Coq Require Import String ZArith List Lia.
From Verif Require Import Base Num NumR NumF Types M_Atom S_Atom P_Atom.
Import ListNotations.
#[local] Open Scope nat_scope.

(** After any admissible assignments, every attribute that is not stored per
    neighbour reads as the value last assigned to it, or as before. *)
Theorem C73_reads_back :
  forall (N : num) (a : catom N) (h : list (string * value N)),
  sized a -> Forall admissible h ->
  exists a', assign h a = Ok a' /\ sized a' /\
    forall name, name <> "coordination"%string -> ~ In name per_neighbor -> reads_back (@getattr N) a a' h name.
Proof. intros N a h S A. destruct (assign_spec S A) as (a' & E & S' & R & _). eauto. Qed.
Print Assumptions C73_reads_back.

(** The attributes with one value per neighbour and the coordination keep
    their values as long as the neighbours and they themselves are not
    assigned; the coordination is the number of neighbours assigned. *)
Theorem C73_kept :
  forall (N : num) (a : catom N) (h : list (string * value N)) a',
  sized a -> Forall admissible h -> assign h a = Ok a' ->
  (last_assigned h "neighbors" = None -> forall name, last_assigned h name = None -> getattr a' name = getattr a name) /\
  (forall v, last_assigned h "neighbors" = Some v -> getattr a' "coordination" = Ok (VInt N (Z.of_nat (len v)))).
Proof.
  intros N a h a' S A E. destruct (assign_spec S A) as (a1 & E1 & S' & _ & K & C). rewrite E in E1. injection E1 as <-. split.
  - intros L. apply (K L).
  - intros v L. specialize (C v L). unfold getattr. cbn -[Z.of_nat]. now rewrite C.
Qed.
Print Assumptions C73_kept.

(** The neighbours assigned come with distances -1 and weights 1. *)
Theorem C73_neighbors :
  forall (N : num) (a : catom N) v,
  sized a -> admissible ("neighbors"%string, v) ->
  exists a', setattr a "neighbors" v = Ok a' /\
    getattr a' "neighbors" = Ok v /\
    getattr a' "neighbor_distance" = Ok (VList (repeat (VFloat (nofZ (-1))) (len v))) /\
    getattr a' "neighbor_weights" = Ok (VList (repeat (VFloat n1) (len v))).
Proof.
  intros N a v S A. destruct (admissible_takes A) as (p & L & T). rewrite lookup_neighbors in L. injection L as <-.
  destruct (set_spec S A) as (a' & E & _ & R & _). exists a'. split; [exact E|]. split; [apply R; cbn; intuition discriminate|].
  destruct T as (K & L). destruct (to_ints_kind K) as (l & -> & EI & EL). rewrite EL in *.
  destruct S as (_ & S2 & S3 & S4 & _).
  unfold setattr in E. rewrite lookup_neighbors in E. cbn [write] in E. rewrite EI in E. cbn [bind] in E.
  destruct (@blit_ok Z (repeat nilvalue (length (c_nbrs a))) l) as (nb & B1 & _); [rewrite repeat_length; lia|]. rewrite B1 in E. cbn [bind] in E.
  destruct (@blit_ok N (c_weight a) (repeat n1 (length l))) as (w & W1 & W2 & W3 & _); [rewrite repeat_length; lia|]. rewrite W1 in E. cbn [bind] in E.
  injection E as <-. rewrite repeat_length in W3. unfold getattr. cbn -[firstn repeat]. unfold floats. rewrite W3, S3. split.
  - f_equal. f_equal. clear -L. revert L. generalize 300. generalize (length l). intros n m L. revert m L.
    induction n as [|n IH]; intros [|m] L; simpl; try easy; try lia. f_equal. apply IH. lia.
  - f_equal. f_equal. clear. induction (length l); simpl; congruence.
Qed.
Print Assumptions C73_neighbors.

(** Weights and face data of all neighbours read back until they or the
    neighbours are assigned again. *)
Theorem C73_per_neighbor :
  forall (N : num) (a : catom N) name v (h1 h2 : list (string * value N)) a1,
  sized a -> In name ["neighbor_weights"; "face_vertices"; "face_perimeters"]%string ->
  Forall admissible (h1 ++ (name, v) :: h2) ->
  assign h1 a = Ok a1 -> getattr a1 "coordination" = Ok (VInt N (Z.of_nat (len v))) ->
  last_assigned h2 "neighbors" = None -> last_assigned h2 name = None ->
  exists a', assign (h1 ++ (name, v) :: h2) a = Ok a' /\ getattr a' name = Ok v.
Proof.
  intros N a name v h1 h2 a1 S HI A E1 HC L1 L2.
  apply Forall_app in A as (A1 & A2). inversion A2 as [|? ? AV AH]; subst.
  destruct (assign_spec S A1) as (a1' & E1' & S1 & _). rewrite E1 in E1'. injection E1' as <-.
  destruct (set_spec S1 AV) as (a2 & E2 & S2 & _ & _ & _).
  destruct (assign_spec S2 AH) as (a' & E' & S' & _ & K & _).
  exists a'. split.
  { rewrite assign_app, E1. cbn [bind]. unfold assign in *. cbn [foldM fst snd]. rewrite E2. exact E'. }
  destruct (K L1) as (_ & K2). rewrite (K2 name L2).
  assert (HN : c_n a1 = len v). { unfold getattr in HC. cbn -[Z.of_nat] in HC. injection HC as HC. lia. }
  destruct (admissible_takes AV) as (p & L & T). unfold setattr in E2. rewrite L in E2. unfold getattr. rewrite L.
  cbn [In] in HI. destruct HI as [<-|[<-|[<-|[]]]]; vm_compute in L; injection L as <-; cbn [write takes] in *; destruct T as (KT & LT).
  - destruct (to_floats_kind KT) as (l & -> & EF & EL). rewrite EF in E2. rewrite EL in *. cbn [bind] in E2.
    destruct S1 as (_ & _ & _ & S4 & _). destruct (@blit_ok N (c_weight a1) l) as (w & W1 & _ & W3 & _); [lia|]. rewrite W1 in E2. injection E2 as <-.
    cbn -[firstn]. now rewrite HN, W3.
  - destruct (to_ints_kind KT) as (l & -> & EF & EL). rewrite EF in E2. rewrite EL in *. cbn [bind] in E2.
    destruct S1 as (_ & _ & _ & _ & _ & _ & _ & _ & _ & _ & S11 & _). destruct (@blit_ok Z (c_facev a1) l) as (w & W1 & _ & W3 & _); [lia|]. rewrite W1 in E2. injection E2 as <-.
    cbn -[firstn]. now rewrite HN, W3.
  - destruct (to_floats_kind KT) as (l & -> & EF & EL). rewrite EF in E2. rewrite EL in *. cbn [bind] in E2.
    destruct S1 as (_ & _ & _ & _ & _ & _ & _ & _ & _ & _ & _ & S12 & _). destruct (@blit_ok N (c_facep a1) l) as (w & W1 & _ & W3 & _); [lia|]. rewrite W1 in E2. injection E2 as <-.
    cbn -[firstn]. now rewrite HN, W3.
Qed.
Print Assumptions C73_per_neighbor.

(** A new atom: the arguments of the constructor and the documented defaults,
    whatever was in memory before; the attributes not listed here have no
    default. *)
Definition initialised : list string :=
  ["pos"; "id"; "loc"; "type"; "ghost"; "custom"; "neighbors"; "neighbor_distance"; "coordination"; "neighbor_weights"; "next_neighbors";
   "next_neighbor_distances"; "neighbor_vector"; "local_angles"; "allq"; "allaq"; "sij"; "cluster"; "solid"; "surface"; "largest_cluster";
   "face_vertices"; "face_perimeters"; "vertex_numbers"; "vertex_vectors"; "vertex_positions"; "edge_lengths"; "chiparams"; "cna"; "common"; "bonds";
   "sro"; "entropy"; "avg_entropy"; "energy"; "avg_energy"]%string.
Definition uninitialised : list string :=
  ["condition"; "mask"; "cutoff"; "avg_sij"; "disorder"; "avg_disorder"; "structure"; "volume"; "avg_volume"; "vorovector"; "angular"; "avg_angular"; "centrosymmetry"]%string.
Theorem C73_new :
  forall (N : num) (raw : catom N) dict pos id typ,
  sized raw -> admissible ("pos"%string, pos) ->
  exists a, new_atom raw dict pos id typ = Ok a /\ sized a /\
    getattr a "pos" = Ok pos /\ getattr a "id" = Ok (VInt N id) /\ getattr a "type" = Ok (VInt N typ) /\
    getattr a "cluster" = Ok (VInt N (-1)) /\ getattr a "solid" = Ok (VBool N false) /\ getattr a "surface" = Ok (VBool N false) /\
    getattr a "largest_cluster" = Ok (VBool N false) /\ getattr a "ghost" = Ok (VInt N 0) /\ getattr a "custom" = Ok (VDict N dict) /\
    getattr a "neighbors" = Ok (VList []) /\ getattr a "coordination" = Ok (VInt N 0) /\
    getattr a "entropy" = Ok (VFloat n0) /\ getattr a "energy" = Ok (VFloat n0) /\
    getattr a "allq" = Ok (VList (repeat (VFloat (nofZ (-1))) 11)) /\
    forall raw' a', new_atom raw' dict pos id typ = Ok a' -> forall name, In name initialised -> getattr a' name = getattr a name.
Proof.
  intros N raw dict pos id typ S A. destruct (admissible_takes A) as (p & L & T). vm_compute in L. injection L as <-. destruct T as (K & L).
  destruct (to_floats_kind K) as (l & -> & E & EL). rewrite EL in L. unfold new_atom. rewrite E.
  destruct l as [|x [|y [|z [|? ?]]]]; try discriminate L. cbn [bind].
  eexists. split; [reflexivity|]. split; [now apply ctor_sized|].
  repeat (split; [reflexivity|]). intros raw' a' [= <-] name HI. unfold initialised in HI. cbn [In] in HI.
  repeat (destruct HI as [<-|HI]; [reflexivity|]). destruct HI.
Qed.
Print Assumptions C73_new.

(** Neighbour distances, vectors, angles and sij cannot be assigned: the
    setters accept the value and do nothing. *)
Theorem C73_ignored :
  forall (N : num) (a : catom N) name v,
  sized a -> In name ["neighbor_distance"; "neighbor_vector"; "local_angles"; "sij"]%string -> admissible (name, v) ->
  setattr a name v = Ok a.
Proof.
  intros N a name v S HI A. destruct (admissible_takes A) as (p & L & T). unfold setattr. rewrite L.
  cbn [In] in HI. destruct HI as [<-|[<-|[<-|[<-|[]]]]]; vm_compute in L; injection L as <-; cbn [write takes] in *.
  - destruct (to_floats_kind T) as (l & _ & -> & _). reflexivity.
  - now rewrite (cast_kind T).
  - now rewrite (cast_kind T).
  - destruct (to_floats_kind T) as (l & _ & -> & _). reflexivity.
Qed.
Print Assumptions C73_ignored.

(** Memory with a given number in all floating point members. *)
Definition memory {N : num} (x : N) (c : bool) : catom N :=
  let r := repeat x 300 in
  {| c_x := x; c_y := x; c_z := x;
     c_mem := fun m => match member_kind m with KInt => VInt N (if c then 1 else 0) | KBool => VBool N c | KFloat => VFloat x | KDict => VDict N 0 | KList _ => VList [] end;
     c_n := 0; c_nbrs := repeat 0%Z 300; c_dist := r; c_weight := r; c_dx := r; c_dy := r; c_dz := r; c_phi := r; c_theta := r; c_sij := r;
     c_facev := repeat 0%Z 300; c_facep := r; c_q := repeat x 11; c_aq := repeat x 11;
     c_n3 := if c then 1 else 0; c_n4 := 0; c_n5 := 0; c_n6 := 0 |}.
Lemma memory_sized {N : num} (x : N) c : sized (memory x c).
Proof. unfold sized, memory; cbn -[repeat]; rewrite !repeat_length; lia. Qed.

(** Two neighbours, then distances. *)
Definition e_hist (N : num) : list (string * value N) :=
  [("neighbors"%string, ints N [4; 9]%Z); ("neighbor_distance"%string, floats [nofZ 2; nofZ 3 : N])].
Lemma in_doc (name : string) (k : kind) (sz : nat -> Prop) (l : list (string * (kind * (nat -> Prop)))) i :
  nth_error l i = Some (name, (k, sz)) -> In (name, (k, sz)) l.
Proof. apply nth_error_In. Qed.
Lemma e_hist_ok (N : num) : Forall admissible (e_hist N).
Proof.
  constructor; [|constructor; [|constructor]].
  - exists (KList KInt), upto300. split; [apply (in_doc _ _ _ documented 8); reflexivity|]. split; [cbn; repeat constructor; lia|cbn; unfold upto300; lia].
  - exists (KList KFloat), free. split; [apply (in_doc _ _ _ documented 9); reflexivity|]. split; [cbn; repeat constructor|exact I].
Qed.
Lemma fl_neq (x y : F64) : nltb (n := F64) x y = true -> nltb (n := F64) x x = false -> x <> y.
Proof. intros H1 H2 <-. congruence. Qed.
Definition e_pos (N : num) : value N := floats [nofZ 1; nofZ 2; nofZ 3 : N].
Lemma e_pos_ok (N : num) : admissible ("pos"%string, e_pos N).
Proof. exists (KList KFloat), (fun n => n = 3). split; [apply (in_doc _ _ _ documented 0); reflexivity|]. split; [cbn; repeat constructor|reflexivity]. Qed.

Lemma refuted_gen (N : num) : nofZ (-1) <> (nofZ 2 : N) ->
  exists (raw : catom N) (h : list (string * value N)) a0 a v,
    sized raw /\ Forall admissible h /\
    new_atom raw 7 (e_pos N) 23 1 = Ok a0 /\ assign h a0 = Ok a /\
    last_assigned h "neighbor_distance" = Some v /\ getattr a "coordination" = Ok (VInt N (Z.of_nat (len v))) /\
    getattr a "neighbor_distance" <> Ok v.
Proof.
  intros D. pose proof (memory_sized (n0 : N) false) as SM.
  destruct (C73_new N (memory n0 false) 7 (e_pos N) 23 1 SM (e_pos_ok N)) as (a0 & E0 & S0 & _).
  pose proof (e_hist_ok N) as HH. inversion HH as [|? ? H1 H2]; subst. inversion H2 as [|? ? H3 _]; subst.
  destruct (C73_neighbors N a0 _ S0 H1) as (a & E1 & _ & ED & _).
  destruct (set_spec S0 H1) as (a1 & E1' & S1 & _ & _ & _ & C1). rewrite E1 in E1'. injection E1' as <-.
  exists (memory n0 false), (e_hist N), a0, a, (floats [nofZ 2; nofZ 3 : N]).
  split; [exact SM|]. split; [exact HH|]. split; [exact E0|]. split.
  - unfold assign, e_hist. cbn [foldM fst snd]. rewrite E1. cbn [bind]. rewrite (C73_ignored N a _ _ S1 ltac:(cbn; tauto) H3). reflexivity.
  - split; [reflexivity|]. split; [|rewrite ED; intros [= H _]; exact (D H)].
    specialize (C1 eq_refl). change (Ok (VInt N (Z.of_nat (c_n a))) = Ok (VInt N 2)). rewrite C1. reflexivity.
Qed.

Lemma nb_set (N : num) (a : catom N) : sized a ->
  exists a', setattr a "neighbors" (ints N [4; 9]%Z) = Ok a' /\ c_n a' = 2 /\ c_dx a' = c_dx a /\ c_dy a' = c_dy a /\ c_dz a' = c_dz a /\
    c_phi a' = c_phi a /\ c_theta a' = c_theta a.
Proof.
  intros (_ & S2 & _ & S4 & _). unfold setattr. rewrite lookup_neighbors. cbn [write].
  change (to_ints (ints N [4; 9]%Z)) with (Ok [4; 9]%Z). cbn [bind].
  destruct (@blit_ok Z (repeat nilvalue (length (c_nbrs a))) [4; 9]%Z) as (nb & B1 & _); [rewrite repeat_length, S2; cbn; lia|]. rewrite B1. cbn [bind].
  destruct (@blit_ok N (c_weight a) (repeat n1 (length [4; 9]%Z))) as (w & W1 & _); [rewrite S4; cbn; lia|]. rewrite W1. cbn [bind].
  eexists. split; [reflexivity|]. repeat split.
Qed.
Lemma vec_hd (N : num) (a : catom N) n x dx y dy z dz : c_n a = S n -> c_dx a = x :: dx -> c_dy a = y :: dy -> c_dz a = z :: dz ->
  exists l, getattr a "neighbor_vector" = Ok (VList (floats [x; y; z] :: l)).
Proof.
  intros H1 H2 H3 H4. unfold getattr. change (lookup_attr "neighbor_vector") with (Some P_vectors). cbn [read]. rewrite H1, H2, H3, H4.
  cbn [combine map firstn fst snd]. eexists. reflexivity.
Qed.
Lemma ang_hd (N : num) (a : catom N) n x dx y dy : c_n a = S n -> c_phi a = x :: dx -> c_theta a = y :: dy ->
  exists l, getattr a "local_angles" = Ok (VList (floats [x; y] :: l)).
Proof.
  intros H1 H2 H3. unfold getattr. change (lookup_attr "local_angles") with (Some P_angles). cbn [read]. rewrite H1, H2, H3.
  cbn [combine map firstn fst snd]. eexists. reflexivity.
Qed.
Lemma memory_gen (N : num) name : n0 <> (n1 : N) -> In name ["neighbor_vector"; "local_angles"]%string ->
  exists (raw raw' : catom N) v a0 a a0' a',
      sized raw /\ sized raw' /\ admissible ("neighbors"%string, v) /\
      new_atom raw 7 (e_pos N) 23 1 = Ok a0 /\ setattr a0 "neighbors" v = Ok a /\
      new_atom raw' 7 (e_pos N) 23 1 = Ok a0' /\ setattr a0' "neighbors" v = Ok a' /\
      getattr a name <> getattr a' name.
Proof.
  intros D HI.
  destruct (nb_set N (ctor (memory n0 false) 7 (nofZ 1) (nofZ 2) (nofZ 3) 23 1)) as (a & Ea & An & Ax & Ay & Az & Ap & At); [apply ctor_sized, memory_sized|].
  destruct (nb_set N (ctor (memory n1 false) 7 (nofZ 1) (nofZ 2) (nofZ 3) 23 1)) as (a' & Ea' & An' & Ax' & Ay' & Az' & Ap' & At'); [apply ctor_sized, memory_sized|].
  exists (memory n0 false), (memory n1 false), (ints N [4; 9]%Z). do 4 eexists.
  split; [apply memory_sized|]. split; [apply memory_sized|]. split; [exact (Forall_inv (e_hist_ok N))|].
  split; [reflexivity|]. split; [exact Ea|]. split; [reflexivity|]. split; [exact Ea'|].
  cbn [In] in HI. destruct HI as [<-|[<-|[]]].
  - destruct (vec_hd N a 1 n0 (repeat n0 299) n0 (repeat n0 299) n0 (repeat n0 299) An Ax Ay Az) as (l & ->).
    destruct (vec_hd N a' 1 n1 (repeat n1 299) n1 (repeat n1 299) n1 (repeat n1 299) An' Ax' Ay' Az') as (l' & ->). intros [= H _]. exact (D H).
  - destruct (ang_hd N a 1 n0 (repeat n0 299) n0 (repeat n0 299) An Ap At) as (l & ->).
    destruct (ang_hd N a' 1 n1 (repeat n1 299) n1 (repeat n1 299) An' Ap' At') as (l' & ->). intros [= H _]. exact (D H).
Qed.
Lemma uninit_gen (N : num) name : n0 <> (n1 : N) -> In name uninitialised ->
  exists (raw raw' : catom N) a a',
    sized raw /\ sized raw' /\ new_atom raw 7 (e_pos N) 23 1 = Ok a /\ new_atom raw' 7 (e_pos N) 23 1 = Ok a' /\
    getattr a name <> getattr a' name.
Proof.
  intros D HI. exists (memory n0 false), (memory n1 true). do 2 eexists.
  split; [apply memory_sized|]. split; [apply memory_sized|]. split; [reflexivity|]. split; [reflexivity|].
  intros H. unfold uninitialised in HI. cbn [In] in HI.
  repeat (destruct HI as [<-|HI]; [cbn -[n0 n1] in H; first [discriminate H | injection H as H; exact (D H)]|]). destruct HI.
Qed.

(** The distances assigned do not read back. *)
Theorem C73_refuted :
  exists (N : num) (raw : catom N) (h : list (string * value N)) a0 a v,
    sized raw /\ Forall admissible h /\
    new_atom raw 7 (e_pos N) 23 1 = Ok a0 /\ assign h a0 = Ok a /\
    last_assigned h "neighbor_distance" = Some v /\ getattr a "coordination" = Ok (VInt N (Z.of_nat (len v))) /\
    getattr a "neighbor_distance" <> Ok v.
Proof. exists F64. apply refuted_gen. apply fl_neq; vm_compute; reflexivity. Qed.
Print Assumptions C73_refuted.

(** What was in memory before shows in the vectors and angles of neighbours
    assigned to a new atom, and in the attributes without default. *)
Theorem C73_memory_refuted :
  (forall name, In name ["neighbor_vector"; "local_angles"]%string ->
    exists (N : num) (raw raw' : catom N) v a0 a a0' a',
      sized raw /\ sized raw' /\ admissible ("neighbors"%string, v) /\
      new_atom raw 7 (e_pos N) 23 1 = Ok a0 /\ setattr a0 "neighbors" v = Ok a /\
      new_atom raw' 7 (e_pos N) 23 1 = Ok a0' /\ setattr a0' "neighbors" v = Ok a' /\
      getattr a name <> getattr a' name) /\
  (forall name, In name uninitialised ->
    exists (N : num) (raw raw' : catom N) a a',
      sized raw /\ sized raw' /\ new_atom raw 7 (e_pos N) 23 1 = Ok a /\ new_atom raw' 7 (e_pos N) 23 1 = Ok a' /\
      getattr a name <> getattr a' name).
Proof.
  assert (D : n0 <> (n1 : F64)) by (apply fl_neq; vm_compute; reflexivity).
  split; intros name HI; exists F64; [now apply memory_gen|now apply uninit_gen].
Qed.
Print Assumptions C73_memory_refuted.

(** The name bonds is bound twice; the number of solid bonds of find_solids
    cannot be read through any attribute. *)
Theorem C73_bonds_refuted :
  forall (N : num) (a : catom N) v name, getattr (put_mem a M_frenkelnumber v) name = getattr a name.
Proof.
  intros N a v name. unfold getattr. destruct (lookup_attr name) as [p|] eqn:L; [|reflexivity]. f_equal.
  destruct p as [m| | | | | | | | | | | | | ]; try reflexivity.
  change (read (put_mem a M_frenkelnumber v) (Rw m)) with (if member_dec M_frenkelnumber m then v else c_mem a m). destruct (member_dec M_frenkelnumber m) as [<-|]; [|reflexivity].
  exfalso. assert (H : In ("bonds"%string, Rw M_frenkelnumber) bindings) by (apply nth_error_In with (n := 24); reflexivity).
  pose proof (NoDup_snd bindings_nodup (lookup_In L) H) as ->. vm_compute in L. discriminate L.
Qed.
Print Assumptions C73_bonds_refuted.

(** What is refused: unknown names, the coordination, numbers of the wrong
    type; and the lists too short or too long for the arrays, which are read or
    written outside their bounds. *)
Theorem C73_refused :
  forall (N : num) (a : catom N),
  (forall name v, ~ In name (map fst documented) -> name <> "coordination"%string -> setattr a name v = Err AttributeError /\ getattr a name = Err AttributeError) /\
  (forall v, setattr a "coordination" v = Err AttributeError) /\
  (forall name sz v, In (name, (KInt, sz)) documented ->
     (exists a', setattr a name v = Ok a') <-> (exists z, v = VInt N z /\ (- 2 ^ 31 <= z < 2 ^ 31)%Z) \/ exists b, v = VBool N b) /\
  (forall l, length l < 3 -> setattr a "pos" (floats l) = Err UB) /\
  (forall l, length l < 11 -> setattr a "allq" (floats l) = Err UB /\ setattr a "allaq" (floats l) = Err UB) /\
  (forall l, Forall (fun z => - 2 ^ 31 <= z < 2 ^ 31)%Z l -> length l < 4 -> setattr a "vorovector" (ints N l) = Err UB) /\
  (forall l, Forall (fun z => - 2 ^ 31 <= z < 2 ^ 31)%Z l -> sized a -> 300 < length l -> setattr a "neighbors" (ints N l) = Err UB).
Proof.
  intros N a.
  assert (KF : forall l : list N, to_floats (floats l) = Ok l).
  { intros l. assert (K : has_kind (KList KFloat) (floats l)) by (cbn; induction l; constructor; easy).
    destruct (to_floats_kind K) as (l' & E & -> & _). f_equal. unfold floats in E. injection E as E.
    revert l' E. clear. induction l as [|x l IH]; intros [|y l'] E; try easy. injection E as -> E. f_equal. now apply IH. }
  assert (KI : forall l, Forall (fun z => - 2 ^ 31 <= z < 2 ^ 31)%Z l -> to_ints (ints N l) = Ok l).
  { intros l F. assert (K : has_kind (KList KInt) (ints N l)) by (cbn; induction F; constructor; easy).
    destruct (to_ints_kind K) as (l' & E & -> & _). f_equal. unfold ints in E. injection E as E.
    revert l' E. clear. induction l as [|x l IH]; intros [|y l'] E; try easy. injection E as -> E. f_equal. now apply IH. }
  split; [|split; [|split; [|split; [|split; [|split]]]]].
  - intros name v NI NC. unfold setattr, getattr. destruct (lookup_attr name) as [p|] eqn:L; [|auto]. exfalso.
    apply lookup_In in L. apply (in_map fst) in L. cbn [fst] in L. unfold bindings in L. cbn [map fst In] in L.
    unfold documented in NI. cbn [map fst] in NI.
    repeat (destruct L as [<-|L]; [first [apply NC; reflexivity | apply NI; repeat (first [left; reflexivity | right])]|]). destruct L.
  - reflexivity.
  - intros name sz v H. assert (HM : exists m, lookup_attr name = Some (Rw m) /\ member_kind m = KInt).
    { unfold documented in H. cbn [In] in H.
      repeat (destruct H as [H|H]; [first [discriminate H | injection H as <- _; eexists; split; reflexivity]|]). destruct H. }
    destruct HM as (m & L & K). unfold setattr. rewrite L. cbn [write]. rewrite K. split.
    + intros (a' & E). destruct v as [z|b|?|?|?]; cbn [cast] in E; try discriminate E; [|eauto].
      destruct (int_fits z) eqn:F; [|discriminate E]. left. exists z. split; [reflexivity|]. now apply fits_iff.
    + intros [(z & -> & F)|(b & ->)]; cbn [cast]; [apply fits_iff in F; rewrite F|]; eexists; reflexivity.
  - intros l H. unfold setattr. cbn [lookup_attr]. change (lookup_attr "pos") with (Some P_pos). cbn [write]. rewrite KF. cbn [bind].
    destruct l as [|? [|? [|? ?]]]; try reflexivity. cbn in H. lia.
  - intros l H. unfold setattr. change (lookup_attr "allq") with (Some P_allq). change (lookup_attr "allaq") with (Some P_allaq). cbn [write]. rewrite KF. cbn [bind].
    unfold fill. destruct (Nat.leb_spec 11 (length l)); [lia|]. auto.
  - intros l F H. unfold setattr. change (lookup_attr "vorovector") with (Some P_vorovector). cbn [write]. rewrite (KI l F). cbn [bind].
    destruct l as [|? [|? [|? [|? ?]]]]; try reflexivity. cbn in H. lia.
  - intros l F S H. unfold setattr. change (lookup_attr "neighbors") with (Some P_neighbors). cbn [write]. rewrite (KI l F). cbn [bind].
    destruct S as (_ & S2 & _). unfold blit at 1. rewrite repeat_length, S2. destruct (Nat.leb_spec (length l) 300); [lia|]. reflexivity.
Qed.
Print Assumptions C73_refused.

(** An atom with two neighbours, weights and a second assignment of the type. *)
Definition e_use : list (string * value F64) :=
  [("type"%string, VInt F64 1); ("neighbors"%string, ints F64 [4; 9]%Z); ("solid"%string, VBool F64 true); ("type"%string, VInt F64 2)].
Lemma e_use_ok : Forall admissible e_use.
Proof.
  repeat constructor.
  - exists KInt, free. split; [apply (in_doc _ _ _ documented 5); reflexivity|]. split; [cbn; lia|exact I].
  - exact (Forall_inv (e_hist_ok F64)).
  - exists KBool, free. split; [apply (in_doc _ _ _ documented 23); reflexivity|]. split; exact I.
  - exists KInt, free. split; [apply (in_doc _ _ _ documented 5); reflexivity|]. split; [cbn; lia|exact I].
Qed.
Example C73_hyp :
  exists a0 a a', new_atom (memory n0 false) 7 (e_pos F64) 23 1 = Ok a0 /\ sized a0 /\ Forall admissible e_use /\
    assign e_use a0 = Ok a /\ getattr a "type" = Ok (VInt F64 2) /\ getattr a "id" = Ok (VInt F64 23) /\ getattr a "solid" = Ok (VBool F64 true) /\
    getattr a "coordination" = Ok (VInt F64 2) /\
    Forall admissible (e_use ++ ("neighbor_weights"%string, floats [nlit 3 5; nlit 2 5 : F64]) :: []) /\
    assign (e_use ++ ("neighbor_weights"%string, floats [nlit 3 5; nlit 2 5 : F64]) :: []) a0 = Ok a' /\
    getattr a' "neighbor_weights" = Ok (floats [nlit 3 5; nlit 2 5 : F64]).
Proof.
  destruct (C73_new F64 (memory n0 false) 7 (e_pos F64) 23 1 (memory_sized n0 false) (e_pos_ok F64)) as (a0 & E0 & S0 & _ & EI & _).
  destruct (C73_reads_back F64 a0 e_use S0 e_use_ok) as (a & E1 & S1 & R).
  destruct (C73_kept F64 a0 e_use a S0 e_use_ok E1) as (_ & K). specialize (K _ eq_refl).
  assert (A : Forall admissible (e_use ++ ("neighbor_weights"%string, floats [nlit 3 5; nlit 2 5 : F64]) :: [])).
  { apply Forall_app. split; [exact e_use_ok|]. repeat constructor.
    exists (KList KFloat), upto300. split; [apply (in_doc _ _ _ documented 10); reflexivity|]. split; [cbn; repeat constructor|cbn; unfold upto300; lia]. }
  destruct (C73_per_neighbor F64 a0 "neighbor_weights" _ e_use [] a S0 ltac:(cbn; tauto) A E1 K eq_refl eq_refl) as (a' & E2 & G).
  exists a0, a, a'. split; [exact E0|]. split; [exact S0|]. split; [exact e_use_ok|]. split; [exact E1|].
  split; [apply (R "type"%string); cbn; intuition discriminate|].
  split; [assert (RI := R "id"%string ltac:(discriminate) ltac:(cbn; intuition discriminate)); unfold reads_back in RI; cbn [last_assigned e_use String.eqb Ascii.eqb Bool.eqb] in RI; rewrite RI; exact EI|].
  split; [apply (R "solid"%string); cbn; intuition discriminate|]. split; [exact K|]. split; [exact A|]. split; [exact E2|exact G].
Qed.
