(** Properties C59, C60, C64 and C65, and the ASE part of C13: POSCAR files and
    ASE objects. *)
From Coq Require Import Reals Lra ZArith List Lia Ascii String.
From Coq.Floats Require Import SpecFloat.
From Verif Require Import Base Num NumR NumF Types Ex M_Geometry M_Container M_Text M_Lammps M_Traj M_Formats
  P_Neighbors P_QSys P_Text P_Container P_Lammps P_Round P_LammpsSys P_Poscar P_Ase S_Container S_Lammps S_Formats C_Container C_Lammps.
Import ListNotations.
Close Scope R_scope. Close Scope Z_scope.
#[local] Open Scope nat_scope.

(** ** C59 *)
(** The file: a title, the scale, three box vectors, the numbers of atoms by
    type, the kind of coordinates, then one line per atom, sorted by type and
    otherwise in the order of the system. *)
Definition C59_file {N : num} (T : textnum N) (near : N -> N -> Prop) (s : sys N) (comments : text) (atoms : list (atom N)) : Prop :=
  exists content b0 b1 b2 counts coords cs out,
    write_poscar T s comments = Ok content /\
    file_lines content
      ([comments ++ ["010"%char]; list_ascii_of_string "   1.00000000000000" ++ ["010"%char]; b0; b1; b2; counts;
        list_ascii_of_string "Cartesian" ++ ["010"%char]] ++ coords) /\
    reads_vector T near (r0 (box_get s)) b0 /\ reads_vector T near (r1 (box_get s)) b1 /\ reads_vector T near (r2 (box_get s)) b2 /\
    mapM parse_int (words counts) = Ok cs /\ type_counts atoms cs /\
    by_type atoms out /\ Forall2 (fun a l => reads_vector T near (a_pos a) l) out coords.
Theorem C59_poscar_real :
  forall (s : sys Rnum) comments atoms, get_atoms s = Ok atoms -> ~ In "010"%char comments ->
  C59_file R_text (decimals 14) s comments atoms.
Proof.
  intros s comments atoms HG HC. apply (@poscar Rnum R_text (R_dec_ok 14) (decimals 14)); [|exact HG|exact HC].
  intros x. apply R_decimals. lia.
Qed.
Print Assumptions C59_poscar_real.
Theorem C59_poscar_double :
  forall (L : libm) (s : sys (SF64 L)) comments atoms, get_atoms s = Ok atoms -> ~ In "010"%char comments ->
  C59_file (SF_text L) (decimals_F 14) s comments atoms.
Proof.
  intros L s comments atoms HG HC. apply (@poscar (SF64 L) (SF_text L) (sf_dec_ok 14) (decimals_F 14)); [|exact HG|exact HC].
  intros x. apply (@sf_decimals 14 x). lia.
Qed.
Print Assumptions C59_poscar_double.
(** Every system of the reals or doubles with stored atoms gives a file; here
    one whose atoms have the types 3, 1, 3, 2. *)
Definition p_sys (N : num) : sys N :=
  set_atoms (sbox (sys_ctor (raw_sys N)) (diag (N := N) (nofZ 10) (nofZ 11) (nofZ 12)))
    [w_atom N 1 3 0 2 3; w_atom N 2 1 1 5 4; w_atom N 3 3 2 2 2; w_atom N 4 2 7 7 7].
Example C59_example :
  write_poscar (SF_text libm_test) (p_sys F64) (tx "title") = Ok (concat (map (fun l => tx l ++ [nl])
    ["title"; "   1.00000000000000"; "      10.00000000000000 0.00000000000000 0.00000000000000";
     "      0.00000000000000 11.00000000000000 0.00000000000000"; "      0.00000000000000 0.00000000000000 12.00000000000000";
     "  1   1   2   "; "Cartesian"; " 1.00000000000000 5.00000000000000 4.00000000000000"; " 7.00000000000000 7.00000000000000 7.00000000000000";
     " 0.00000000000000 2.00000000000000 3.00000000000000"; " 2.00000000000000 2.00000000000000 2.00000000000000"]%string)).
Proof. vm_compute. reflexivity. Qed.

(** ** C60 *)
(** Reading an ASE object: one atom per position, with its symbol and its type,
    the place of the symbol in the sorted list of symbols. *)
Theorem C60_read :
  forall (N : num) raw (o : ase N), List.length (as_positions o) = List.length (as_symbols o) ->
  exists atoms, ase_read_snap raw o = Ok (atoms, as_cell o) /\ List.length atoms = List.length (as_positions o) /\
    forall i x, nth_error atoms i = Some x -> from_symbols (as_symbols o) (as_positions o) i (fst x) (snd x).
Proof.
  intros N raw o HL. unfold ase_read_snap. destruct (@symbol_atoms_run N raw (as_symbols o) (as_positions o)) as (l & E & L & H); [lia|].
  exists l. rewrite E. split; [reflexivity|]. split; [exact L|exact H].
Qed.
Print Assumptions C60_read.
(** There is exactly one sorted list of the symbols. *)
Theorem C60_sorted :
  forall symbols, exists u, sorted_symbols symbols u /\ forall v, sorted_symbols symbols v -> v = u.
Proof.
  intros symbols. exists (unique_text symbols). split; [apply unique_text_spec|]. intros v Hv. apply (sorted_symbols_unique Hv), unique_text_spec.
Qed.
Print Assumptions C60_sorted.
(** The same for the first frame of an mdtraj object. *)
Theorem C60_mdtraj :
  forall (N : num) raw (o : mdtraj N) box cells xyz frames, md_cells o = box :: cells -> md_xyz o = xyz :: frames ->
  List.length xyz = List.length (md_names o) ->
  exists atoms, md_read_snap raw o = Ok (atoms, box) /\ List.length atoms = List.length xyz /\
    forall i x, nth_error atoms i = Some x -> from_symbols (md_names o) xyz i (fst x) (snd x).
Proof.
  intros N raw o box cells xyz frames E1 E2 HL. unfold md_read_snap. rewrite E1, E2.
  destruct (@symbol_atoms_run N raw (md_names o) xyz) as (l & E & L & H); [lia|]. exists l.
  assert (P0 : forall A (a : A) l, M_Analysis.py_get (a :: l) 0 = Ok a) by reflexivity. rewrite !P0. cbn [bind]. rewrite E. split; [reflexivity|]. split; [exact L|exact H].
Qed.
Print Assumptions C60_mdtraj.

Lemma nth_error_map_inv (A B : Type) (f : A -> B) l i b : nth_error (map f l) i = Some b -> exists a, nth_error l i = Some a /\ f a = b.
Proof. rewrite nth_error_map. destruct (nth_error l i) as [a|]; intros H; [|discriminate]. injection H as <-. exists a. split; reflexivity. Qed.
(** The system read from an ASE object. *)
Theorem C60_system :
  forall (N : num) T raw raw' inv ar (s0 s : sys N) keys (o : ase N) customs,
  List.length (as_positions o) = List.length (as_symbols o) ->
  read_inputfile_as T raw raw' inv ar s0 (tx "ase") keys (SAse o) = Ok (s, customs) ->
  exists l, get_atoms s = Ok l /\ List.length l = List.length (as_positions o) /\ List.length customs = List.length l /\
    (s_actual s0 = None -> box_get s = as_cell o) /\ (exists gh, s_atoms s = l ++ gh) /\
    forall i a d, nth_error l i = Some a -> nth_error customs i = Some d -> from_symbols (as_symbols o) (as_positions o) i a d.
Proof.
  intros N T raw raw' inv ar s0 s keys o customs HL H. destruct (C60_read N raw o HL) as (atoms & E & L & F).
  unfold read_inputfile_as, read_file in H. change (teqb (tx "ase") (tx "lammps-dump")) with false in H. change (teqb (tx "ase") (tx "ase")) with true in H.
  cbv iota in H. cbn [bind] in H. rewrite E in H. cbn [bind] in H. apply bind_Ok in H as (s1 & H1 & H). apply bind_Ok in H as (s2 & H2 & H).
  injection H as <- <-. destruct (@set_read N raw' inv s0 s1 s2 atoms (as_cell o) (as_symbols o) (as_positions o) F H1 H2) as (G1 & G2 & G3 & _).
  exists (map fst atoms). split; [exact G1|]. split; [etransitivity; [apply map_length|exact L]|]. split; [etransitivity; [apply map_length|symmetry; apply map_length]|].
  split; [exact G2|]. split; [exact G3|]. intros i a d Ha Hd.
  destruct (nth_error_map_inv _ _ _ _ _ _ Ha) as (x & Ex & <-). destruct (nth_error_map_inv _ _ _ _ _ _ Hd) as (y & Ey & <-).
  assert (x = y) as <- by (apply Some_inj; etransitivity; [symmetry; exact Ex|exact Ey]). apply F, Ex.
Qed.
Print Assumptions C60_system.

(** Converting back gives the ASE object again, whatever list is passed. *)
Theorem C60_back :
  forall (N : num) T raw raw' inv ar known (s0 s : sys N) keys (o : ase N) customs species,
  List.length (as_positions o) = List.length (as_symbols o) -> as_positions o <> [] ->
  (forall c, In c (as_symbols o) -> known c = true) -> s_actual s0 = None ->
  read_inputfile_as T raw raw' inv ar s0 (tx "ase") keys (SAse o) = Ok (s, customs) ->
  convert_snap known s customs species = Ok (customs, o).
Proof.
  intros N T raw raw' inv ar known s0 s keys o customs species HL HP HK HA H.
  destruct (C60_system N T raw raw' inv ar s0 s keys o customs HL H) as (l & G1 & G2 & G3 & G4 & _ & G6).
  rewrite (@convert_known N known s l customs (as_symbols o) species G1); [| |exact G3|congruence|].
  - rewrite (G4 HA). f_equal. f_equal. destruct o as [cell symbols positions]. cbn [as_cell as_symbols as_positions] in *. f_equal.
    apply P_QSys.nth_error_ext'. intros i. rewrite nth_error_map. destruct (nth_error l i) as [a|] eqn:Ea.
    + destruct (nth_error customs i) as [d|] eqn:Ed; [|apply nth_error_None in Ed; assert (i < List.length l) by (apply nth_error_Some; congruence); lia].
      destruct (G6 i a d Ea Ed) as (p & c & Hp & _ & _ & Q & _). rewrite Hp, <- Q. reflexivity.
    + apply nth_error_None in Ea. symmetry. apply nth_error_None. lia.
  - destruct l; [|discriminate]. destruct (as_positions o); [congruence|discriminate].
  - intros i d c Hd Hc. destruct (nth_error l i) as [a|] eqn:Ea; [|apply nth_error_None in Ea; assert (i < List.length customs) by (apply nth_error_Some; congruence); lia].
    destruct (G6 i a d Ea Hd) as (p & c' & _ & Hc' & -> & _). assert (c' = c) as -> by congruence. split; [reflexivity|]. apply HK, (nth_error_In _ _ Hc).
Qed.
Print Assumptions C60_back.
(** Without the dictionaries, the sorted list of symbols gives it too. *)
Theorem C60_list :
  forall (N : num) T raw raw' inv ar known (s0 s : sys N) keys (o : ase N) customs u customs',
  List.length (as_positions o) = List.length (as_symbols o) -> as_positions o <> [] ->
  (forall c, In c (as_symbols o) -> known c = true) -> s_actual s0 = None ->
  read_inputfile_as T raw raw' inv ar s0 (tx "ase") keys (SAse o) = Ok (s, customs) ->
  sorted_symbols (as_symbols o) u -> List.length customs' = List.length customs ->
  (forall d, nth_error customs' 0 = Some d -> dget d (tx "species") = None) ->
  exists customs'', convert_snap known s customs' (Some u) = Ok (customs'', o) /\
    forall i d c, nth_error customs'' i = Some d -> nth_error (as_symbols o) i = Some c -> dget d (tx "species") = Some c.
Proof.
  intros N T raw raw' inv ar known s0 s keys o customs u customs' HL HP HK HA H HU LC H0.
  destruct (C60_system N T raw raw' inv ar s0 s keys o customs HL H) as (l & G1 & G2 & G3 & G4 & _ & G6).
  assert (ND : forall i a, nth_error l i = Some a -> exists c, nth_error (as_symbols o) i = Some c /\ numbered u (a_type a) c /\ nth_error (as_positions o) i = Some (a_pos a)).
  { intros i a Ea. destruct (nth_error customs i) as [d|] eqn:Ed; [|apply nth_error_None in Ed; assert (i < List.length l) by (apply nth_error_Some; congruence); lia].
    destruct (G6 i a d Ea Ed) as (p & c & Hp & Hc & _ & Q & _ & _ & _ & W). exists c. split; [exact Hc|]. split; [apply W, HU|congruence]. }
  rewrite (@convert_list N known s l customs' u (as_symbols o) G1).
  - eexists. split; [f_equal; f_equal|].
    + rewrite (G4 HA). destruct o as [cell symbols positions]. cbn [as_cell as_symbols as_positions] in *. f_equal.
      apply P_QSys.nth_error_ext'. intros i. rewrite nth_error_map. destruct (nth_error l i) as [a|] eqn:Ea.
      * destruct (ND i a Ea) as (c & _ & _ & Q). rewrite Q. reflexivity.
      * apply nth_error_None in Ea. symmetry. apply nth_error_None. lia.
    + intros i d c Hd Hc. rewrite nth_error_map in Hd. destruct (nth_error (combine customs' (as_symbols o)) i) as [[d0 c0]|] eqn:E; [|discriminate].
      injection Hd as <-. assert (c0 = c) as ->.
      { clear - E Hc. revert i E Hc. generalize (as_symbols o). induction customs' as [|x customs' IH]; intros [|y q] [|i] E Hc; try discriminate; cbn in *; [congruence|apply (IH q i E Hc)]. }
      cbn [fst snd]. change (tx "species") with species_key. rewrite dget_dset, teqb_refl. reflexivity.
  - destruct l; [|discriminate]. destruct (as_positions o); [congruence|discriminate].
  - congruence.
  - congruence.
  - exact H0.
  - intros i a c Ea Ec. destruct (ND i a Ea) as (c' & Q & W & _). assert (c' = c) as -> by congruence. split; [exact W|apply HK, (nth_error_In _ _ Ec)].
  - intros k Hk. destruct HU as [HS HI]. destruct (nth_error u k) as [c|] eqn:Ek; [|apply nth_error_None in Ek; lia].
    assert (Ic : In c (as_symbols o)) by (apply HI, (nth_error_In _ _ Ek)). apply In_nth_error in Ic as [i Hi].
    destruct (nth_error l i) as [a|] eqn:Ea; [|apply nth_error_None in Ea; assert (i < List.length (as_symbols o)) by (apply nth_error_Some; congruence); lia].
    destruct (ND i a Ea) as (c' & Q & [W1 W2] & _). assert (c' = c) as -> by congruence.
    assert (Z.to_nat (a_type a - 1) = k) as E.
    { apply (proj1 (NoDup_nth_error u) (sorted_text_NoDup HS)); [apply nth_error_Some; congruence|congruence]. }
    replace (Z.of_nat k + 1)%Z with (a_type a) by lia. apply in_map, (nth_error_In _ _ Ea).
Qed.
Print Assumptions C60_list.
(** An object and a new system meeting the hypotheses; the atoms get the types
    2, 1 and 2. *)
Definition e_ase (N : num) : ase N :=
  mkAse (diag (N := N) (nofZ 10) (nofZ 11) (nofZ 12)) [tx "Ni"; tx "Al"; tx "Ni"] [zv N 0 0 0; zv N 1 2 3; zv N 4 5 6].
Definition e_read (N : num) (T : textnum N) : res (sys N * list (dict text)) :=
  read_inputfile_as T (fun _ => raw_atom N) (fun _ => raw_atom N) (fun _ => None) (fun _ _ => Err IOError) (sys_ctor (raw_sys N)) (tx "ase") [] (SAse (e_ase N)).
Example C60_example :
  match e_read F64 (SF_text libm_test) with
  | Ok (s, customs) =>
      match get_atoms s with
      | Ok l => (map (@a_type F64) l, map (@a_loc F64) l, s_nop s,
                 match convert_snap (fun _ => true) s customs None with Ok (_, o) => as_symbols o | Err _ => [] end,
                 match convert_snap (fun _ => true) s [[]; []; []] (Some [tx "Al"; tx "Ni"]) with Ok (_, o) => as_symbols o | Err _ => [] end)
      | Err _ => ([], [], 0%Z, [], []) end
  | Err _ => ([], [], 0%Z, [], []) end = ([2; 1; 2]%Z, [0; 1; 2]%Z, 375%Z, [tx "Ni"; tx "Al"; tx "Ni"], [tx "Ni"; tx "Al"; tx "Ni"]).
Proof. vm_compute. reflexivity. Qed.

(** Without species: no list, or a list of another length than the number of
    types that occur, is rejected. *)
Theorem C60_errors :
  forall (N : num) known (s : sys N) customs l d0 ds species, get_atoms s = Ok l -> l <> [] -> customs = d0 :: ds -> List.length customs = List.length l ->
  dget d0 (tx "species") = None ->
  (forall u cs, species = Some u -> type_counts l cs -> List.length cs <> List.length u) ->
  convert_snap known s customs species = Err ValueError.
Proof.
  intros N known s customs l d0 ds species HG Hl -> HL H0 HS. unfold convert_snap. rewrite HG. cbn [bind]. destruct l as [|a l]; [congruence|].
  cbn [combine]. change (tx "species") with species_key in H0. unfold dmem. cbn [snd]. rewrite H0. cbn [negb]. destruct species as [u|]; [|reflexivity].
  assert (TY : map (fun x : catom N => a_type (fst x)) ((a, d0) :: combine l ds) = map (@a_type N) (a :: l)).
  { cbn [map fst]. f_equal. cbn in HL. injection HL as HL. clear - HL. revert ds HL. induction l as [|b l IH]; intros [|d ds] L; try discriminate; [reflexivity|]. cbn. f_equal. apply IH. injection L; auto. }
  rewrite TY. destruct (unique_groups (a :: l)) as [_ UC]. specialize (HS u _ eq_refl UC). rewrite !map_length in *.
  apply Nat.eqb_neq in HS. rewrite HS. reflexivity.
Qed.
Print Assumptions C60_errors.
Example C60_errors_hyp : match e_read F64 (SF_text libm_test) with
  | Ok (s, _) => (match convert_snap (fun _ => true) s [[]; []; []] None with Ok _ => None | Err e => Some e end,
                  match convert_snap (fun _ => true) s [[]; []; []] (Some [tx "Al"]) with Ok _ => None | Err e => Some e end)
  | Err _ => (None, None) end = (Some ValueError, Some ValueError).
Proof. vm_compute. reflexivity. Qed.

(** ** C65: converting leaves the system as it is *)
(** The species are written to the dictionaries of the stored atoms, and a
    second conversion ignores its list. *)
Theorem C65_second_list :
  forall (N : num) known (s : sys N) customs l species customs1 o, get_atoms s = Ok l -> List.length customs = List.length l ->
  convert_snap known s customs species = Ok (customs1, o) ->
  forall species', convert_snap known s customs1 species' = Ok (customs1, o).
Proof.
  intros N known s customs l species customs1 o HG HL H species'. unfold convert_snap in H. rewrite HG in H. cbn [bind] in H.
  set (ts := map fst _) in H. destruct (combine l customs) as [|a0 rest] eqn:EC; [discriminate|].
  apply bind_Ok in H as (q & H1 & H). apply bind_Ok in H as (symbols & H2 & H). injection H as <- <-.
  assert (Q : List.length q = List.length l /\ map (@fst (atom N) (dict text)) q = l).
  { assert (LC : List.length (a0 :: rest) = List.length l) by (rewrite <- EC, combine_length; lia).
    assert (FC : map fst (a0 :: rest) = l).
    { rewrite <- EC. clear - HL. revert customs HL. induction l as [|a l IH]; intros [|d customs] L; try discriminate; [reflexivity|]. cbn. f_equal. apply IH. injection L; auto. }
    destruct (negb _).
    - destruct species as [u|]; [|discriminate]. destruct (negb _); [discriminate|].
      unfold assign_species in H1. assert (G : List.length q = List.length (a0 :: rest) /\ map (@fst (atom N) (dict text)) q = map fst (a0 :: rest)).
      { clear - H1. revert q H1. generalize (a0 :: rest). intros z. induction z as [|x z IH]; intros q H1; cbn [mapM] in H1; [injection H1 as <-; split; reflexivity|].
        apply bind_Ok in H1 as (y & Hy & H1). apply bind_Ok in H1 as (ys & Hys & H1). injection H1 as <-. apply bind_Ok in Hy as (v & _ & Hy). injection Hy as <-.
        destruct (IH ys Hys) as [I1 I2]. cbn. split; [f_equal; exact I1|f_equal; exact I2]. }
      destruct G as [G1 G2]. split; [etransitivity; [exact G1|exact LC]|etransitivity; [exact G2|exact FC]].
    - apply bind_Ok in H1 as (w & _ & H1). injection H1 as <-. split; [exact LC|exact FC]. }
  destruct Q as [Q1 Q2]. assert (NE : l <> []) by (intros ->; discriminate).
  assert (D : List.length symbols = List.length q /\ forall i d c, nth_error (map (@snd (atom N) (dict text)) q) i = Some d -> nth_error symbols i = Some c -> dget d species_key = Some c /\ known c = true).
  { clear - H2. revert symbols H2. induction q as [|x q IH]; intros symbols H2; cbn [mapM] in H2; [injection H2 as <-; split; [reflexivity|intros [|i]; discriminate]|].
    apply bind_Ok in H2 as (y & Hy & H2). apply bind_Ok in H2 as (ys & Hys & H2). injection H2 as <-. apply bind_Ok in Hy as (v & Hv & Hy).
    destruct (known v) eqn:K; [|discriminate]. injection Hy as <-. destruct (IH ys Hys) as [I1 I2]. split; [cbn; f_equal; exact I1|].
    intros [|i] d c Hd Hc; [|exact (I2 i d c Hd Hc)]. injection Hd as <-. injection Hc as <-. split; [|exact K].
    unfold dref in Hv. destruct (dget (snd x) species_key); [injection Hv as ->; reflexivity|discriminate]. }
  destruct D as [D1 D2]. rewrite (@convert_known N known s l _ symbols species' HG NE); [|etransitivity; [apply map_length|exact Q1]|etransitivity; [exact D1|exact Q1]|exact D2].
  f_equal. f_equal. f_equal. rewrite <- Q2, map_map. reflexivity.
Qed.
Print Assumptions C65_second_list.
Theorem C65_convert_refuted :
  exists (s : sys F64) customs customs1 o1 customs2 o2,
  convert_snap (fun _ => true) s customs (Some [tx "Cu"; tx "Zn"]) = Ok (customs1, o1) /\ customs1 <> customs /\
  convert_snap (fun _ => true) s customs1 (Some [tx "Al"; tx "Ni"]) = Ok (customs2, o2) /\
  convert_snap (fun _ => true) s customs (Some [tx "Al"; tx "Ni"]) <> Ok (customs2, o2).
Proof.
  pose (s := w_sys F64). pose (c0 := [[]; []] : list (dict text)).
  assert (X : forall u, (let r := convert_snap (fun _ => true) s c0 (Some u) in
    match r with Ok (c, o) => Some (c, as_symbols o) | Err _ => None end) =
    match u with [a; b] => Some ([[(species_key, a)]; [(species_key, b)]], [a; b]) | _ => None end) by (intros [|a [|b [|c u]]]; vm_compute; reflexivity).
  cbv zeta in X. assert (X1 := X [tx "Cu"; tx "Zn"]). assert (X2 := X [tx "Al"; tx "Ni"]).
  destruct (convert_snap (fun _ => true) s c0 (Some [tx "Cu"; tx "Zn"])) as [[c1 o1]|] eqn:E1; [|discriminate].
  exists s, c0, c1, o1, c1, o1. split; [exact E1|]. split.
  { intros K. assert (Y : Some (c1, as_symbols o1) = Some (c0, as_symbols o1)) by (rewrite K; reflexivity). rewrite X1 in Y. discriminate. }
  split.
  - apply (C65_second_list F64 (fun _ => true) s c0 [w_atom F64 7 1 0 2 3; w_atom F64 3 2 1 5 4] (Some [tx "Cu"; tx "Zn"])); [apply w_atoms|reflexivity|exact E1].
  - intros K. rewrite K in X2. assert (Z1 : as_symbols o1 = [tx "Cu"; tx "Zn"]) by (injection X1; auto).
    assert (Z2 : as_symbols o1 = [tx "Al"; tx "Ni"]) by (injection X2; auto). rewrite Z1 in Z2. discriminate.
Qed.
Print Assumptions C65_convert_refuted.
(** When the dictionaries know the species, nothing is changed. *)
Theorem C65_known :
  forall (N : num) known (s : sys N) l customs symbols species, get_atoms s = Ok l -> l <> [] ->
  List.length customs = List.length l -> List.length symbols = List.length l ->
  (forall i d c, nth_error customs i = Some d -> nth_error symbols i = Some c -> dget d (tx "species") = Some c /\ known c = true) ->
  convert_snap known s customs species = Ok (customs, mkAse (box_get s) symbols (map (@a_pos N) l)).
Proof. intros N known s l customs symbols species. apply convert_known. Qed.
Print Assumptions C65_known.
Example C65_known_hyp : exists l, get_atoms (w_sys Rnum) = Ok l /\ l <> [] /\
  forall i d c, nth_error [[(tx "species", tx "Cu")]; [(tx "species", tx "Zn")]] i = Some d -> nth_error [tx "Cu"; tx "Zn"] i = Some c ->
    dget d (tx "species") = Some c /\ (fun _ : text => true) c = true.
Proof.
  exists [w_atom Rnum 7 1 0 2 3; w_atom Rnum 3 2 1 5 4]. split; [apply w_atoms|]. split; [discriminate|].
  intros [|[|[|i]]] d c Hd Hc; try discriminate; injection Hd as <-; injection Hc as <-; split; reflexivity.
Qed.

(** ** C64: other formats go through ASE *)
(** They are always rejected when reading, even if ASE reads them; when
    writing, the file is written and then an exception is raised. *)
Theorem C64_read_fails :
  forall (N : num) T raw inv ar (format : text) keys (f : source N),
  ~ In format (map list_ascii_of_string ["lammps-dump"; "ase"; "mdtraj"; "poscar"]%string) ->
  read_file T raw inv ar format keys f = Err TypeError.
Proof.
  intros N T raw inv ar format keys f H. unfold read_file.
  assert (K : forall n, In (tx n) (map list_ascii_of_string ["lammps-dump"; "ase"; "mdtraj"; "poscar"]%string) -> teqb format (tx n) = false).
  { intros n Hn. apply teqb_false. intros ->. contradiction. }
  rewrite (K "lammps-dump"%string), (K "ase"%string), (K "mdtraj"%string), (K "poscar"%string) by (cbn; tauto). destruct (ar (Some format) f) as [o|e]; [|reflexivity]. cbn [bind]. destruct (ase_read_snap raw o) as [r|e]; reflexivity.
Qed.
Print Assumptions C64_read_fails.
Theorem C64_write_fails :
  forall (N : num) T known aw (V : Type) astype of_text of_num getattr (format : text) (s : sys N) customs keys (vals : option (list (list V))) ts species,
  ~ In format (map list_ascii_of_string ["lammps-dump"; "lammps-data"; "poscar"]%string) ->
  exists customs' file, write_file T known aw astype of_text of_num getattr format s customs keys vals ts species = (customs', file, Err TypeError) /\
    forall c o t, convert_snap known s customs species = Ok (c, o) -> aw format o = Ok t -> customs' = c /\ file = Some t.
Proof.
  intros N T known aw V astype of_text of_num getattr format s customs keys vals ts species H. unfold write_file.
  assert (K : forall n, In (tx n) (map list_ascii_of_string ["lammps-dump"; "lammps-data"; "poscar"]%string) -> teqb format (tx n) = false).
  { intros n Hn. apply teqb_false. intros ->. contradiction. }
  rewrite (K "lammps-dump"%string), (K "lammps-data"%string), (K "poscar"%string) by (cbn; tauto). unfold write_ase. destruct (convert_snap known s customs species) as [[c o]|e].
  - destruct (aw format o) as [t|e] eqn:E.
    + exists c, (Some t). split; [reflexivity|]. intros c' o' t' [= <- <-] E'. split; congruence.
    + exists c, None. split; [reflexivity|]. intros c' o' t' [= <- <-] E'. congruence.
  - exists customs, None. split; [reflexivity|]. intros c' o' t' [=].
Qed.
Print Assumptions C64_write_fails.
(** A format ASE reads and writes. *)
Theorem C64_formats_refuted :
  exists (format : text) (o : ase F64) (s : sys F64) customs species out,
  ~ In format (map list_ascii_of_string ["lammps-dump"; "ase"; "mdtraj"; "poscar"; "lammps-data"]%string) /\
  (exists customs', convert_snap (fun _ => true) s customs species = Ok (customs', o)) /\
  read_file (SF_text libm_test) (fun _ => raw_atom F64) (fun _ => None) (fun _ _ => Ok o) format [] (SFile F64 []) = Err TypeError /\
  exists customs', write_file (SF_text libm_test) (fun _ => true) (fun _ _ => Ok out) (fun r => r) (fun t => t) num_text no_attr
    format s customs [] None 0 species = (customs', Some out, Err TypeError).
Proof.
  assert (X : (match convert_snap (fun _ => true) (w_sys F64) [[]; []] (Some [tx "Cu"; tx "Zn"]) with Ok _ => true | Err _ => false end) = true) by (vm_compute; reflexivity).
  destruct (convert_snap (fun _ => true) (w_sys F64) [[]; []] (Some [tx "Cu"; tx "Zn"])) as [[c o]|] eqn:E; [clear X|discriminate].
  exists (tx "xyz"), o, (w_sys F64), [[]; []], (Some [tx "Cu"; tx "Zn"]), (tx "written").
  assert (NI : ~ In (tx "xyz") (map list_ascii_of_string ["lammps-dump"; "ase"; "mdtraj"; "poscar"; "lammps-data"]%string)) by (cbn; intuition discriminate).
  split; [exact NI|]. split; [exists c; exact E|]. split; [apply C64_read_fails; cbn in *; intuition|].
  destruct (C64_write_fails F64 (SF_text libm_test) (fun _ => true) (fun _ _ => Ok (tx "written")) text (fun r => r) (fun t => t) num_text no_attr
    (tx "xyz") (w_sys F64) [[]; []] [] None 0 (Some [tx "Cu"; tx "Zn"])) as (c' & f & H1 & H2); [cbn in *; intuition|].
  destruct (H2 c o (tx "written") E eq_refl) as [-> ->]. exists c. exact H1.
Qed.
Print Assumptions C64_formats_refuted.

(** ** C13: atoms from ASE objects know their place *)
Theorem C13_ase :
  forall (N : num) T raw raw' inv ar (s0 s : sys N) keys (o : ase N) customs i,
  List.length (as_positions o) = List.length (as_symbols o) ->
  read_inputfile_as T raw raw' inv ar s0 (tx "ase") keys (SAse o) = Ok (s, customs) ->
  (0 <= i < Z.of_nat (List.length (as_positions o)))%Z ->
  exists a, get_atom s i = Ok a /\ set_atom s a = Ok s.
Proof.
  intros N T raw raw' inv ar s0 s keys o customs i HL H Hi.
  destruct (C60_system N T raw raw' inv ar s0 s keys o customs HL H) as (l & G1 & G2 & G3 & _ & (gh & G5) & G6).
  destruct (nth_error l (Z.to_nat i)) as [a|] eqn:Ea; [|apply nth_error_None in Ea; lia].
  destruct (nth_error customs (Z.to_nat i)) as [d|] eqn:Ed; [|apply nth_error_None in Ed; lia].
  assert (GA : get_atom s i = Ok a).
  { unfold get_atom. destruct (Z.ltb_spec i 0); [lia|]. rewrite G5. unfold get. rewrite nth_error_app1, Ea by lia. reflexivity. }
  exists a. split; [exact GA|]. apply (C13_set_get_atom N s i a GA). destruct (G6 _ a d Ea Ed) as (p & c & _ & _ & _ & _ & _ & W & _). lia.
Qed.
Print Assumptions C13_ase.
