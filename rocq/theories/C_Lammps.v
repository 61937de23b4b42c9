(** Properties C53 and C54, and the readers' part of C13: LAMMPS dump files. *)
From Coq Require Import Reals Lra ZArith List Lia Ascii String.
From Coq.Floats Require Import SpecFloat.
From Verif Require Import Base Num NumR NumF Types Ex M_Geometry M_Container M_Crystal M_Text M_Lammps
  S_Container S_Crystal S_Lammps P_Text P_Container P_Lammps P_Round P_LammpsSys C_Container C_Crystal.
Import ListNotations.
Close Scope R_scope. Close Scope Z_scope.
#[local] Open Scope nat_scope.

(** Values of columns for the examples: texts. *)
Definition no_attr {N : num} (a : atom N) (k : text) : option text := None.
Definition num_text {N : num} (x : N) : text := tx "?".
Definition w_atom (N : num) (id ty x y z : Z) : atom N := atom_ctor (raw_atom N) (zv N x y z) id ty.
Definition w_sys (N : num) : sys N :=
  set_atoms (sbox (sys_ctor (raw_sys N)) (diag (N := N) (nofZ 10) (nofZ 11) (nofZ 12)))
    [w_atom N 7 1 0 2 3; w_atom N 3 2 1 5 4].

(** ** C53 *)
(** In any arithmetic of the model, reals or doubles: the file read has the
    atoms, and the box lengths, written in six decimals. *)
Theorem C53_round_trip_real :
  forall raw raw' inv (V : Type) (astype : list V -> list text) of_text of_num getattr
    (s s0 : sys Rnum) l customs keys vals ts texts (b := box_get s),
  get_atoms s = Ok l -> l <> [] -> List.length customs = List.length l -> good_keys keys ->
  column_texts astype of_text keys vals customs texts ->
  (1 / 1000000 <= row_length (r0 b))%R -> (1 / 1000000 <= row_length (r1 b))%R -> (1 / 1000000 <= row_length (r2 b))%R ->
  s_actual s0 = None ->
  exists f s' l' customs' x' y' z',
    write_snap R_text astype of_text of_num getattr s customs keys vals ts = Ok f /\
    read_inputfile R_text raw raw' inv s0 keys (lines (univ f)) = Ok (s', customs') /\
    get_atoms s' = Ok l' /\ same_atoms six_decimals keys texts l l' customs' /\
    box_get s' = diag (N := Rnum) x' y' z' /\
    six_decimals (row_length (r0 b)) x' /\ six_decimals (row_length (r1 b)) y' /\ six_decimals (row_length (r2 b)) z'.
Proof.
  intros raw raw' inv V astype of_text of_num getattr s s0 l customs keys vals ts texts b.
  exact (@system_back raw raw' inv V astype of_text of_num getattr s s0 l customs keys vals ts texts).
Qed.
Print Assumptions C53_round_trip_real.

Theorem C53_round_trip_double :
  forall (L : libm) raw inv (V : Type) (astype : list V -> list text) of_text of_num getattr
    (s : sys (SF64 L)) l customs keys vals ts texts,
  get_atoms s = Ok l -> List.length customs = List.length l -> good_keys keys ->
  column_texts astype of_text keys vals customs texts ->
  exists f atoms box,
    write_snap (SF_text L) astype of_text of_num getattr s customs keys vals ts = Ok f /\
    read_snap (SF_text L) raw inv keys f = Ok (atoms, box, false) /\
    same_atoms (N := SF64 L) six_decimals_F keys texts l (map fst atoms) (map snd atoms) /\
    (exists x y z : spec_float, box = diag (N := SF64 L) (sf_sub x (S754_zero false)) (sf_sub y (S754_zero false)) (sf_sub z (S754_zero false)) /\
       six_decimals_F (vlen (r0 (box_get s))) x /\ six_decimals_F (vlen (r1 (box_get s))) y /\ six_decimals_F (vlen (r2 (box_get s))) z).
Proof.
  intros L raw inv V astype of_text of_num getattr s l customs keys vals ts texts HG HL GK HC.
  assert (S6 : forall x : spec_float, six_decimals_F x (six (SF_text L) (x : SF64 L))).
  { intros [sx|sx| |sx m e]; try reflexivity. intros Hb. apply (sf_six sx m e Hb). }
  destruct (@write_read (SF64 L) (SF_text L) raw inv (sf_dec_ok 6) V astype of_text of_num getattr s l customs keys vals ts texts HG HL GK HC) as (f & E1 & E2).
  destruct (@gots_same (SF64 L) (SF_text L) raw keys l texts 9) as ((A1 & A2 & A3) & _ & _); [destruct HC as (C1 & _); congruence|].
  exists f, (gots (SF_text L) raw keys 9 l texts), (read_box (SF_text L) (box_get s)).
  split; [exact E1|]. split; [exact E2|]. split.
  - split; [exact A1|]. split; [exact A2|]. intros i a Hi. destruct (A3 i a Hi) as (a' & c & r & B1 & B2 & B3 & B4 & B5 & B6 & B7 & B8 & B9).
    exists a', c, r. rewrite B6, B7, B8. repeat (split; [first [assumption|apply S6]|]). exact B9.
  - exists (six (SF_text L) (vlen (r0 (box_get s)))), (six (SF_text L) (vlen (r1 (box_get s)))), (six (SF_text L) (vlen (r2 (box_get s)))).
    split; [reflexivity|]. split; [apply S6|split; apply S6].
Qed.
Print Assumptions C53_round_trip_double.

Definition w_keys : list text := [tx "vx"; tx "c_pe"].
Definition w_texts : list (list text) := [[tx "0.5"; tx "-3.25e2"]; [tx "nan"; tx "one"]].
Example C53_hyp_keys : good_keys w_keys /\ column_texts (fun r : list text => r) (fun t => t) w_keys (Some w_texts) [[]; []] w_texts /\
  column_texts (fun r : list text => r) (fun t => t) w_keys None (map (combine w_keys) w_texts) w_texts.
Proof.
  assert (W : forall w, In w (w_keys ++ concat w_texts) -> is_word w).
  { assert (B : forallb (fun w => negb (Nat.eqb (List.length w) 0) && forallb (fun c => negb (blank c)) w)%bool (w_keys ++ concat w_texts) = true) by (vm_compute; reflexivity).
    rewrite forallb_forall in B. intros w Hw. apply B in Hw. apply andb_prop in Hw. destruct Hw as [H1 H2]. split; [intros ->; discriminate|].
    intros c Hc. rewrite forallb_forall in H2. apply H2 in Hc. destruct (blank c); [discriminate|reflexivity]. }
  assert (F : Forall (fun r : list text => Forall is_word r /\ List.length r = List.length w_keys) w_texts).
  { apply Forall_cons; [|apply Forall_cons; [|constructor]]; (split; [|reflexivity]); apply Forall_forall; intros w Hw; apply W; cbn in *; tauto. }
  split; [|split].
  - split; [apply Forall_forall; intros w Hw; apply W, in_or_app; left; exact Hw|]. split.
    + apply NoDup_cons; [cbn; intros [H|[]]; discriminate|]. apply NoDup_cons; [intros []|constructor].
    + intros k [<-|[<-|[]]] H; cbn in H; intuition discriminate.
  - split; [reflexivity|]. split; [exact F|]. right. split; [discriminate|]. split; [repeat constructor|reflexivity].
  - split; [reflexivity|]. split; [exact F|]. right. repeat constructor.
    all: intros [|[|j]] k t H1 H2; try (injection H1 as <-; injection H2 as <-; reflexivity). all: destruct j; discriminate.
Qed.
Lemma w_atoms (N : num) : get_atoms (w_sys N) = Ok [w_atom N 7 1 0 2 3; w_atom N 3 2 1 5 4].
Proof.
  unfold w_sys. set (s := sbox _ _). rewrite <- (app_nil_r [_; _]). apply set_atoms_counters; [|intros a []].
  intros a [<-|[<-|[]]]; reflexivity.
Qed.
Lemma box_set_atoms (N : num) (s : sys N) l : box_get (set_atoms s l) = box_get s.
Proof. reflexivity. Qed.
Lemma box_sbox (N : num) (s : sys N) b : s_actual s = None -> box_get (sbox s b) = b.
Proof. intros H. unfold box_get, sbox. cbn. rewrite H. reflexivity. Qed.
Lemma w_box (N : num) : box_get (w_sys N) = diag (N := N) (nofZ 10) (nofZ 11) (nofZ 12).
Proof. unfold w_sys. rewrite box_set_atoms. apply box_sbox. reflexivity. Qed.
Example C53_hyp_sys : (exists l, get_atoms (w_sys Rnum) = Ok l /\ l <> [] /\ List.length l = 2) /\
  s_actual (sys_ctor (raw_sys Rnum)) = None /\
  (1 / 1000000 <= row_length (r0 (box_get (w_sys Rnum))))%R /\ (1 / 1000000 <= row_length (r1 (box_get (w_sys Rnum))))%R /\
  (1 / 1000000 <= row_length (r2 (box_get (w_sys Rnum))))%R.
Proof.
  rewrite w_atoms, w_box. split; [eexists; split; [reflexivity|split; [discriminate|reflexivity]]|]. split; [reflexivity|].
  unfold row_length, diag. cbn [r0 r1 r2 vx vy vz]. rnum. rewrite !Rmult_0_l, !Rplus_0_r, !Rplus_0_l, !sqrt_square; lra.
Qed.
(** The text of a file, and what is read from it. *)
Example C53_file :
  match write_snap (SF_text libm_test) (fun r => r) (fun t => t) num_text no_attr (w_sys F64) [[]; []] w_keys (Some w_texts) 5 with
  | Ok f => string_of_list_ascii f
  | Err _ => ""%string
  end =
  String.concat (String "010" "") ["ITEM: TIMESTEP"; "5"; "ITEM: NUMBER OF ATOMS"; "2"; "ITEM: BOX BOUNDS"; "0.000000 10.000000"; "0.000000 11.000000";
    "0.000000 12.000000"; "ITEM: ATOMS id type x y z vx c_pe"; "7 1 0.000000 2.000000 3.000000 0.5 -3.25e2"; "3 2 1.000000 5.000000 4.000000 nan one"; ""]%string.
Proof. vm_compute. reflexivity. Qed.

(** A custom key named like a standard column hides it: the positions are those
    of the custom column. *)
Definition position_of {N : num} (a : atom N) : N := vx (a_pos a).
Theorem C53_key_refuted :
  exists (keys : list text) (texts : list (list text)) (f : text) (atoms : list (catom F64)) box (l : list (atom F64)),
    Forall is_word keys /\ NoDup keys /\ column_texts (fun r => r) (fun t => t) keys (Some texts) [[]; []] texts /\
    write_snap (SF_text libm_test) (fun r => r) (fun t => t) num_text no_attr (w_sys F64) [[]; []] keys (Some texts) 0 = Ok f /\
    read_snap (SF_text libm_test) (fun _ => raw_atom F64) (fun _ => None) keys f = Ok (atoms, box, false) /\
    get_atoms (w_sys F64) = Ok l /\ map position_of l = [nofZ 0; nofZ 1] /\ map (fun c => position_of (fst c)) atoms = [nofZ 8; nofZ 9].
Proof.
  set (keys := [tx "x"]). set (texts := [[tx "8.0"]; [tx "9.0"]]).
  assert (C : match write_snap (SF_text libm_test) (fun r => r) (fun t => t) num_text no_attr (w_sys F64) [[]; []] keys (Some texts) 0 with
              | Ok f => match read_snap (SF_text libm_test) (fun _ => raw_atom F64) (fun _ => None) keys f with
                        | Ok (atoms, _, false) => map (fun c : catom F64 => vx (a_pos (fst c)) : spec_float) atoms
                        | _ => [] end
              | Err _ => [] end = [nofZ (n := F64) 8; nofZ (n := F64) 9] :> list spec_float) by (vm_compute; reflexivity).
  exists keys, texts.
  destruct (write_snap (SF_text libm_test) (fun r => r) (fun t => t) num_text no_attr (w_sys F64) [[]; []] keys (Some texts) 0) as [f|]; [|discriminate].
  destruct (read_snap (SF_text libm_test) (fun _ => raw_atom F64) (fun _ => None) keys f) as [[[atoms box] [|]]|] eqn:E; try discriminate.
  exists f, atoms, box, [w_atom F64 7 1 0 2 3; w_atom F64 3 2 1 5 4].
  assert (WX : forall t, In t [tx "x"; tx "8.0"; tx "9.0"] -> is_word t).
  { assert (B : forallb (fun w => negb (Nat.eqb (List.length w) 0) && forallb (fun c => negb (blank c)) w)%bool [tx "x"; tx "8.0"; tx "9.0"] = true) by (vm_compute; reflexivity).
    rewrite forallb_forall in B. intros w Hw. apply B in Hw. apply andb_prop in Hw. destruct Hw as [H1 H2]. split; [intros ->; discriminate|].
    intros c Hc. rewrite forallb_forall in H2. apply H2 in Hc. destruct (blank c); [discriminate|reflexivity]. }
  split; [apply Forall_cons; [apply WX; left; reflexivity|constructor]|].
  split; [apply NoDup_cons; [intros []|constructor]|].
  split.
  { split; [reflexivity|]. split.
    - apply Forall_cons; [|apply Forall_cons; [|constructor]]; (split; [|reflexivity]); (apply Forall_cons; [|constructor]); apply WX; cbn; tauto.
    - right. split; [discriminate|]. split; [repeat constructor|reflexivity]. }
  split; [reflexivity|]. split; [exact E|]. split; [apply w_atoms|]. split; [reflexivity|]. exact C.
Qed.
Print Assumptions C53_key_refuted.

(** A value with a blank is cut: its text is not preserved. *)
Theorem C53_blank_refuted :
  exists (keys : list text) (texts : list (list text)) (f : text) (atoms : list (catom F64)) box,
    good_keys keys /\ texts = [[tx "a b"]; [tx "c"]] /\
    write_snap (SF_text libm_test) (fun r => r) (fun t => t) num_text no_attr (w_sys F64) [[]; []] keys (Some texts) 0 = Ok f /\
    read_snap (SF_text libm_test) (fun _ => raw_atom F64) (fun _ => None) keys f = Ok (atoms, box, false) /\
    map snd atoms = map (combine keys) [[tx "a"]; [tx "c"]].
Proof.
  set (keys := [tx "k"]). set (texts := [[tx "a b"]; [tx "c"]]).
  assert (C : match write_snap (SF_text libm_test) (fun r => r) (fun t => t) num_text no_attr (w_sys F64) [[]; []] keys (Some texts) 0 with
              | Ok f => match read_snap (SF_text libm_test) (fun _ => raw_atom F64) (fun _ => None) keys f with
                        | Ok (atoms, _, false) => map snd atoms
                        | _ => [] end
              | Err _ => [] end = map (combine keys) [[tx "a"]; [tx "c"]]) by (vm_compute; reflexivity).
  exists keys, texts.
  destruct (write_snap (SF_text libm_test) (fun r => r) (fun t => t) num_text no_attr (w_sys F64) [[]; []] keys (Some texts) 0) as [f|]; [|discriminate].
  destruct (read_snap (SF_text libm_test) (fun _ => raw_atom F64) (fun _ => None) keys f) as [[[atoms box] [|]]|] eqn:E; try discriminate.
  exists f, atoms, box. split; [|split; [reflexivity|split; [reflexivity|split; [exact E|exact C]]]].
  split; [apply Forall_cons; [split; [discriminate|intros c [<-|[]]; reflexivity]|constructor]|].
  split; [apply NoDup_cons; [intros []|constructor]|]. intros k [<-|[]] H; cbn in H; intuition discriminate.
Qed.
Print Assumptions C53_blank_refuted.

(** A system without atoms is written, and its file cannot be read. *)
Theorem C53_empty_refuted :
  forall raw raw' inv (V : Type) (astype : list V -> list text) of_text of_num getattr (s s0 : sys Rnum) keys ts,
  get_atoms s = Ok [] -> good_keys keys ->
  exists f, write_snap R_text astype of_text of_num getattr s [] keys None ts = Ok f /\
    read_inputfile R_text raw raw' inv s0 keys (lines (univ f)) = Err ZeroDivisionError.
Proof.
  intros raw raw' inv V astype of_text of_num getattr s s0 keys ts.
  exact (@empty_back raw raw' inv V astype of_text of_num getattr s s0 keys ts).
Qed.
Print Assumptions C53_empty_refuted.
Example C53_empty_hyp : get_atoms (sys_ctor (raw_sys Rnum)) = Ok [] /\ good_keys [].
Proof. split; [reflexivity|]. split; [constructor|]. split; [constructor|intros k []]. Qed.

(** ** C54 *)
(** A file of snapshots of [n + 9] lines each and an incomplete rest: one file
    for each snapshot, with exactly its lines, under distinct names. *)
Theorem C54_split :
  forall infile content snaps rest n fourth,
  file_lines content (concat snaps ++ rest) -> ~ In "013"%char content ->
  nth_error (concat snaps ++ rest) 3 = Some fourth -> parse_int fourth = Ok n -> (-7 <= n)%Z ->
  Forall (fun b => Z.of_nat (List.length b) = n + 9)%Z snaps -> (Z.of_nat (List.length rest) < n + 9)%Z ->
  exists files, split_snaps infile content = Ok files /\
    map snd files = map (fun b => concat b) snaps /\ NoDup (map fst files) /\
    content = concat (map snd files) ++ concat rest.
Proof.
  intros infile content snaps rest n fourth HF HC H4 Hn Hl HB HR.
  unfold split_snaps. rewrite (univ_id _ HC), (file_lines_lines HF), (pre_read_nth H4), Hn. cbn [bind].
  rewrite split_blocks by (lia || assumption). eexists. split; [reflexivity|].
  assert (E : forall (A B : Type) (g : A -> B) (l : list A) k, map (fun p : nat * A => g (snd p)) (combine (seq k (List.length l)) l) = map g l).
  { intros A B g l. induction l as [|x l IH]; intros k; [reflexivity|]. cbn [List.length seq combine map snd]. rewrite IH. reflexivity. }
  set (files := map _ (combine _ _)).
  assert (M : map snd files = map (fun b => concat b) snaps) by (unfold files; rewrite map_map; apply (E (list text) text (fun b => concat b))).
  split; [exact M|]. split.
  - assert (E' : map fst files = map (fun i => snap_name infile (Z.of_nat i)) (seq 0 (List.length snaps))).
    { unfold files. rewrite map_map. cbn [fst]. generalize 0. clear. induction snaps as [|b snaps IH]; intros k; [reflexivity|]. cbn [List.length seq combine map fst]. f_equal. apply IH. }
    enough (X : NoDup (map (fun i => snap_name infile (Z.of_nat i)) (seq 0 (List.length snaps)))) by (rewrite <- E' in X; exact X).
    apply FinFun.Injective_map_NoDup; [|apply seq_NoDup]. intros i j H. apply snap_name_inj in H. lia.
  - assert (CC : forall l : list (list (list ascii)), concat (concat l) = concat (map (fun b => concat b) l)).
    { clear. induction l as [|b l IH]; [reflexivity|]. cbn [concat map]. rewrite concat_app, IH. reflexivity. }
    destruct HF as [-> _]. rewrite concat_app. f_equal. transitivity (concat (map (fun b => concat b) snaps)); [apply CC|]. rewrite <- M. reflexivity.
Qed.
Print Assumptions C54_split.

(** Files of fewer than four lines raise an error. *)
Theorem C54_short :
  forall infile content, ~ In "013"%char content -> List.length (lines content) < 4 -> split_snaps infile content = Err NameError.
Proof. intros infile content HC HL. unfold split_snaps. rewrite (univ_id _ HC), (pre_read_short HL). reflexivity. Qed.
Print Assumptions C54_short.

Definition dump_lines (ts : string) (atoms : list string) : list string :=
  ["ITEM: TIMESTEP"; ts; "ITEM: NUMBER OF ATOMS"; " 2 "; "ITEM: BOX BOUNDS"; "0 1"; "0 1"; "0 1"; "ITEM: ATOMS id type x y z"]%string ++ atoms.
Definition ended (eol : list ascii) (s : string) : text := tx s ++ eol.
Definition d_snaps (eol : list ascii) : list (list text) :=
  map (fun p => map (ended eol) (dump_lines (fst p) (snd p))) [("0", ["1 1 0 0 0"; "2 1 1 1 1"]); ("10", ["2 1 1 1 1"; "1 1 0 0 0.5"])]%string.
Definition d_rest (eol : list ascii) : list text := map (ended eol) ["ITEM: TIMESTEP"; "20"]%string ++ [tx "ITEM: NUM"].
Example C54_hyp :
  file_lines (concat (concat (d_snaps [nl]) ++ d_rest [nl])) (concat (d_snaps [nl]) ++ d_rest [nl]) /\
  ~ In "013"%char (concat (concat (d_snaps [nl]) ++ d_rest [nl])) /\
  nth_error (concat (d_snaps [nl]) ++ d_rest [nl]) 3 = Some (ended [nl] " 2 ") /\ parse_int (ended [nl] " 2 ") = Ok 2%Z /\
  Forall (fun b => Z.of_nat (List.length b) = 2 + 9)%Z (d_snaps [nl]) /\ (Z.of_nat (List.length (d_rest [nl])) < 2 + 9)%Z.
Proof.
  split; [|split; [|split; [reflexivity|split; [reflexivity|split; [repeat constructor|reflexivity]]]]].
  - pose proof (file_lines_of (concat (concat (d_snaps [nl]) ++ d_rest [nl]))) as H.
    assert (E : lines (concat (concat (d_snaps [nl]) ++ d_rest [nl])) = concat (d_snaps [nl]) ++ d_rest [nl]) by (vm_compute; reflexivity).
    rewrite E in H. exact H.
  - intros H. assert (B : existsb (Ascii.eqb "013") (concat (concat (d_snaps [nl]) ++ d_rest [nl])) = false) by (vm_compute; reflexivity).
    apply Bool.not_true_iff_false in B. apply B. apply existsb_exists. exists "013"%char. split; [exact H|reflexivity].
Qed.

(** Lines ended by carriage return and newline are rewritten: the files are not
    the parts of the trajectory. *)
Theorem C54_crlf_refuted :
  exists content files, content = concat (concat (d_snaps [cr; nl])) /\ split_snaps (tx "t") content = Ok files /\
    List.length files = 2 /\ concat (map snd files) <> content /\
    concat (map snd files) = concat (concat (d_snaps [nl])).
Proof.
  set (content := concat (concat (d_snaps [cr; nl]))). set (out := concat (concat (d_snaps [nl]))).
  assert (C : match split_snaps (tx "t") content with Ok files => (List.length files, concat (map snd files)) | Err _ => (0, []) end
    = (2, out)) by (vm_compute; reflexivity).
  assert (D : Nat.eqb (List.length out) (List.length content) = false) by (vm_compute; reflexivity).
  destruct (split_snaps (tx "t") content) as [files|] eqn:E; [|discriminate]. exists content, files.
  pose proof (f_equal fst C) as C1. pose proof (f_equal snd C) as C2. cbn [fst snd] in C1, C2.
  split; [reflexivity|]. split; [exact E|]. split; [exact C1|]. split; [|exact C2].
  intros K. assert (K' : out = content) by (rewrite <- C2; exact K). rewrite K', Nat.eqb_refl in D. discriminate.
Qed.
Print Assumptions C54_crlf_refuted.

(** ** C13: where the atoms come from *)
(** Atoms of make_crystal know their place.  C52_example gives a crystal and a
    system meeting the hypotheses. *)
Theorem C13_crystal :
  forall (N : num) raw raw' inv normal name bs (a ca noise : N) (nx ny nz : Z) rest atoms box (s s' : sys N),
  In (name, bs) basis -> make_crystal raw normal name a (Some (nx :: ny :: nz :: rest)) ca noise = Ok (atoms, box) ->
  atoms_set inv raw' s atoms = Ok s' ->
  forall i, (0 <= i < Z.of_nat (List.length atoms))%Z -> exists x, get_atom s' i = Ok x /\ set_atom s' x = Ok s'.
Proof.
  intros N raw raw' inv normal name bs a ca noise nx ny nz rest atoms box s s' HB E HS i Hi.
  destruct (@C51_atoms N raw normal name bs a ca noise nx ny nz rest HB) as (atoms' & box' & E' & H). rewrite E' in E. injection E as -> ->.
  cbv zeta in H. destruct H as (H1 & _ & H3 & _ & H5). destruct (atoms_set_spec H5 HS) as (gh & G & _).
  destruct (nth_error atoms (Z.to_nat i)) as [x|] eqn:Ex; [|apply nth_error_None in Ex; lia].
  assert (GA : get_atom s' i = Ok x).
  { unfold get_atom. destruct (Z.ltb_spec i 0); [lia|]. rewrite G. unfold get. rewrite nth_error_app1, Ex by lia. reflexivity. }
  exists x. split; [exact GA|]. apply (C13_set_get_atom N s' i x GA).
  assert (K : nth_error (map (@a_loc N) atoms) (Z.to_nat i) = Some (a_loc x)) by (apply map_nth_error; exact Ex).
  rewrite H3, <- H1, nth_error_map in K. rewrite (nth_error_nth' _ 0) in K by (rewrite seq_length; lia).
  rewrite seq_nth in K by lia. injection K as K. lia.
Qed.
Print Assumptions C13_crystal.

(** Atoms of a dump file carry the index of the next atom: writing one back
    overwrites the next one, or is outside the stored atoms. *)
Theorem C13_lammps_refuted :
  forall (N : num) (T : textnum N) raw raw' inv (s0 s' : sys N) keys f cs i a,
  read_inputfile T raw raw' inv s0 keys f = Ok (s', cs) -> (0 <= i < s_real s')%Z -> get_atom s' i = Ok a ->
  if (i + 1 <? s_nop s')%Z then
    exists s'', set_atom s' a = Ok s'' /\ get_atom s'' (i + 1) = Ok a /\ (forall j, j <> (i + 1)%Z -> get_atom s'' j = get_atom s' j)
  else set_atom s' a = Err UB.
Proof.
  intros N T raw raw' inv s0 s' keys f cs i a H Hi Ha. destruct (inputfile_locs H (proj2 Hi) Ha) as [L1 L2].
  rewrite L2. apply (@set_atom_at N s' a (i + 1)%Z L1). lia.
Qed.
Print Assumptions C13_lammps_refuted.
Example C13_lammps_hyp :
  match write_snap (SF_text libm_test) (fun r => r) (fun t => t) num_text no_attr (w_sys F64) [[]; []] [] None 5 with
  | Ok f => match read_inputfile (SF_text libm_test) (fun _ => raw_atom F64) (fun _ => raw_atom F64) (fun _ => None) (sys_ctor (raw_sys F64)) [] (lines (univ f)) with
            | Ok (s', _) =>
                match get_atom s' 0, get_atom s' 1 with
                | Ok a, Ok b =>
                    match set_atom s' a with
                    | Ok s'' => match get_atom s'' 1 with Ok c => (s_real s', a_id a, a_id b, a_id c) | Err _ => (0, 0, 0, 0)%Z end
                    | Err _ => (0, 0, 0, 0)%Z end
                | _, _ => (0, 0, 0, 0)%Z end
            | Err _ => (0, 0, 0, 0)%Z end
  | Err _ => (0, 0, 0, 0)%Z end = (2, 7, 3, 7)%Z.
Proof. vm_compute. reflexivity. Qed.
