(** Theorems C55, C56, C57 and C58: trajectories and time slices. *)
From Coq Require Import Reals Ascii String Lia Sorted Permutation.
From Coq.Floats Require Import SpecFloat.
From Verif Require Import Base Num NumR NumF NumP Types M_Geometry M_Container M_Analysis M_Text M_Lammps M_Traj.
From Verif Require Import P_Text P_Neighbors P_Lammps P_LammpsSys P_Traj P_Export P_ExportNum P_TrajFile S_Lammps S_Traj.
Close Scope R_scope.
Local Open Scope Z_scope.

(** Two snapshots of two atoms, and one stray line. *)
Definition nln : string := String "010" "".
Definition snap (ts x : string) : text :=
  tx ("ITEM: TIMESTEP" ++ nln ++ ts ++ nln ++ "ITEM: NUMBER OF ATOMS" ++ nln ++ "2" ++ nln ++ "ITEM: BOX BOUNDS pp pp pp" ++ nln
      ++ "0.0 4.0" ++ nln ++ "0.0 5.0" ++ nln ++ "0.0 6.0" ++ nln ++ "ITEM: ATOMS id type x y z" ++ nln
      ++ "1 1 " ++ x ++ " 0.5 0.5" ++ nln ++ "2 3 2.5 1.5 0.25" ++ nln)%string.
Definition w_file : text := snap "7" "0.5" ++ snap "8" "0.75" ++ snap "9" "1.0".
Definition w_stray : text := w_file ++ tx "stray".
Definition w_traj : res (traj P64) := traj_open P64 w_file.
(** A text of a double for these examples. *)
Definition w_repr (x : P64) : text := show_float (P_text libm_test) 6 x.

(** ** C55: trajectory blocks partition the file *)
(** For every file whose fourth line holds a natural number. *)
Theorem C55_blocks : forall (N : num) content ls l n,
  file_lines content ls -> nth_error ls 3 = Some l -> parse_int l = Ok n -> 0 <= n ->
  exists t, traj_open N content = Ok t /\ t_natoms t = n /\ t_nblocks t = Z.of_nat (List.length ls) / (n + 9) /\
    (forall i, 0 <= i < t_nblocks t -> get_block t i = Ok (snapshot (Z.to_nat (n + 9)) (Z.to_nat i) ls)) /\
    exists rest, ls = concat (map (fun i => snapshot (Z.to_nat (n + 9)) i ls) (seq 0 (Z.to_nat (t_nblocks t)))) ++ rest /\
      (List.length rest < Z.to_nat (n + 9))%nat.
Proof.
  intros N content ls l n HF H3 Hn Hp. apply file_lines_lines in HF. subst ls. destruct (@open_at N content l n H3 Hn) as (t & Ht & H1 & H2 & H4 & H5); [lia|].
  assert (F : of_file content t) by (apply traj_open_of_file; [exact Ht|lia]). exists t. split; [exact Ht|]. split; [exact H1|]. split; [exact H4|]. split.
  - intros i Hi. rewrite <- H2. apply get_block_in; assumption.
  - set (len := Z.of_nat (List.length (lines content))) in *. pose proof (Z.div_mod len (n + 9)) as D. pose proof (Z.mod_pos_bound len (n + 9)) as M. specialize (D ltac:(lia)). specialize (M ltac:(lia)).
    assert (NN : 0 <= len / (n + 9)) by (apply Z.div_pos; lia). assert (EQ : Z.of_nat (Z.to_nat (len / (n + 9)) * Z.to_nat (n + 9)) = len / (n + 9) * (n + 9)) by (rewrite Nat2Z.inj_mul, !Z2Nat.id by lia; reflexivity).
    exists (skipn (Z.to_nat (t_nblocks t) * Z.to_nat (n + 9)) (lines content)). rewrite H4. rewrite snapshots_concat by lia. split; [symmetry; apply firstn_skipn|].
    rewrite skipn_length. lia.
Qed.
Example C55_blocks_example : exists l, nth_error (lines w_file) 3 = Some l /\ parse_int l = Ok 2 /\
  (match w_traj with Ok t => (t_nblocks t, match get_block t 1 with Ok b => nth 1 b [] | _ => [] end) | _ => (0, []) end) = (3, tx ("8" ++ nln)).
Proof. exists (tx ("2" ++ nln)). split; [vm_compute; reflexivity|]. split; vm_compute; reflexivity. Qed.

(** Files that cannot be opened. *)
Theorem C55_errors : forall (N : num) content ls, file_lines content ls ->
  ((List.length ls < 4)%nat -> traj_open N content = Err StopIteration) /\
  (forall l e, nth_error ls 3 = Some l -> parse_int l = Err e -> traj_open N content = Err e) /\
  (forall l, nth_error ls 3 = Some l -> parse_int l = Ok (-9) -> traj_open N content = Err ZeroDivisionError).
Proof.
  intros N content ls HF. apply file_lines_lines in HF. subst ls. unfold traj_open. split; [|split].
  - destruct (lines content) as [|? [|? [|? [|? ?]]]]; cbn; intros; try reflexivity. lia.
  - intros l e H1 H2. destruct (lines content) as [|? [|? [|? [|? ?]]]]; try discriminate. cbn in H1. injection H1 as ->. rewrite H2. reflexivity.
  - intros l H1 H2. destruct (lines content) as [|? [|? [|? [|? ?]]]]; try discriminate. cbn in H1. injection H1 as ->. rewrite H2. reflexivity.
Qed.
Example C55_errors_example : lines (tx ("a" ++ nln ++ "b")) = [tx ("a" ++ nln); tx "b"] /\ parse_int (tx "two") = Err ValueError /\ parse_int (tx "-9") = Ok (-9).
Proof. split; [|split]; vm_compute; reflexivity. Qed.

(** A block past the end: the stray lines, padded with empty ones, if there
    are any; an IndexError otherwise. *)
Theorem C55_outside : forall (N : num) content t i, traj_open N content = Ok t -> 0 <= t_natoms t -> t_nblocks t <= i ->
  let bs := Z.to_nat (t_natoms t + 9) in
  let rest := skipn (Z.to_nat i * bs) (lines content) in
  get_block t i = if Nat.eqb (List.length rest) 0 then Err IndexError else Ok (rest ++ repeat [] (bs - List.length rest)).
Proof.
  intros N content t i Ht Hn Hi. destruct (traj_open_inv Ht) as (l & n & _ & _ & _ & E). cbv zeta in E. assert (EB : t_blocksize t = t_natoms t + 9) by (subst t; reflexivity).
  rewrite <- EB. apply get_block_after; [|exact Hi]. apply traj_open_of_file; [exact Ht|]. lia.
Qed.
Example C55_outside_example :
  match traj_open P64 w_stray with Ok t => (t_nblocks t, t_stray t, get_block t 3, get_block t 4) | Err _ => (0, 0, Ok [], Ok []) end
  = (3, 1, Ok (tx "stray" :: repeat [] 10), Err IndexError).
Proof. vm_compute. reflexivity. Qed.
(** Negative numbers count from the end if and only if there are no stray lines
    (for files of at least two different blocks it is another block otherwise). *)
Theorem C55_negative : forall (N : num) content t k, traj_open N content = Ok t -> 0 <= t_natoms t -> t_stray t = 0 -> 0 < k <= t_nblocks t ->
  get_block t (- k) = get_block t (t_nblocks t - k).
Proof.
  intros N content t k Ht Hn H0 Hk. destruct (traj_open_inv Ht) as (l & n & _ & _ & H9 & E). cbv zeta in E. assert (EB : t_blocksize t = t_natoms t + 9) by (subst t; reflexivity).
  assert (F : of_file content t) by (apply traj_open_of_file; [exact Ht|lia]). rewrite (get_block_negative F Hk), (get_block_in F) by lia.
  assert (ES : Z.of_nat (List.length (lines content)) = t_nblocks t * t_blocksize t). { subst t. cbn in *. lia. }
  f_equal. unfold snapshot. f_equal. f_equal. rewrite ES.
  replace (t_nblocks t * t_blocksize t - k * t_blocksize t) with ((t_nblocks t - k) * t_blocksize t) by lia. rewrite Z2Nat.inj_mul by lia. reflexivity.
Qed.
Example C55_negative_example : match w_traj with Ok t => (t_stray t, get_block t (-1)) | Err _ => (1, Ok []) end = (0, Ok (lines (snap "9" "1.0"))).
Proof. vm_compute. reflexivity. Qed.
Theorem C55_negative_refuted : exists content (t : traj P64), traj_open P64 content = Ok t /\ t_nblocks t = 3 /\
  get_block t (-1) <> get_block t 2 /\ exists b, get_block t (-1) = Ok b /\ hd [] b = tx ("9" ++ nln).
Proof.
  assert (E : match traj_open P64 w_stray with Ok t => (t_nblocks t, match get_block t (-1) with Ok b => hd [] b | _ => [] end, match get_block t 2 with Ok b => hd [] b | _ => [] end) | _ => (0, [], []) end
     = (3, tx ("9" ++ nln), tx ("ITEM: TIMESTEP" ++ nln))) by (vm_compute; reflexivity).
  destruct (traj_open P64 w_stray) as [t|] eqn:Et; [|discriminate]. exists w_stray, t. split; [exact Et|].
  destruct (get_block t (-1)) as [b|]; destruct (get_block t 2) as [b2|]; injection E as E1 E2 E3; try discriminate. split; [exact E1|].
  split; [intros K; injection K as ->; rewrite E2 in E3; discriminate|]. exists b. split; [reflexivity|exact E2].
Qed.

(** ** C56: slicing and adding time slices keeps snapshots in order *)
Theorem C56_slice : forall (N : num) content t self a b c, traj_open N content = Ok t -> 0 <= t_natoms t ->
  let s := match c with Some s => s | None => 1 end in
  if s =? 0 then getitem t self (ISlice a b c) = Err ValueError
  else exists l, getitem t self (ISlice a b c) = Ok (mkSlice [self] [l]) /\
    StronglySorted (fun x y => if 0 <? s then x < y else y < x) l /\
    (forall x, In x l <-> selected (t_nblocks t) a b s x) /\
    (forall x, In x l -> get_block t x = Ok (snapshot (Z.to_nat (t_natoms t + 9)) (Z.to_nat x) (lines content))).
Proof.
  intros N content t self a b c Ht Hn s. destruct (traj_open_inv Ht) as (l0 & n & _ & _ & H9 & E). cbv zeta in E. assert (EB : t_blocksize t = t_natoms t + 9) by (subst t; reflexivity).
  assert (F : of_file content t) by (apply traj_open_of_file; [exact Ht|lia]).
  assert (NN : 0 <= t_nblocks t). { destruct F as (_ & _ & F3 & F4 & _). rewrite F4. apply Z.div_pos; lia. }
  pose proof (@getitem_slice N t self a b c NN) as G. cbv zeta in G. fold s in G. destruct (s =? 0); [exact G|]. destruct G as (l & G1 & G2 & G3). exists l. split; [exact G1|]. split; [exact G2|]. split; [exact G3|].
  intros x Hx. rewrite <- EB. apply get_block_in; [exact F|]. apply G3 in Hx. apply Hx.
Qed.
Example C56_slice_example : match w_traj with Ok t => (getitem t 4 (ISlice (Some (-1)) None (Some (-2))), getitem t 4 (ISlice (Some 1) (Some 9) None), getitem t 4 (ISlice None None (Some 0)))
    | Err _ => (Err UB, Err UB, Err UB) end
  = (Ok (mkSlice [4%nat] [[2; 0]]), Ok (mkSlice [4%nat] [[1; 2]]), Err ValueError).
Proof. vm_compute. reflexivity. Qed.

(** The snapshots of a sum of two different objects; every other object stays
    the same. *)
Theorem C56_add : forall h i j a b, i <> j -> nth_error h i = Some a -> nth_error h j = Some b -> slice_ok a -> slice_ok b ->
  exists h' a', add h i j = Ok (h', i) /\ nth_error h' i = Some a' /\ snapshots a' = snapshots a ++ snapshots b /\
    (forall k, k <> i -> nth_error h' k = nth_error h k).
Proof. intros h i j a b H1 H2 H3 H4 H5. destruct (@add_spec h i j a b H1 H2 H3 H4 H5) as (h' & a' & E1 & E2 & _ & E3 & E4). exists h', a'. auto. Qed.
Definition w_heap : heap := [mkSlice [0%nat] [[0; 2]]; mkSlice [1%nat] [[1]]; mkSlice [0%nat] [[]]].
Example C56_add_example : add w_heap 0 1 = Ok ([mkSlice [0%nat; 1%nat] [[0; 2]; [1]]; mkSlice [1%nat] [[1]]; mkSlice [0%nat] [[]]], 0%nat).
Proof. reflexivity. Qed.
(** Any expression over different objects lists their snapshots from left to right. *)
Theorem C56_expression : forall e h, (forall i a, nth_error h i = Some a -> slice_ok a) -> NoDup (leaves e) -> (forall i, In i (leaves e) -> (i < List.length h)%nat) ->
  exists h' r a', eval h e = Ok (h', r) /\ nth_error h' r = Some a' /\
    snapshots a' = concat (map (fun i => snapshots (nth i h (mkSlice [] []))) (leaves e)) /\
    (forall k, ~ In k (leaves e) -> nth_error h' k = nth_error h k).
Proof.
  intros e h H ND HI. destruct (@eval_spec e h H ND) as (h' & r & a' & E1 & _ & E2 & _ & E3 & E4 & _).
  { intros i Hi. specialize (HI i Hi). destruct (nth_error h i) as [a|] eqn:E; [exists a; reflexivity|]. apply nth_error_None in E. lia. }
  exists h', r, a'. split; [exact E1|]. split; [exact E2|]. split; [|exact E4]. rewrite E3. f_equal. apply map_ext_in. intros i Hi.
  rewrite (nth_error_nth' h (mkSlice [] [])) by (apply HI, Hi). reflexivity.
Qed.
Example C56_expression_example : match eval w_heap (Plus (Leaf 2) (Plus (Leaf 1) (Leaf 0))) with Ok (h, r) => option_map snapshots (nth_error h r) | Err _ => None end
  = Some [(1%nat, 1); (0%nat, 0); (0%nat, 2)].
Proof. reflexivity. Qed.
Theorem C56_sum : forall h l, (forall i a, nth_error h i = Some a -> slice_ok a) -> NoDup l -> l <> [] -> (forall i, In i l -> (i < List.length h)%nat) ->
  exists h' a' r, py_sum h l = Ok (h', Some r) /\ nth_error h' r = Some a' /\
    snapshots a' = concat (map (fun i => snapshots (nth i h (mkSlice [] []))) l) /\ (forall k, k <> r -> nth_error h' k = nth_error h k).
Proof.
  intros h l H ND NE HI. destruct (@sum_spec l h H ND NE) as (h' & a' & E1 & E2 & E3 & E4).
  { intros i Hi. specialize (HI i Hi). destruct (nth_error h i) as [a|] eqn:E; [exists a; reflexivity|]. apply nth_error_None in E. lia. }
  destruct l as [|r l]; [congruence|]. exists h', a', r. cbn [hd_error] in *. split; [exact E1|]. split; [apply E2; reflexivity|]. split.
  - rewrite E3. f_equal. apply map_ext_in. intros i Hi. rewrite (nth_error_nth' h (mkSlice [] [])) by (apply HI, Hi). reflexivity.
  - intros k Hk. apply E4. congruence.
Qed.
Example C56_sum_example : match py_sum w_heap [1; 0]%nat with Ok (h, Some r) => option_map snapshots (nth_error h r) | _ => None end = Some [(1%nat, 1); (0%nat, 0); (0%nat, 2)].
Proof. reflexivity. Qed.
(** Adding alters the left operand, always. *)
Theorem C56_operand_refuted : forall h i j a b, i <> j -> nth_error h i = Some a -> nth_error h j = Some b -> slice_ok a -> slice_ok b ->
  exists h', add h i j = Ok (h', i) /\ nth_error h' i <> nth_error h i.
Proof.
  intros h i j a b H1 H2 H3 H4 H5. unfold add. rewrite (at_Ok H2), (at_Ok H3). cbn [bind]. destruct (Nat.eqb_spec i j) as [|_]; [contradiction|]. cbn [andb]. eexists. split; [reflexivity|].
  rewrite nth_error_upd, Nat.eqb_refl, H2. cbn [option_map]. intros K. injection K as K. apply (f_equal (fun s => List.length (sl_trajs s))) in K. cbn [sl_trajs] in K. rewrite app_length in K.
  destruct H5 as [_ NE]. destruct (sl_trajs b); [congruence|]. cbn in K. lia.
Qed.
Example C56_operand_refuted_example : exists h', add w_heap 1 0 = Ok (h', 1%nat) /\ nth_error h' 1 <> nth_error w_heap 1.
Proof. eexists. split; [reflexivity|]. discriminate. Qed.
(** Adding an object to itself, or summing a list that has one twice, does not end. *)
Theorem C56_self_refuted : forall h i a, nth_error h i = Some a -> slice_ok a -> add h i i = Err Diverges /\ py_sum h [i; i] = Err Diverges.
Proof.
  intros h i a H1 H2. assert (E := add_self H1 H2). split; [exact E|]. cbn [py_sum foldM fst snd]. rewrite (at_Ok H1). cbn [bind]. rewrite E. reflexivity.
Qed.
Example C56_self_refuted_example : slice_ok (mkSlice [1%nat] [[1]]) /\ add w_heap 1 1 = Err Diverges.
Proof. split; [split; [reflexivity|discriminate]|reflexivity]. Qed.

(** ** C57: iterating over a trajectory *)
Definition asc := tx "ascending".
Definition desc := tx "descending".
Definition rand := tx "random".
Theorem C57_ascending : forall (N : num) (t : traj N) shuffle n, 0 <= n <= t_nblocks t ->
  exists l, iter_index shuffle t asc (Some n) = Ok l /\ List.length l = Z.to_nat n /\ NoDup l /\ (forall x, In x l -> 0 <= x < t_nblocks t) /\ StronglySorted Z.lt l.
Proof.
  intros N t shuffle n Hn. eexists. split; [reflexivity|]. rewrite range_1. split; [rewrite map_length; apply seq_length|]. split; [apply FinFun.Injective_map_NoDup; [intros a b; lia|apply seq_NoDup]|]. split.
  - intros x Hx. apply in_map_iff in Hx. destruct Hx as (k & <- & Hk). apply in_seq in Hk. lia.
  - apply seq_sorted. intros i j H. lia.
Qed.
Theorem C57_random : forall (N : num) (t : traj N) shuffle n, (forall l, Permutation l (shuffle l)) -> 0 <= n <= t_nblocks t ->
  exists l, iter_index shuffle t rand (Some n) = Ok l /\ List.length l = Z.to_nat n /\ NoDup l /\ (forall x, In x l -> 0 <= x < t_nblocks t).
Proof. intros N t shuffle n Hs Hn. eexists. split; [reflexivity|]. apply (shuffle_take Hs Hn). Qed.
(** Without a number: all blocks. *)
Theorem C57_all : forall (N : num) (t : traj N) shuffle, (forall l, Permutation l (shuffle l)) -> 0 <= t_nblocks t ->
  (exists l, iter_index shuffle t asc None = Ok l /\ forall x, In x l <-> 0 <= x < t_nblocks t) /\
  (exists l, iter_index shuffle t rand None = Ok l /\ NoDup l /\ forall x, In x l <-> 0 <= x < t_nblocks t).
Proof.
  intros N t shuffle Hs HN. assert (R : forall x, In x (py_range 0 (t_nblocks t) 1) <-> 0 <= x < t_nblocks t).
  { intros x. rewrite range_1, in_map_iff. split; [intros (k & <- & Hk); apply in_seq in Hk; lia|]. intros Hx. exists (Z.to_nat x). split; [lia|apply in_seq; lia]. }
  split; [eexists; split; [reflexivity|exact R]|]. eexists. split; [reflexivity|].
  destruct (@shuffle_take shuffle Hs (t_nblocks t) (t_nblocks t)) as (L & ND & _); [lia|]. cbv zeta in *. split; [exact ND|].
  intros x. rewrite <- R. unfold py_take. destruct (Z.ltb_spec (t_nblocks t) 0) as [|_]; [lia|]. rewrite firstn_all2; [split; apply Permutation_in; [apply Permutation_sym|]; apply Hs|].
  rewrite <- (Permutation_length (Hs _)), range_1, map_length, seq_length. lia.
Qed.
(** Asked for more blocks than there are, ascending yields some that do not exist. *)
Theorem C57_ascending_refuted : forall (N : num) (t : traj N) shuffle n, 0 <= t_nblocks t < n ->
  exists l, iter_index shuffle t asc (Some n) = Ok l /\ In (t_nblocks t) l.
Proof. intros N t shuffle n Hn. eexists. split; [reflexivity|]. rewrite range_1. apply in_map_iff. exists (Z.to_nat (t_nblocks t)). split; [lia|apply in_seq; lia]. Qed.
(** Descending starts with the block after the last one and leaves out the first one. *)
Theorem C57_descending_refuted : forall (N : num) (t : traj N) shuffle n, 1 <= n <= t_nblocks t ->
  exists l, iter_index shuffle t desc (Some n) = Ok l /\ hd_error l = Some (t_nblocks t) /\ ~ In 0 l.
Proof.
  intros N t shuffle n Hn. eexists. split; [reflexivity|]. rewrite range_1. split.
  - destruct (Z.to_nat n) as [|k] eqn:E; [lia|]. cbn [seq map hd_error]. f_equal. lia.
  - intros K. apply in_map_iff in K. destruct K as (x & E & K). apply in_map_iff in K. destruct K as (k & <- & K). apply in_seq in K. lia.
Qed.
(** As systems, that first step fails if the file has no stray lines. *)
Theorem C57_descending_system_refuted : forall (N : num) (T : textnum N) content (t : traj N) raw raw' inv fresh shuffle n,
  traj_open N content = Ok t -> 0 <= t_natoms t -> t_stray t = 0 -> 1 <= n ->
  iter_system T raw raw' inv fresh shuffle t desc (Some n) = Err IndexError.
Proof.
  intros N T content t raw raw' inv fresh shuffle n Ht Hn H0 H1. unfold iter_system, iter_index. change (teqb desc (tx "ascending")) with false. change (teqb desc (tx "descending")) with true. cbn [bind].
  rewrite range_1. destruct (Z.to_nat n) as [|k] eqn:E; [lia|]. cbn [seq map mapM]. unfold block_as_system.
  assert (G : get_block t (t_nblocks t - Z.of_nat 0) = Err IndexError).
  { rewrite Z.sub_0_r. destruct (traj_open_inv Ht) as (l & m & _ & _ & H9 & Et). cbv zeta in Et. assert (EB : t_blocksize t = t_natoms t + 9) by (subst t; reflexivity).
    assert (F : of_file content t) by (apply traj_open_of_file; [exact Ht|lia]). rewrite (get_block_after F) by lia. 
    assert (ES : Z.of_nat (List.length (lines content)) = t_nblocks t * t_blocksize t) by (subst t; cbn in *; lia).
    assert (NN : 0 <= t_nblocks t). { destruct F as (_ & _ & F3 & F4 & _). rewrite F4. apply Z.div_pos; lia. }
    rewrite skipn_length. assert (EQ : Z.of_nat (Z.to_nat (t_nblocks t) * Z.to_nat (t_blocksize t)) = t_nblocks t * t_blocksize t) by (rewrite Nat2Z.inj_mul, !Z2Nat.id by lia; reflexivity).
    replace (List.length (lines content) - Z.to_nat (t_nblocks t) * Z.to_nat (t_blocksize t))%nat with 0%nat by lia. reflexivity. }
  rewrite G. reflexivity.
Qed.
Theorem C57_unknown : forall (N : num) (t : traj N) shuffle m n, m <> asc -> m <> desc -> m <> rand -> iter_index shuffle t m n = Err ValueError.
Proof.
  intros N t shuffle m n H1 H2 H3. unfold iter_index. apply teqb_false in H1, H2, H3. unfold asc, desc, rand in *. rewrite H1, H2, H3. reflexivity.
Qed.
Example C57_example : match w_traj with
  | Ok t => (t_nblocks t, t_stray t, t_natoms t, iter_index (@rev Z) t asc (Some 2), iter_index (@rev Z) t rand (Some 2), iter_index (@rev Z) t desc (Some 3), iter_index (@rev Z) t asc (Some 4))
  | Err _ => (0, 0, 0, Err UB, Err UB, Err UB, Err UB) end
  = (3, 0, 2, Ok [0; 1], Ok [2; 1], Ok [3; 2; 1], Ok [0; 1; 2; 3]).
Proof. vm_compute. reflexivity. Qed.
Example C57_oracle_example : forall l : list Z, Permutation l (rev l).
Proof. apply Permutation_rev. Qed.

(** ** C58: exporting time slices reproduces the snapshots *)
(** Whatever was loaded, edited, unloaded or asked for as a dictionary: blocks
    that are not loaded are written byte for byte. *)
Theorem C58_unloaded : forall (N : num) (T : textnum N) repr (env : list (traj N)) s (files : nat -> text) (hist : nat -> list (op N)) (sizes : nat -> nat),
  slice_ok s -> (forall k, In k (sl_trajs s) -> (k < List.length env)%nat) ->
  (forall k x, In (k, x) (snapshots s) -> exists t0 t, traj_open N (files k) = Ok t0 /\ 0 <= t_natoms t0 /\ sizes k = Z.to_nat (t_natoms t0 + 9) /\
     run T t0 (hist k) = Ok t /\ nth_error env k = Some t /\ 0 <= x < t_nblocks t0 /\ is_loaded (t_nblocks t0) x (hist k) false = false) ->
  to_file repr env s = Ok (concat (map (fun p => concat (snapshot (sizes (fst p)) (Z.to_nat (snd p)) (lines (files (fst p))))) (snapshots s))).
Proof.
  intros N T repr env s files hist sizes [HL _] HK HX. apply to_file_unloaded; [exact HL| |].
  - intros k Hk K. apply nth_error_None in K. specialize (HK k Hk). lia.
  - intros k x Hx. destruct (HX k x Hx) as (t0 & t & H1 & H2 & H3 & H4 & H5 & H6 & H7). exists t. split; [exact H5|].
    destruct (traj_open_inv H1) as (l & m & _ & _ & H9 & Et). cbv zeta in Et. assert (EB : t_blocksize t0 = t_natoms t0 + 9) by (subst t0; reflexivity).
    assert (F : of_file (files k) t0) by (apply traj_open_of_file; [exact H1|lia]). destruct (run_spec F H4) as (R1 & R2 & R3 & R4 & R5).
    rewrite H3, <- EB, <- R3. apply unloaded_lines; [exact R1|rewrite R2; exact H6|]. rewrite R5 by exact H6. f_equal. etransitivity; [|exact H7]. f_equal.
    destruct F as (_ & _ & _ & _ & F5 & _). destruct (nth_error (t_load t0) (Z.to_nat x)) as [b|] eqn:E; [|reflexivity]. subst t0. cbn [t_load] in E. apply nth_error_In in E. apply repeat_spec in E. exact E.
Qed.
Definition w_hist : list (op P64) := [OLoad 1; OLoad 0; OEdit 1 (mkBlock (A0 (n1 : P64)) []); OUnload (-2); ODict 2].
Example C58_unloaded_example : match w_traj with
  | Ok t0 => match run (P_text libm_test) t0 w_hist with
             | Ok t => (is_loaded 3 1 w_hist false, is_loaded 3 0 w_hist false, to_file w_repr [t] (mkSlice [0%nat; 0%nat] [[2]; [1]]))
             | Err _ => (true, false, Err UB)
             end
  | Err _ => (true, false, Err UB) end = (false, true, Ok (snap "9" "1.0" ++ snap "8" "0.75")).
Proof. vm_compute. reflexivity. Qed.

(** What is loaded: the columns of the block under their names. *)
Theorem C58_load : forall (N : num) (T : textnum N) content (t : traj N) i (h5 : list text) brows bvals keys arows avals mb,
  traj_open N content = Ok t -> 0 <= t_natoms t -> 0 <= i < t_nblocks t ->
  snapshot (Z.to_nat (t_natoms t + 9)) (Z.to_nat i) (lines content)
    = h5 ++ map (fun ws => join (tx " ") ws ++ [nl]) brows ++ [join (tx " ") (tx "ITEM:" :: tx "ATOMS" :: keys) ++ [nl]] ++ map (fun ws => join (tx " ") ws ++ [nl]) arows ->
  List.length h5 = 5%nat ->
  List.length brows = 3%nat -> (2 <= mb)%nat -> Forall (fun r => List.length r = mb) brows ->
  Forall2 (fun ws vs => Forall plain ws /\ Forall2 (fun w v => parse_float T w = Ok v) ws vs) brows bvals ->
  (2 <= List.length keys)%nat -> NoDup keys -> Forall plain keys ->
  (2 <= List.length arows)%nat -> Forall (fun r => List.length r = List.length keys) arows ->
  Forall2 (fun ws vs => Forall plain ws /\ Forall2 (fun w v => parse_float T w = Ok v) ws vs) arows avals ->
  exists t' dd, load T t i = Ok t' /\ py_get (t_data t') i = Ok (Some dd) /\ py_get (t_load t') i = Ok true /\
    b_box dd = A2 bvals /\
    forall j k, nth_error keys j = Some k -> dget (b_atoms dd) k = Some (map (fun r => nth j r n0) avals).
Proof.
  intros N T content t i h5 brows bvals keys arows avals mb Ht Hn Hi ES L5 L3 M2 FB RB K2 ND PK LA FA RA.
  destruct (traj_open_inv Ht) as (l & m & _ & _ & H9 & Et). cbv zeta in Et. assert (EB : t_blocksize t = t_natoms t + 9) by (subst t; reflexivity).
  assert (F : of_file content t) by (apply traj_open_of_file; [exact Ht|lia]). pose proof F as (_ & _ & _ & _ & F5 & F6).
  pose proof (@block_of_rows N T h5 brows bvals keys arows avals mb L5 L3 M2 FB RB K2 ND PK LA FA RA) as BO.
  set (dd := mkBlock (A2 bvals) (combine keys (transpose (List.length keys) avals))) in *.
  assert (PP : forall A (l : list A) x, List.length l = Z.to_nat (t_nblocks t) -> exists l', py_put l i x = Ok l' /\ py_get l' i = Ok x).
  { intros A0' l' x Ll. unfold py_put. destruct (Z.ltb_spec i 0) as [|_]; [lia|]. destruct (Z.ltb_spec i 0) as [|_]; [lia|]. cbn [orb]. destruct (Z.leb_spec (Z.of_nat (List.length l')) i) as [|_]; [lia|].
    eexists. split; [reflexivity|]. rewrite <- (Z2Nat.id i) at 2 by lia. apply py_get_nat. rewrite nth_error_upd, Nat.eqb_refl. destruct (nth_error l' (Z.to_nat i)) eqn:E; [reflexivity|]. apply nth_error_None in E. lia. }
  destruct (PP _ (t_data t) (Some dd) F6) as (d & D1 & D2). destruct (PP _ (t_load t) true F5) as (ll & E1 & E2).
  exists (set_data t d ll), dd. split.
  - unfold load. rewrite (get_block_in F Hi), EB, ES. cbn [bind]. match goal with |- context [block_of T ?x] => assert (BO' : block_of T x = Ok dd) by exact BO; rewrite BO' end. cbn [bind]. rewrite D1. cbn [bind]. rewrite E1. reflexivity.
  - split; [exact D2|]. split; [exact E2|]. split; [reflexivity|]. intros j k Hk. cbn [dd b_atoms].
    assert (Lj : (j < List.length keys)%nat) by (apply nth_error_Some; congruence).
    assert (G : forall ks (cs : list (list N)) j c, NoDup ks -> nth_error ks j = Some k -> nth_error cs j = Some c -> dget (combine ks cs) k = Some c).
    { clear. induction ks as [|k0 ks IH]; intros [|c0 cs] [|j] c ND H1 H2; try discriminate; cbn in *.
      - injection H1 as ->. injection H2 as ->. rewrite teqb_refl. reflexivity.
      - inversion ND as [|? ? NI ND']; subst. destruct (teqb k k0) eqn:E; [apply teqb_true in E; subst; exfalso; apply NI; apply nth_error_In in H1; exact H1|]. apply (IH _ _ _ ND' H1 H2). }
    apply (G _ _ j); [exact ND|exact Hk|]. unfold transpose. rewrite nth_error_map, (nth_error_nth' _ 0%nat) by (rewrite seq_length; exact Lj). rewrite seq_nth by exact Lj. reflexivity.
Qed.
(** Loaded data (as loaded, or as edited), exported and loaded again: the same
    box and columns, if ids or types and some other column are there, if the
    texts of the numbers read back and if ids and types are integers. *)
Theorem C58_export : forall (N : num) (T : textnum N) repr (t : traj N) i dd n,
  py_get (t_load t) i = Ok true -> py_get (t_data t) i = Ok (Some dd) -> t_natoms t = Z.of_nat n ->
  good_data n dd -> good_numbers T repr dd ->
  exists out t1 t2 dd', blocks_to_file repr t [i] = Ok out /\ traj_open N out = Ok t1 /\ t_natoms t1 = t_natoms t /\ t_nblocks t1 = 1 /\
    load T t1 0 = Ok t2 /\ py_get (t_data t2) 0 = Ok (Some dd') /\ same_data dd' dd.
Proof. intros N T repr t i dd n H1 H2 H3 H4 H5. apply (@export_file N T repr t i dd n); assumption. Qed.
(** Loading gives such data. *)
Theorem C58_loaded_data : forall (N : num) (T : textnum N) content (t t' : traj N) i, traj_open N content = Ok t -> 0 <= t_natoms t -> 0 <= i < t_nblocks t -> load T t i = Ok t' ->
  exists dd, py_get (t_data t') i = Ok (Some dd) /\ py_get (t_load t') i = Ok true /\
    forall rows, b_box dd = A2 rows -> List.length rows = 3%nat ->
    (exists k, int_name k /\ In k (map fst (b_atoms dd))) -> (exists k, ~ int_name k /\ In k (map fst (b_atoms dd))) ->
    exists n, Z.of_nat n <= t_natoms t /\ good_data n dd.
Proof.
  intros N T content t t' i Ht Hn Hi HL. destruct (traj_open_inv Ht) as (l & m & _ & _ & H9 & Et). cbv zeta in Et. assert (EB : t_blocksize t = t_natoms t + 9) by (subst t; reflexivity).
  assert (F : of_file content t) by (apply traj_open_of_file; [exact Ht|lia]). pose proof F as (_ & _ & _ & F4 & F5 & F6).
  unfold load in HL. apply bind_Ok in HL. destruct HL as (data & HG & HL). apply bind_Ok in HL. destruct HL as (dd & HB & HL). apply bind_Ok in HL. destruct HL as (d & Hd & HL). apply bind_Ok in HL. destruct HL as (ll & Hl & HL).
  injection HL as <-. cbn [set_data t_data t_load]. exists dd.
  assert (PG : forall A (l l' : list A) x, List.length l = Z.to_nat (t_nblocks t) -> py_put l i x = Ok l' -> py_get l' i = Ok x).
  { intros A0' l0 l' x Ll P. destruct (py_put_inv P) as (_ & _ & P3). rewrite <- (Z2Nat.id i) by lia. apply py_get_nat. rewrite P3. unfold position. destruct (Z.ltb_spec i 0) as [|_]; [lia|]. rewrite Nat.eqb_refl. reflexivity. }
  split; [apply (PG _ (t_data t)); assumption|]. split; [apply (PG _ (t_load t)); assumption|].
  intros rows E1 E2 E3 E4. eexists. split; [|apply (@loaded_good N T data dd rows HB E1 E2 E3 E4)].
  rewrite (get_block_in F Hi) in HG. injection HG as <-. unfold table.
  assert (FL : forall {A} (p : A -> bool) l, (List.length (filter p l) <= List.length l)%nat). { clear. intros A p. induction l as [|x l IH]; [reflexivity|]. cbn. destruct (p x); cbn; lia. }
  match goal with |- Z.of_nat (List.length (filter ?p ?l)) <= _ => pose proof (FL _ p l) as Q end. rewrite map_length, skipn_length in Q. unfold snapshot in *. rewrite firstn_length in Q. lia.
Qed.
(** Integers up to 2^53 are such ids and types. *)
Theorem C58_integers : (forall z, integral R_text (IZR z : Rnum)) /\ (forall L z, Z.abs z <= 2 ^ 53 -> integral (SF_text L) (nofZ (n := SF64 L) z)).
Proof. split; [apply integral_R|exact integral_SF]. Qed.
(** Several blocks: a file of whole blocks is read back block by block. *)
Theorem C58_blocks_back : forall (N : num) natoms (blocks : list (list text)), 0 <= natoms -> blocks <> [] ->
  Forall (fun b => Z.of_nat (List.length b) = natoms + 9 /\ Forall one_line b /\ nth_error b 3 = Some (show_int natoms ++ [nl])) blocks ->
  exists t, traj_open N (concat (concat blocks)) = Ok t /\ t_nblocks t = Z.of_nat (List.length blocks) /\ t_stray t = 0 /\
    forall k b, nth_error blocks k = Some b -> get_block t (Z.of_nat k) = Ok b.
Proof.
  intros N natoms blocks Hn NE H. apply (@export_many N (Z.to_nat (natoms + 9)) natoms); [lia|exact NE|]. eapply Forall_impl; [|exact H]. intros b (L & O & E). split; [lia|]. auto.
Qed.
(** The time step of a loaded block is written as 0, always. *)
Theorem C58_timestep_refuted : forall (N : num) repr natoms (dd : block N) ls, convert repr natoms dd = Ok ls -> nth_error ls 1 = Some (tx ("0" ++ nln)).
Proof.
  intros N repr natoms dd ls H. unfold convert in H. repeat (apply bind_Ok in H; destruct H as (? & _ & H)). injection H as <-. reflexivity.
Qed.
(** Without other columns no atoms are written. *)
Theorem C58_ids_only_refuted : forall (N : num) repr natoms (dd : block N) rows n, b_box dd = A2 rows -> List.length rows = 3%nat ->
  Forall (fun p => int_name (fst p) /\ List.length (snd p) = n /\ Forall (fun x => neqb (nsub x x) n0 = true) (snd p)) (b_atoms dd) ->
  exists ls, convert repr natoms dd = Ok ls /\ List.length ls = 9%nat.
Proof. intros N repr natoms dd rows n H1 H2 H3. destruct (@convert_no_other N repr natoms dd rows n H1 H3) as (ls & E & L). exists ls. split; [exact E|lia]. Qed.
(** Without ids and types the export fails. *)
Theorem C58_no_ids_refuted : forall (N : num) repr natoms (dd : block N) rows n, b_box dd = A2 rows -> b_atoms dd <> [] -> (0 < n)%nat ->
  Forall (fun p => ~ int_name (fst p) /\ List.length (snd p) = n) (b_atoms dd) -> convert repr natoms dd = Err IndexError.
Proof. intros N repr natoms dd rows n H1 H2 H3 H4. apply (@convert_no_int N repr natoms dd rows n); assumption. Qed.

(** The examples: the block is loaded and written with the same data. *)
Definition w_out : text :=
  tx ("ITEM: TIMESTEP" ++ nln ++ "0" ++ nln ++ "ITEM: NUMBER OF ATOMS" ++ nln ++ "2" ++ nln ++ "ITEM: BOX BOUNDS pp pp pp" ++ nln
      ++ "0.000000 4.000000" ++ nln ++ "0.000000 5.000000" ++ nln ++ "0.000000 6.000000" ++ nln ++ "ITEM: ATOMS id type x y z" ++ nln
      ++ "1 1 0.750000 0.500000 0.500000" ++ nln ++ "2 3 2.500000 1.500000 0.250000" ++ nln)%string.
Example C58_export_example : match w_traj with
  | Ok t => match load (P_text libm_test) t 1 with Ok t' => blocks_to_file w_repr t' [1] | Err e => Err e end
  | Err e => Err e end = Ok w_out.
Proof. vm_compute. reflexivity. Qed.
Definition fz (z : Z) : F64 := nofZ (n := F64) z.
Definition fhalf : F64 := sf_dec (DFin false 5 (-1)).
Definition f_repr (x : F64) : text := show_float (SF_text libm_test) 6 x.
Definition w_dd : block F64 := mkBlock (A2 [[fz 0; fz 4]; [fz 0; fz 5]; [fz 0; fz 6]])
  [(tx "x", [fhalf; fz 2]); (tx "id", [fz 1; fz 2]); (tx "vx", [fz (-3); fhalf]); (tx "type", [fz 1; fz 3])].
Lemma word_dec (w : text) : (match w with [] => false | _ => true end && forallb (fun c => negb (blank c) && negb (Ascii.eqb c "#"))%bool w)%bool = true -> plain w.
Proof.
  intros H. apply Bool.andb_true_iff in H. destruct H as [H1 H2]. rewrite forallb_forall in H2. split; [split; [destruct w; discriminate|]|].
  - intros c Hc. specialize (H2 c Hc). destruct (blank c); [discriminate|reflexivity].
  - intros Hc. specialize (H2 _ Hc). apply Bool.andb_true_iff in H2. destruct H2 as [_ H2]. discriminate.
Qed.
Lemma back_half : reads_back (SF_text libm_test) f_repr fhalf.
Proof. split; [apply word_dec; vm_compute; reflexivity|]. vm_compute. reflexivity. Qed.
Lemma back_int z : In z [0; 2; 4; 5; 6; -3] -> reads_back (SF_text libm_test) f_repr (fz z).
Proof. intros H. cbn [In] in H. repeat (destruct H as [<-|H]; [split; [apply word_dec; vm_compute; reflexivity|]; vm_compute; reflexivity|]). destruct H. Qed.
Example C58_export_hypotheses : good_data 2 w_dd /\ good_numbers (SF_text libm_test) f_repr w_dd.
Proof.
  split.
  - constructor.
    + lia.
    + eexists _, 2%nat. split; [reflexivity|]. split; [reflexivity|]. split; [lia|]. repeat (constructor; [reflexivity|]). constructor.
    + split; [|repeat (constructor; [apply word_dec; reflexivity|]); constructor].
      change (NoDup [tx "x"; tx "id"; tx "vx"; tx "type"]). repeat (constructor; [cbn; intuition discriminate|]). constructor.
    + repeat (constructor; [reflexivity|]). constructor.
    + exists (tx "id"). split; [left; reflexivity|right; left; reflexivity].
    + exists (tx "x"). split; [intros [K|K]; discriminate|left; reflexivity].
  - pose proof back_half as BH. pose proof back_int as BI. split; [|split].
    + intros rows E. injection E as <-. repeat (constructor; [repeat (constructor; [apply BI; cbn; tauto|]); constructor|]). constructor.
    + intros k c H HN. cbn [In b_atoms w_dd] in H. destruct H as [H|[H|[H|[H|[]]]]]; injection H as <- <-.
      * constructor; [exact BH|]. constructor; [apply BI; cbn; tauto|constructor].
      * exfalso. apply HN. left. reflexivity.
      * constructor; [apply BI; cbn; tauto|]. constructor; [exact BH|constructor].
      * exfalso. apply HN. right. reflexivity.
    + intros k c H HI. assert (I : forall z, Z.abs z <= 2 ^ 53 -> integral (SF_text libm_test) (fz z)) by (intros z; apply (proj2 C58_integers libm_test z)).
      cbn [In b_atoms w_dd] in H. destruct H as [H|[H|[H|[H|[]]]]]; injection H as <- <-.
      * exfalso. destruct HI; discriminate.
      * constructor; [apply I; lia|]. constructor; [apply I; lia|constructor].
      * exfalso. destruct HI; discriminate.
      * constructor; [apply I; lia|]. constructor; [apply I; lia|constructor].
Qed.
Definition pdec (m : Z) : P64 := tn_dec (P_text libm_test) (DFin false m (-1)).
Example C58_load_example : match w_traj with
  | Ok t => (t_nblocks t, match snapshot 11 1 (lines w_file) with
      | [a; b; c; d; e; f; g; h; k; l; m] => teqb (f ++ g ++ h ++ k ++ l ++ m)
          (concat (map (fun ws => join (tx " ") ws ++ [nl]) [[tx "0.0"; tx "4.0"]; [tx "0.0"; tx "5.0"]; [tx "0.0"; tx "6.0"]]) ++
           join (tx " ") [tx "ITEM:"; tx "ATOMS"; tx "id"; tx "type"; tx "x"; tx "y"; tx "z"] ++ [nl] ++
           concat (map (fun ws => join (tx " ") ws ++ [nl]) [[tx "1"; tx "1"; tx "0.75"; tx "0.5"; tx "0.5"]; [tx "2"; tx "3"; tx "2.5"; tx "1.5"; tx "0.25"]]))
      | _ => false end,
      match load (P_text libm_test) t 1 with
      | Ok t' => match py_get (t_data t') 1 with
                 | Ok (Some dd) => match dget (b_atoms dd) (tx "y") with Some [u; v] => (neqb u (pdec 5), neqb v (pdec 15)) | _ => (false, false) end
                 | _ => (false, false) end
      | Err _ => (false, false) end)
  | Err _ => (0, false, (false, false)) end = (3, true, (true, true)).
Proof. vm_compute. reflexivity. Qed.
Example C58_blocks_back_example : let b := lines (snap "7" "0.5") in
  Z.of_nat (List.length b) = 2 + 9 /\ nth_error b 3 = Some (show_int 2 ++ [nl]) /\ forallb (fun l => match rev l with c :: r => Ascii.eqb c nl && negb (existsb (Ascii.eqb nl) r) | [] => false end)%bool b = true.
Proof. split; [|split]; vm_compute; reflexivity. Qed.
(** Two blocks of a file without a last newline, in reverse order: the lines
    where they meet are glued together, and only one block is left. *)
Definition w_open_end : text := removelast w_file.
Example C58_glued_example : match traj_open P64 w_open_end with
  | Ok t => match to_file w_repr [t] (mkSlice [0%nat] [[2; 0]]) with
            | Ok out => match traj_open P64 out with Ok t' => (t_nblocks t, t_nblocks t') | _ => (0, 0) end
            | _ => (0, 0) end
  | _ => (0, 0) end = (3, 1).
Proof. vm_compute. reflexivity. Qed.
Example C58_timestep_refuted_example : nth_error (lines w_out) 1 = Some (tx ("0" ++ nln)) /\ nth_error (lines (snap "8" "0.75")) 1 = Some (tx ("8" ++ nln)).
Proof. split; vm_compute; reflexivity. Qed.
Definition w_ids : block F64 := mkBlock (A2 [[fz 0; fz 4]; [fz 0; fz 5]; [fz 0; fz 6]]) [(tx "id", [fz 1; fz 2]); (tx "type", [fz 1; fz 3])].
Definition w_xyz : block F64 := mkBlock (A2 [[fz 0; fz 4]; [fz 0; fz 5]; [fz 0; fz 6]]) [(tx "x", [fz 1; fz 2]); (tx "y", [fz 1; fz 3])].
Example C58_columns_example :
  Forall (fun p => int_name (fst p) /\ List.length (snd p) = 2%nat /\ Forall (fun x => neqb (nsub x x) n0 = true) (snd p)) (b_atoms w_ids) /\
  Forall (fun p => ~ int_name (fst p) /\ List.length (snd p) = 2%nat) (b_atoms w_xyz) /\
  (match convert f_repr 2 w_ids with Ok l => List.length l | Err _ => O end, match convert f_repr 2 w_xyz with Ok _ => None | Err e => Some e end) = (9%nat, Some IndexError).
Proof.
  split; [|split].
  - constructor; [|constructor; [|constructor]]; (split; [first [left; reflexivity | right; reflexivity]|]); (split; [reflexivity|]); repeat (constructor; [vm_compute; reflexivity|]); constructor.
  - constructor; [|constructor; [|constructor]]; (split; [intros [K|K]; discriminate|reflexivity]).
  - vm_compute. reflexivity.
Qed.
(** A block of one atom cannot be loaded. *)
Definition w_single : text :=
  tx ("ITEM: TIMESTEP" ++ nln ++ "7" ++ nln ++ "ITEM: NUMBER OF ATOMS" ++ nln ++ "1" ++ nln ++ "ITEM: BOX BOUNDS pp pp pp" ++ nln
      ++ "0.0 4.0" ++ nln ++ "0.0 5.0" ++ nln ++ "0.0 6.0" ++ nln ++ "ITEM: ATOMS id type x y z" ++ nln ++ "1 1 0.5 0.5 0.5" ++ nln)%string.
Theorem C58_single_refuted : exists content (t : traj P64), traj_open P64 content = Ok t /\ t_nblocks t = 1 /\ t_natoms t = 1 /\ load (P_text libm_test) t 0 = Err IndexError.
Proof.
  assert (E : match traj_open P64 w_single with Ok t => (t_nblocks t, t_natoms t, match load (P_text libm_test) t 0 with Err e => Some e | Ok _ => None end) | _ => (0, 0, None) end = (1, 1, Some IndexError)) by (vm_compute; reflexivity).
  destruct (traj_open P64 w_single) as [t|] eqn:Et; [|discriminate]. exists w_single, t. split; [exact Et|]. destruct (load (P_text libm_test) t 0) as [|e]; [discriminate|]. injection E as -> -> ->. auto.
Qed.
(** Asking for a dictionary throws away edited data: the block is written as it
    was in the file, although it was loaded and edited before. *)
Theorem C58_edit_lost_refuted : exists (t0 : traj P64) b t, w_traj = Ok t0 /\ run (P_text libm_test) t0 [OLoad 1; OEdit 1 b; ODict 1] = Ok t /\
  blocks_to_file w_repr t [1] = Ok (snap "8" "0.75") /\
  exists t1 out, run (P_text libm_test) t0 [OLoad 1; OEdit 1 b] = Ok t1 /\ blocks_to_file w_repr t1 [1] = Ok out /\ out <> snap "8" "0.75".
Proof.
  set (b := mkBlock (A2 [[n0 : P64; n1]; [n0; n1]; [n0; n1]]) [(tx "id", [n1 : P64; n2]); (tx "x", [n1 : P64; n2])]).
  assert (E : match w_traj with
    | Ok t0 => match run (P_text libm_test) t0 [OLoad 1; OEdit 1 b; ODict 1], run (P_text libm_test) t0 [OLoad 1; OEdit 1 b] with
               | Ok t, Ok t1 => match blocks_to_file w_repr t [1], blocks_to_file w_repr t1 [1] with Ok o, Ok o1 => (teqb o (snap "8" "0.75"), teqb o1 (snap "8" "0.75")) | _, _ => (false, true) end
               | _, _ => (false, true) end
    | _ => (false, true) end = (true, false)) by (vm_compute; reflexivity).
  destruct w_traj as [t0|]; [|discriminate]. destruct (run (P_text libm_test) t0 [OLoad 1; OEdit 1 b; ODict 1]) as [t|] eqn:E1; [|discriminate].
  destruct (run (P_text libm_test) t0 [OLoad 1; OEdit 1 b]) as [t1|] eqn:E2; [|discriminate]. destruct (blocks_to_file w_repr t [1]) as [o|] eqn:E3; [|discriminate].
  destruct (blocks_to_file w_repr t1 [1]) as [o1|] eqn:E4; [|discriminate]. injection E as F1 F2. apply teqb_true in F1. apply teqb_false in F2. subst o.
  exists t0, b, t. split; [reflexivity|]. split; [exact E1|]. split; [exact E3|]. exists t1, o1. auto.
Qed.

Print Assumptions C55_blocks.
Print Assumptions C55_errors.
Print Assumptions C55_outside.
Print Assumptions C55_negative.
Print Assumptions C55_negative_refuted.
Print Assumptions C56_slice.
Print Assumptions C56_add.
Print Assumptions C56_expression.
Print Assumptions C56_sum.
Print Assumptions C56_operand_refuted.
Print Assumptions C56_self_refuted.
Print Assumptions C57_ascending.
Print Assumptions C57_random.
Print Assumptions C57_all.
Print Assumptions C57_ascending_refuted.
Print Assumptions C57_descending_refuted.
Print Assumptions C57_descending_system_refuted.
Print Assumptions C57_unknown.
Print Assumptions C58_unloaded.
Print Assumptions C58_load.
Print Assumptions C58_export.
Print Assumptions C58_loaded_data.
Print Assumptions C58_integers.
Print Assumptions C58_blocks_back.
Print Assumptions C58_timestep_refuted.
Print Assumptions C58_ids_only_refuted.
Print Assumptions C58_no_ids_refuted.
Print Assumptions C58_single_refuted.
Print Assumptions C58_edit_lost_refuted.
