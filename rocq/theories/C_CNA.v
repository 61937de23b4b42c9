(** Properties C39-C42: common neighbour analysis and diamond structures. *)
From Coq Require Import Reals Lra ZArith List Lia Permutation.
From Verif Require Import Base Num NumR NumF NumP Types Ex M_Geometry M_Container M_Neighbors M_Steinhardt M_CNA
  S_Geometry P_Geometry P_Box S_Container S_Neighbors S_CNA P_Container P_Neighbors P_Temp P_FindN P_QRun P_Graph P_CNA P_CNARun P_CNAReal P_Diamond P_Search
  C_Neighbors C_Cluster.
Import ListNotations.
Close Scope R_scope. Close Scope Z_scope.
#[local] Open Scope nat_scope.

(** ** Concrete systems *)
(** The points of an n x n x n grid that satisfy [f], as atoms of type 1. *)
Definition grid (n : nat) (f : Z -> Z -> Z -> bool) : list (Z * Z * Z * Z) :=
  let r := zrange 0 (Z.of_nat n) in
  filter (fun p => let '(x, y, z, _) := p in f x y z)
    (flat_map (fun x => flat_map (fun y => map (fun z => (x, y, z, 1%Z)) r) r) r).
(** 2x2x2 cubic cells of an fcc crystal, lattice constant 2. *)
Definition fcc_sys (N : num) : sys N := cub N 4 (grid 4 (fun x y z => Z.even (x + y + z))).
(** The same, lattice constant 200, one atom displaced a little. *)
Definition moved_sys (N : num) : sys N :=
  cub N 400 (map (fun p : Z * Z * Z * Z => let '(x, y, z, t) := p in
                    if ((x =? 0) && (y =? 0) && (z =? 0))%Z then (1, 2, 4, 1)%Z else (100 * x, 100 * y, 100 * z, t)%Z)
                 (grid 4 (fun x y z => Z.even (x + y + z)))).
(** 2x2x2 cells of a diamond crystal, lattice constant 4, and one cell. *)
Definition is_dia (x y z : Z) : bool :=
  (Z.even x && Z.even y && Z.even z && ((x + y + z) mod 4 =? 0)%Z)
  || (Z.odd x && Z.odd y && Z.odd z && ((x + y + z - 3) mod 4 =? 0)%Z).
Definition dia_sys (N : num) : sys N := cub N 8 (grid 8 is_dia).
Definition dia_cell (N : num) : sys N := cub N 4 (grid 4 is_dia).
Definition counts {N : num} (r : res (sys N * list Z)) : option (list Z) :=
  match r with Ok (_, c) => Some c | Err _ => None end.
Definition structs {N : num} (r : res (sys N * list Z)) : list Z :=
  match r with Ok (t, _) => map (@a_struct N) (s_atoms t) | Err _ => [] end.

Lemma cub_facts (N : num) L l : let s := cub N L l in
  stored s /\ s_nop s = Z.of_nat (length l) /\ s_real s = Z.of_nat (length l) /\ no_candidates s /\ s_usecells s = false /\
  length (s_atoms s) = length l.
Proof.
  intros s.
  assert (E : s_atoms s = map (fun p : Z * Z * Z * Z => let '(x, y, z, t) := p in at_pos (zv N x y z) <| a_type := t |>) l) by reflexivity.
  assert (HL : length (s_atoms s) = length l) by (rewrite E; apply map_length).
  assert (En : s_nop s = Z.of_nat (length (s_atoms s))) by reflexivity.
  assert (Er : s_real s = count_real (s_atoms s)) by reflexivity.
  split; [exact En|]. split; [now rewrite En, HL|]. split; [|split; [|split; [reflexivity|exact HL]]].
  - rewrite Er, E. unfold count_real. f_equal. clear. induction l as [|[[[x y] z] t] l IH]; [reflexivity|]. cbn [map filter].
    change (is_real (at_pos (zv N x y z) <| a_type := t |>)) with true. cbn [length]. now rewrite IH.
  - intros a Ha. rewrite E in Ha. apply in_map_iff in Ha as ([[[x y] z] t] & <- & _). reflexivity.
Qed.

Open Scope R_scope.
Lemma Rcbrt_ge c x : 0 < c -> c * c * c <= x -> c <= Rcbrt x.
Proof.
  intros Hc Hx. unfold Rcbrt. destruct (Rlt_dec 0 x) as [Hp|Hp].
  - assert (E : Rpower (c * c * c) (/ 3) = c).
    { replace (c * c * c) with (Rpower c 3).
      - rewrite Rpower_mult. replace (3 * / 3) with 1 by field. now apply Rpower_1.
      - replace 3 with (INR 3) by (simpl; ring). rewrite Rpower_pow by lra. simpl. ring. }
    rewrite <- E at 1. apply Rle_Rpower_l; [lra|]. split; [|lra]. apply Rmult_lt_0_compat; [apply Rmult_lt_0_compat|]; lra.
  - exfalso. assert (0 < c * c * c); [|lra]. apply Rmult_lt_0_compat; [apply Rmult_lt_0_compat|]; lra.
Qed.
(** In a cubic box no two atoms are further apart than half its diagonal. *)
Lemma cub_half L l i j e : (0 < L)%Z -> (forall x y z t, In (x, y, z, t) l -> (0 <= x <= L)%Z /\ (0 <= y <= L)%Z /\ (0 <= z <= L)%Z) ->
  link (cub Rnum L l) i j = Some e -> nb_dist e * nb_dist e <= 3 / 4 * (IZR L * IZR L).
Proof.
  intros HL Hl. set (s := cub Rnum L l).
  assert (HLr : 0 < IZR L) by now apply IZR_lt.
  assert (L3 : s_len s = mkV (N := Rnum) (IZR L) (IZR L) (IZR L)).
  { unfold s, cub. cbn [set_atoms sbox s_len]. apply diag_len; simpl; lra. }
  assert (Ho : ortho s) by (split; [reflexivity|rewrite L3; unfold pos3; cbn; lra]).
  assert (Hd : forall a b, In a (s_atoms s) -> In b (s_atoms s) ->
     fst (abs_distance_ij s (a_pos a) (a_pos b)) * fst (abs_distance_ij s (a_pos a) (a_pos b)) <= 3 / 4 * (IZR L * IZR L)).
  { intros a b Ha Hb. rewrite abs_distance_ij_spec by (now apply ortho_nonneg). cbn [fst]. unfold abs_distance.
    assert (Hx : forall a, In a (s_atoms s) -> (0 <= vx (a_pos a) <= IZR L) /\ (0 <= vy (a_pos a) <= IZR L) /\ (0 <= vz (a_pos a) <= IZR L)).
    { intros c Hc. change (s_atoms s) with (map (fun p : Z * Z * Z * Z => let '(x, y, z, t) := p in at_pos (zv Rnum x y z) <| a_type := t |>) l) in Hc.
      apply in_map_iff in Hc as ([[[x y] z] t] & <- & Hc). destruct (Hl _ _ _ _ Hc) as (A & B & C). cbn [vx vy vz a_pos].
      change (0 <= IZR x <= IZR L /\ 0 <= IZR y <= IZR L /\ 0 <= IZR z <= IZR L).
      repeat split; apply IZR_le; lia. }
    change (norm (pbc_diff s (vsub (a_pos a) (a_pos b)))) with (norm (distance_vector s (a_pos a) (a_pos b))).
    rewrite distance_vector_ortho by exact Ho. rewrite norm_eucl, eucl_sqr, L3. cbn [vx vy vz].
    destruct (Hx a Ha) as (A1 & A2 & A3), (Hx b Hb) as (B1 & B2 & B3).
    assert (Q : forall u v, 0 <= u <= IZR L -> 0 <= v <= IZR L -> wrap1 (N := Rnum) (IZR L) (u - v) * wrap1 (N := Rnum) (IZR L) (u - v) <= IZR L / 2 * (IZR L / 2)).
    { intros u v Hu Hv. assert (W : Rabs (wrap1 (N := Rnum) (IZR L) (u - v)) <= IZR L / 2).
      { apply wrap1_bound; [lra|]. unfold Rabs. destruct (Rcase_abs _); lra. }
      revert W. generalize (wrap1 (N := Rnum) (IZR L) (u - v)). intros w. change (carrier Rnum) with R in w. unfold Rabs. destruct (Rcase_abs w); intros; nra. }
    pose proof (Q _ _ A1 B1). pose proof (Q _ _ A2 B2). pose proof (Q _ _ A3 B3). unfold len2. lra. }
  unfold link. destruct (nth_error (s_atoms s) i) as [a|] eqn:Ea; [|discriminate]. destruct (nth_error (s_atoms s) j) as [b|] eqn:Eb; [|discriminate].
  apply nth_error_In in Ea, Eb. pose proof (Hd a b Ea Eb) as D1. pose proof (Hd b a Eb Ea) as D2.
  destruct (i <? j).
  - destruct (abs_distance_ij s (a_pos a) (a_pos b)) as [d v]. intros E. apply Some_inj in E. subst e. exact D1.
  - destruct (j <? i); [|discriminate]. destruct (abs_distance_ij s (a_pos b) (a_pos a)) as [d v]. intros E. apply Some_inj in E. subst e. exact D2.
Qed.
Close Scope R_scope.

Lemma cub_candidates cmp L l k c i : (0 < L)%Z -> i < length l -> k < length l -> (0 < c)%R ->
  (forall x y z t, In (x, y, z, t) l -> (0 <= x <= L)%Z /\ (0 <= y <= L)%Z /\ (0 <= z <= L)%Z) ->
  (c * c * c <= IZR L * IZR L * IZR L / IZR (Z.of_nat (length l)))%R -> (3 / 4 * (IZR L * IZR L) < (3 * c) * (3 * c))%R ->
  (forall x y : R, (x < y)%R -> cmp x y = true) ->
  has_candidates_by (N := Rnum) cmp (cub Rnum L l) k i.
Proof.
  intros HL Hi Hk Hc Hl H1 H2 Hcmp. set (s := cub Rnum L l). destruct (cub_facts Rnum L l) as (_ & En & _ & _ & _ & Hn). fold s in En, Hn.
  assert (HLr : (0 < IZR L)%R) by now apply IZR_lt.
  assert (L3 : s_len s = mkV (N := Rnum) (IZR L) (IZR L) (IZR L)).
  { unfold s, cub. cbn [set_atoms sbox s_len]. apply diag_len; simpl; lra. }
  assert (HG : (3 * c <= guess_distance (N := Rnum) s (nofZ 3))%R).
  { unfold guess_distance, box_volume. change (s_tri s) with false. cbv iota. rewrite L3, En. cbn [vx vy vz].
    change (3 * c <= 3 * Rcbrt (IZR L * IZR L * IZR L / IZR (Z.of_nat (length l))))%R.
    pose proof (Rcbrt_ge c _ Hc H1). lra. }
  set (js := filter (fun j => negb (Nat.eqb i j)) (seq 0 (length l))).
  assert (Hjs : forall j, In j js -> j < length l /\ i <> j).
  { intros j Hj. apply filter_In in Hj as [Hj E]. apply in_seq in Hj. destruct (Nat.eqb_spec i j); [discriminate|lia]. }
  assert (Hlen : k <= length js).
  { assert (E : length (filter (Nat.eqb i) (seq 0 (length l))) + length js = length l).
    { rewrite <- app_length. unfold js. rewrite <- (Permutation_length (filter_split_perm (Nat.eqb i) (seq 0 (length l)))). apply seq_length. }
    assert (length (filter (Nat.eqb i) (seq 0 (length l))) <= 1); [|lia].
    assert (ND : NoDup (filter (Nat.eqb i) (seq 0 (length l)))) by apply NoDup_filter, seq_NoDup.
    change 1 with (length [i]). apply NoDup_incl_length; auto. intros x Hx. apply filter_In in Hx as [_ E2]. apply Nat.eqb_eq in E2. left. auto. }
  exists (firstn k js). split; [|split; [now apply firstn_length_le|]].
  - assert (ND : NoDup js) by apply NoDup_filter, seq_NoDup. rewrite <- (firstn_skipn k) in ND. clear -ND. induction (firstn k js); [constructor|]. simpl in ND. inversion ND; subst. constructor; auto. intros H; apply H1. apply in_or_app; auto.
  - intros j Hj. apply firstn_In in Hj. destruct (Hjs j Hj) as [Hj1 Hj2].
    assert (exists e, link s i j = Some e) as [e E].
    { unfold link. destruct (@nth_error_some _ (s_atoms s) i) as [a ->]; [lia|]. destruct (@nth_error_some _ (s_atoms s) j) as [b ->]; [lia|].
      destruct (Nat.ltb_spec i j).
      - destruct (abs_distance_ij s (a_pos a) (a_pos b)). eauto.
      - destruct (Nat.ltb_spec j i); [|lia]. destruct (abs_distance_ij s (a_pos b) (a_pos a)). eauto. }
    exists e. split; auto. apply Hcmp. pose proof (cub_half L l i j e HL Hl E) as D.
    revert D HG. generalize (nb_dist e) (guess_distance s (nofZ 3)). intros d g D HG. change (carrier Rnum) with R in *.
    nra.
Qed.

Lemma isort_perm (N : num) (l : list (datom N)) : Permutation (isort l) l.
Proof.
  assert (H : forall (d : datom N) l, Permutation (ins d l) (d :: l)).
  { intros d m. induction m as [|x r IH]; [reflexivity|]. cbn [ins]. destruct (nltb (d_dist d) (d_dist x)); [reflexivity|].
    rewrite IH. apply perm_swap. }
  induction l as [|d r IH]; [reflexivity|]. cbn [isort]. rewrite H. now constructor.
Qed.

(** ** C39 *)
(** Whatever the numbers, the sort and the earlier history of the system: if
    the analysis succeeds, its five counts are those of the structure values
    and add up to the number of atoms. *)
Theorem C39_counts :
  forall (N : num) (srt : list (datom N) -> list (datom N)) (s t : sys N) lc r,
  calculate_cna srt s lc = Ok (t, r) -> counted_structs 5 t r.
Proof. intros. eapply cna_counts; eauto. Qed.
Print Assumptions C39_counts.

(** Adaptive analysis never fails. *)
Theorem C39_adaptive_succeeds :
  forall (N : num) (srt : list (datom N) -> list (datom N)) (s : sys N), (forall l, Permutation (srt l) l) ->
  stored s -> (0 <= s_real s <= s_nop s)%Z -> s_usecells s = false -> no_candidates s ->
  exists t r, calculate_cna srt s None = Ok (t, r) /\ same_geometry s t /\ counted_structs 5 t r.
Proof.
  intros N srt s Hp Hs Hr Hu Hn. destruct (@cna_full N srt Hp s None Hs Hu Hn Hr) as (t & r & E & G & _); [congruence|].
  exists t, r. split; auto. split; [exact G|]. eapply cna_counts; eauto.
Qed.
Print Assumptions C39_adaptive_succeeds.

(** With a lattice constant it succeeds iff every atom has fourteen candidates;
    otherwise it reads outside the candidate lists. *)
Theorem C39_lattice_succeeds_iff :
  forall (N : num) (srt : list (datom N) -> list (datom N)) (s : sys N) (c : N), (forall l, Permutation (srt l) l) ->
  stored s -> (0 <= s_real s <= s_nop s)%Z -> s_usecells s = false -> no_candidates s ->
  ((exists t r, calculate_cna srt s (Some c) = Ok (t, r) /\ same_geometry s t /\ counted_structs 5 t r) <->
   forall i, i < length (s_atoms s) -> has_candidates s 14 i) /\
  ((forall t r, calculate_cna srt s (Some c) <> Ok (t, r)) -> calculate_cna srt s (Some c) = Err UB).
Proof.
  intros N srt s c Hp Hs Hr Hu Hn.
  assert (D : (forall i, i < length (s_atoms s) -> 14 <= length (cna_cands s i)) \/ exists i, i < length (s_atoms s) /\ length (cna_cands s i) < 14).
  { induction (length (s_atoms s)) as [|n [IH|(i & Hi & H)]].
    - left. intros; lia.
    - destruct (Nat.le_gt_cases 14 (length (cna_cands s n))).
      + left. intros i Hi. destruct (Nat.eq_dec i n); [now subst|apply IH; lia].
      + right. exists n. auto.
    - right. exists i. auto. }
  destruct D as [D|D].
  - destruct (@cna_full N srt Hp s (Some c) Hs Hu Hn Hr) as (t & r & E & G & _); [auto|]. split; [split|].
    + intros _ i Hi. apply has_cands. auto.
    + intros _. exists t, r. split; auto. split; [exact G|]. eapply cna_counts; eauto.
    + intros H. destruct (H _ _ E).
  - pose proof (@cna_UB N srt Hp s c Hs Hu Hn D) as E. split; [split|auto].
    + intros (t & r & E2 & _). congruence.
    + intros H. destruct D as (i & Hi & H2). apply H, has_cands in Hi. lia.
Qed.
Print Assumptions C39_lattice_succeeds_iff.

Theorem C39_few_atoms_refuted :
  exists (s : sys P64), s = cub P64 10 [(1,1,1,1); (3,1,1,1)]%Z /\
    calculate_cna isort s (Some (nofZ 3)) = Err UB /\ counts (calculate_cna isort s None) = Some [2; 0; 0; 0; 0]%Z.
Proof.
  eexists. split; [reflexivity|]. split; [|vm_compute; reflexivity].
  destruct (cub_facts P64 10 [(1,1,1,1); (3,1,1,1)]%Z) as (A1 & A2 & A3 & A4 & A5 & A6).
  apply cna_UB; auto using isort_perm. exists 0. split; [rewrite A6; simpl; lia|].
  apply Nat.nle_gt. intros H. apply has_cands in H. destruct H as (js & ND & HL & H).
  assert (Hi : incl js [0; 1]).
  { intros j Hj. destruct (H j Hj) as (e & E & _). destruct j as [|[|j]]; simpl; auto. exfalso.
    revert E. unfold link. rewrite (proj2 (nth_error_None (s_atoms (cub P64 10 [(1,1,1,1); (3,1,1,1)]%Z)) (S (S j)))) by (rewrite A6; simpl; lia).
    destruct (nth_error _ 0); discriminate. }
  apply NoDup_incl_length in Hi; auto. simpl in Hi. lia.
Qed.
Print Assumptions C39_few_atoms_refuted.

Example C39_hyp : forall N, stored (fcc_sys N) /\ (0 <= s_real (fcc_sys N) <= s_nop (fcc_sys N))%Z /\
  s_usecells (fcc_sys N) = false /\ no_candidates (fcc_sys N) /\ forall i, i < length (s_atoms (fcc_sys Rnum)) -> has_candidates (fcc_sys Rnum) 14 i.
Proof.
  intros N. destruct (cub_facts N 4 (grid 4 (fun x y z => Z.even (x + y + z)))) as (A1 & A2 & A3 & A4 & A5 & A6).
  fold (fcc_sys N) in *. split; auto. split; [rewrite A2, A3; lia|]. split; auto. split; auto.
  intros i Hi. destruct (cub_facts Rnum 4 (grid 4 (fun x y z => Z.even (x + y + z)))) as (_ & _ & _ & _ & _ & B6).
  apply (cub_candidates _ 4 _ 14 (12 / 10)%R).
  - lia.
  - rewrite <- B6. exact Hi.
  - vm_compute. lia.
  - lra.
  - intros x y z t Hin. apply filter_In in Hin as [Hin _]. apply in_flat_map in Hin as (x' & Hx & Hin). apply in_flat_map in Hin as (y' & Hy & Hin).
    apply in_map_iff in Hin as (z' & E & Hz). injection E as <- <- <- <-. apply In_zrange in Hx, Hy, Hz. lia.
  - replace (length _) with 32 by (vm_compute; reflexivity). simpl Z.of_nat. lra.
  - lra.
  - intros u v Huv. apply Rleb_true. lra.
Qed.
Example C39_runs : counts (calculate_cna isort (fcc_sys P64) None) = Some [0; 32; 0; 0; 0]%Z /\
  counts (calculate_cna isort (fcc_sys P64) (Some (nofZ 2))) = Some [0; 32; 0; 0; 0]%Z.
Proof. split; vm_compute; reflexivity. Qed.

(** ** C40 *)
(** The code's signature of every bond: the number of common neighbours, the
    number of bonds among them and the largest and smallest number of bonds of
    one of them. *)
Theorem C40_signatures :
  forall (s : sys Rnum) (c : R) (ns : list nat), nonneg3 (s_len s) -> (forall n, In n ns -> n < length (s_atoms s)) ->
  signatures s (s_atoms s) c ns =
  Ok (map (fun p => let near := within s c in let l := common near p in
             (Z.of_nat (length l), Z.of_nat (bonds near l), Z.of_nat (maximum (degrees near l)), Z.of_nat (minimum (degrees near l) 8)))
          (picks ns)).
Proof.
  intros s c ns HL Hn. rewrite (@signatures_spec Rnum s (s_atoms s) c (cell_sym HL) ns Hn). reflexivity.
Qed.
Print Assumptions C40_signatures.

(** Which bond graphs the five signatures stand for. *)
Theorem C40_shapes :
  forall (near : nat -> nat -> bool) (l : list nat), (forall x y, near x y = near y x) ->
  let sig := (length l, bonds near l, maximum (degrees near l), minimum (degrees near l) 8) in
  (sig = (4, 2, 1, 1) <-> two_bonds near l) /\ (sig = (4, 2, 2, 0) <-> chain_of_two near l) /\
  (sig = (5, 5, 2, 2) <-> ring5 near l) /\ (sig = (4, 4, 2, 2) <-> ring4 near l) /\
  (sig = (6, 6, 2, 2) <-> ring6 near l \/ two_triangles near l).
Proof.
  intros near l sy sig. change sig with (gsig near l). repeat split;
    first [now apply (sig_4211 sy)|now apply (sig_4220 sy)|now apply (sig_5522 sy)|now apply (sig_4422 sy)|now apply (sig_6622 sy)].
Qed.
Print Assumptions C40_shapes.

(** The structure value of every atom, with and without a lattice constant and
    with and without cells. *)
Theorem C40_labels :
  forall (srt : list (datom Rnum) -> list (datom Rnum)) (s : sys Rnum) (lc : option R), sorts srt ->
  stored s -> nonneg3 (s_len s) -> (0 <= s_real s <= s_nop s)%Z -> no_candidates s ->
  (s_usecells s = true -> cells_ok s (guess_distance s (nofZ 3))) ->
  (forall i, i < length (s_atoms s) -> has_candidates_by (if s_usecells s then Rltb else Rleb) s 14 i) ->
  exists t r, calculate_cna srt s lc = Ok (t, r) /\ counted_structs 5 t r /\ same_geometry s t /\
    forall i a, nth_error (s_atoms t) i = Some a -> cna_rule s lc i (a_struct a).
Proof.
  intros srt s lc Hsrt Hs HL Hr Hn Hc Hk. apply cna_real; auto. intros i Hi. apply has_cands_by. now apply Hk.
Qed.
Print Assumptions C40_labels.

(** The conditions exclude each other and do not depend on the order of the
    neighbours. *)
Theorem C40_exclusive :
  forall (near : nat -> nat -> bool) (ns : list nat), (forall x y, near x y = near y x) ->
  ~ (fcc_like near ns /\ hcp_like near ns) /\ ~ (fcc_like near ns /\ ico_like near ns) /\ ~ (hcp_like near ns /\ ico_like near ns) /\
  ~ (bcc_like near ns /\ (fcc_like near ns \/ hcp_like near ns \/ ico_like near ns)).
Proof.
  intros near ns sy.
  assert (HL : forall P Q n m, split near n m P Q ns -> length ns = n + m).
  { intros P Q n m (ps & qs & HP & L1 & L2 & _). apply Permutation_length in HP. rewrite length_picks, app_length in HP. lia. }
  assert (F : fcc_like near ns -> length ns = 12) by (intros [? _]; auto).
  assert (I : ico_like near ns -> length ns = 12) by (intros [? _]; auto).
  assert (H : hcp_like near ns -> length ns = 12) by (intros K; now apply HL in K).
  assert (B : bcc_like near ns -> length ns = 14) by (intros K; now apply HL in K).
  repeat split.
  - intros [X Y]. destruct (label12_spec sy (F X)) as (A1 & A2 & _). apply A1 in X. apply A2 in Y. congruence.
  - intros [X Y]. destruct (label12_spec sy (F X)) as (A1 & _ & A2 & _). apply A1 in X. apply A2 in Y. congruence.
  - intros [X Y]. destruct (label12_spec sy (H X)) as (_ & A1 & A2 & _). apply A1 in X. apply A2 in Y. congruence.
  - intros [X [Y|[Y|Y]]]; apply B in X; [apply F in Y|apply H in Y|apply I in Y]; congruence.
Qed.
Print Assumptions C40_exclusive.
Theorem C40_order_of_neighbours :
  forall (s : sys Rnum) (c : R) (ns ns' : list nat), nonneg3 (s_len s) -> (forall n, In n ns -> n < length (s_atoms s)) ->
  Permutation ns ns' ->
  exists cs cs', signatures s (s_atoms s) c ns = Ok cs /\ signatures s (s_atoms s) c ns' = Ok cs' /\
    Permutation cs cs' /\ label12 cs = label12 cs' /\ label14 cs = label14 cs'.
Proof.
  intros s c ns ns' HL Hn HP.
  assert (Hn' : forall n, In n ns' -> n < length (s_atoms s)) by (intros n Hi; apply Hn; eapply Permutation_in; [symmetry; exact HP|exact Hi]).
  exists (sigs (within s c) ns), (sigs (within s c) ns').
  assert (P : Permutation (sigs (within s c) ns) (sigs (within s c) ns')).
  { apply sigs_zperm; auto. intros. now apply within_sym. }
  split; [now apply C40_signatures|]. split; [now apply C40_signatures|]. split; auto. split; [now apply label12_perm|now apply label14_perm].
Qed.
Print Assumptions C40_order_of_neighbours.

(** The signature of a 6-6-6 bond does not tell a ring from two triangles. *)
Lemma ring6_no_triangle {A} (near : A -> A -> bool) l x y z : ring6 near l -> In x l -> In y l -> In z l ->
  x <> y -> y <> z -> x <> z -> near x y = true -> near y z = true -> near x z = true -> False.
Proof.
  intros (HL & l' & HP & HA) Hx Hy Hz N1 N2 N3 E1 E2 E3.
  assert (H : forall u, In u l -> exists i, nth_error l' i = Some u) by (intros u Hu; apply In_nth_error; eapply Permutation_in; eauto).
  destruct (H x Hx) as [i Ei], (H y Hy) as [j Ej], (H z Hz) as [k Ek].
  assert (Nij : i <> j) by congruence. assert (Njk : j <> k) by congruence. assert (Nik : i <> k) by congruence.
  apply (HA i j x y Nij Ei Ej) in E1. apply (HA j k y z Njk Ej Ek) in E2. apply (HA i k x z Nik Ei Ek) in E3.
  set (es := [(0, 1); (1, 2); (2, 3); (3, 4); (4, 5); (5, 0)]) in *.
  set (f := fun i j => existsb (fun e => ((fst e =? i) && (snd e =? j)) || ((fst e =? j) && (snd e =? i))) es).
  assert (Hf : forall i j, In (i, j) es \/ In (j, i) es -> f i j = true).
  { intros i' j' [Hin|Hin]; apply existsb_exists; eexists; (split; [exact Hin|]); cbn [fst snd]; rewrite !Nat.eqb_refl; auto. apply orb_true_r. }
  apply Hf in E1, E2, E3.
  assert (Hlt : forall i u, nth_error l' i = Some u -> In i (seq 0 6)).
  { intros i' u Hu. apply in_seq. rewrite <- HL, (Permutation_length HP). split; [lia|]. apply nth_error_Some. congruence. }
  assert (T : forallb (fun i => forallb (fun j => forallb (fun k => negb (f i j && f j k && f i k)) (seq 0 6)) (seq 0 6)) (seq 0 6) = true)
    by (vm_compute; reflexivity).
  rewrite forallb_forall in T. specialize (T i (Hlt _ _ Ei)). rewrite forallb_forall in T. specialize (T j (Hlt _ _ Ej)).
  rewrite forallb_forall in T. specialize (T k (Hlt _ _ Ek)). rewrite E1, E2, E3 in T. discriminate.
Qed.
Definition triangles : sys P64 :=
  cub P64 20 [(3,3,3,1); (4,4,3,1); (4,3,4,1); (8,8,8,1); (9,9,8,1); (9,8,9,1)]%Z.
Theorem C40_ring6_refuted :
  exists (s : sys P64) (c : P64), bond_sig s (s_atoms s) c (6%Z, seq 0 6) = Ok (6, 6, 2, 2)%Z /\
    two_triangles (within s c) (seq 0 6) /\ ~ ring6 (within s c) (seq 0 6).
Proof.
  exists triangles, (nlit 3 2). split; [vm_compute; reflexivity|]. split.
  - split; [reflexivity|]. exists (seq 0 6). split; [reflexivity|]. intros i j x y Hij Hx Hy.
    assert (i < 6 /\ j < 6) as [Hi Hj] by (split; [apply nth_error_Some in Hx || idtac|]; [change 6 with (length (seq 0 6)); apply nth_error_Some; congruence|change 6 with (length (seq 0 6)); apply nth_error_Some; congruence]).
    assert (i = x) by (do 6 (destruct i as [|i]; [injection Hx; auto|]); lia).
    assert (j = y) by (do 6 (destruct j as [|j]; [injection Hy; auto|]); lia). subst x y.
    assert (T : forallb (fun i => forallb (fun j => (i =? j) || Bool.eqb (within triangles (nlit 3 2) i j)
        (existsb (fun e => ((fst e =? i) && (snd e =? j)) || ((fst e =? j) && (snd e =? i)))
          [(0, 1); (1, 2); (2, 0); (3, 4); (4, 5); (5, 3)])) (seq 0 6)) (seq 0 6) = true) by (vm_compute; reflexivity).
    rewrite forallb_forall in T. specialize (T i). rewrite forallb_forall in T.
    specialize (T ltac:(apply in_seq; lia) j ltac:(apply in_seq; lia)). apply orb_true_iff in T as [T|T]; [apply Nat.eqb_eq in T; contradiction|].
    apply Bool.eqb_prop in T. rewrite T, existsb_exists. split.
    + intros ([u v] & Hin & E). cbn [fst snd] in E. apply orb_true_iff in E as [E|E]; apply andb_true_iff in E as [E E'];
        apply Nat.eqb_eq in E, E'; subst; auto.
    + intros [Hin|Hin]; [exists (i, j)|exists (j, i)]; split; auto; cbn [fst snd]; rewrite !Nat.eqb_refl; auto. now rewrite orb_true_r.
  - intros H. apply (ring6_no_triangle _ _ 0 1 2 H); try (apply in_seq; lia); try lia; vm_compute; reflexivity.
Qed.
Print Assumptions C40_ring6_refuted.

(** The candidates of the atoms after the first one with fewer than fourteen
    stay unsorted, so in adaptive analysis the labels depend on the order in
    which the atoms are stored: a cuboctahedron with its second shell, and an
    atom far away from it, stored first or last. *)
Definition shell1 : list (Z * Z * Z) :=
  [(0,1,1); (0,1,-1); (0,-1,1); (0,-1,-1); (1,0,1); (1,0,-1); (-1,0,1); (-1,0,-1); (1,1,0); (1,-1,0); (-1,1,0); (-1,-1,0)]%Z.
Definition shell2 : list (Z * Z * Z) := [(2,0,0); (-2,0,0); (0,2,0); (0,-2,0); (0,0,2); (0,0,-2)]%Z.
Definition long_sys (l : list (Z * Z * Z)) : sys P64 :=
  set_atoms (sbox (sys_ctor (raw_sys P64)) (diag (nofZ 60) (nofZ 6) (nofZ 6)))
    (map (fun p : Z * Z * Z => let '(x, y, z) := p in at_pos (zv P64 (x + 3) (y + 3) (z + 3))) l).
Lemma cell_set_atoms (N : num) (s : sys N) l l' : length l = length l' -> count_real l = count_real l' ->
  cell (set_atoms s l) = cell (set_atoms s l').
Proof. intros H1 H2. unfold cell, set_atoms. cbn. now rewrite H1, H2. Qed.
Theorem C40_order_of_atoms_refuted :
  exists s s' : sys P64, cell s = cell s' /\ Permutation (map (@a_pos P64) (s_atoms s)) (map (@a_pos P64) (s_atoms s')) /\
    counts (calculate_cna isort s None) = Some [20; 0; 0; 0; 0]%Z /\
    counts (calculate_cna isort s' None) = Some [19; 1; 0; 0; 0]%Z.
Proof.
  exists (long_sys ((30, 0, 0)%Z :: shell2 ++ shell1 ++ [(0, 0, 0)%Z])), (long_sys ((shell2 ++ shell1 ++ [(0, 0, 0)%Z]) ++ [(30, 0, 0)%Z])).
  split; [apply cell_set_atoms; [rewrite !map_length; reflexivity|vm_compute; reflexivity]|]. split; [|split; vm_compute; reflexivity].
  assert (E : forall l, map (@a_pos P64) (s_atoms (long_sys l)) = map (fun p : Z * Z * Z => let '(x, y, z) := p in zv P64 (x + 3) (y + 3) (z + 3)) l).
  { intros l.
    change (map (@a_pos P64) (map (fun p : Z * Z * Z => let '(x, y, z) := p in at_pos (zv P64 (x + 3) (y + 3) (z + 3))) l) =
      map (fun p : Z * Z * Z => let '(x, y, z) := p in zv P64 (x + 3) (y + 3) (z + 3)) l).
    rewrite map_map. apply map_ext. intros [[x y] z]. reflexivity. }
  rewrite !E. apply Permutation_map. apply Permutation_cons_append.
Qed.
Print Assumptions C40_order_of_atoms_refuted.

Example C40_hyp : sorts (@isort Rnum) /\ stored (fcc_sys Rnum) /\ nonneg3 (s_len (fcc_sys Rnum)) /\
  (0 <= s_real (fcc_sys Rnum) <= s_nop (fcc_sys Rnum))%Z /\ no_candidates (fcc_sys Rnum) /\ s_usecells (fcc_sys Rnum) = false /\
  forall i, i < length (s_atoms (fcc_sys Rnum)) -> has_candidates_by Rleb (fcc_sys Rnum) 14 i.
Proof.
  destruct (C39_hyp Rnum) as (A1 & A2 & A3 & A4 & A5). split; [exact isort_sorts|]. split; auto. split; [|auto].
  assert (L3 : s_len (fcc_sys Rnum) = mkV (N := Rnum) 4%R 4%R 4%R).
  { unfold fcc_sys, cub. cbn [set_atoms sbox s_len]. apply diag_len; simpl; lra. }
  unfold nonneg3. rewrite L3. cbn. lra.
Qed.
(** A bcc crystal. *)
Definition bcc_sys (N : num) : sys N :=
  cub N 8 (grid 8 (fun x y z => (Z.even x && Z.even y && Z.even z) || (Z.odd x && Z.odd y && Z.odd z))).
Example C40_runs : counts (calculate_cna isort (bcc_sys P64) None) = Some [0; 0; 0; 128; 0]%Z /\
  counts (calculate_cna isort (bcc_sys P64) (Some (nofZ 2))) = Some [0; 0; 0; 128; 0]%Z.
Proof. split; vm_compute; reflexivity. Qed.

(** ** C41 *)
(** The candidates of the first call are still there in the second one: the
    crystal with one displaced atom. *)
Theorem C41_second_call_refuted :
  exists (s t : sys P64) r r', stored s /\ no_candidates s /\ calculate_cna isort s None = Ok (t, r) /\
    counts (calculate_cna isort t None) = Some r' /\ r <> r'.
Proof.
  assert (F : match calculate_cna isort (moved_sys P64) None with
              | Ok (t, r) => Some (r, counts (calculate_cna isort t None)) | Err _ => None end = Some ([0; 32; 0; 0; 0]%Z, Some [13; 19; 0; 0; 0]%Z))
    by (vm_compute; reflexivity).
  destruct (cub_facts P64 400 (map (fun p : Z * Z * Z * Z => let '(x, y, z, t) := p in
                    if ((x =? 0) && (y =? 0) && (z =? 0))%Z then (1, 2, 4, 1)%Z else (100 * x, 100 * y, 100 * z, t)%Z)
                 (grid 4 (fun x y z => Z.even (x + y + z))))) as (A1 & _ & _ & A4 & _). fold (moved_sys P64) in A1, A4.
  exists (moved_sys P64). revert A1 A4 F. generalize (moved_sys P64). intros s A1 A4 F.
  destruct (calculate_cna isort s None) as [[t r]|]; [|discriminate]. injection F as F1 F2.
  exists t, r, [13; 19; 0; 0; 0]%Z. subst r. repeat split; auto. discriminate.
Qed.
Print Assumptions C41_second_call_refuted.

(** With nothing left of an earlier search the result depends only on the cell
    and the positions, whatever else was done with the system before. *)
Theorem C41_same_geometry :
  forall (N : num) (srt : list (datom N) -> list (datom N)) (s s' : sys N) lc, (forall l, Permutation (srt l) l) ->
  same_geometry s s' -> stored s -> (0 <= s_real s <= s_nop s)%Z ->
  s_usecells s = false -> s_usecells s' = false -> no_candidates s -> no_candidates s' ->
  match calculate_cna srt s lc, calculate_cna srt s' lc with
  | Ok (t, r), Ok (t', r') => r = r' /\ map (@a_struct N) (s_atoms t) = map (@a_struct N) (s_atoms t')
  | Err e, Err e' => e = e'
  | _, _ => False
  end.
Proof. intros. now apply cna_same. Qed.
Print Assumptions C41_same_geometry.
(** In particular after reset_neighbors. *)
Theorem C41_after_reset :
  forall (N : num) (srt : list (datom N) -> list (datom N)) (s t u : sys N) lc r, (forall l, Permutation (srt l) l) ->
  stored s -> (0 <= s_real s <= s_nop s)%Z -> s_usecells s = false -> no_candidates s ->
  calculate_cna srt s lc = Ok (t, r) -> reset_neighbors t = Ok u ->
  exists t', calculate_cna srt u lc = Ok (t', r) /\ map (@a_struct N) (s_atoms t') = map (@a_struct N) (s_atoms t).
Proof. intros. eapply cna_again; eauto. Qed.
Print Assumptions C41_after_reset.
Example C41_runs :
  match calculate_cna isort (moved_sys P64) None with
  | Ok (t, r) => match reset_neighbors t with
                 | Ok u => counts (calculate_cna isort u None)
                 | Err _ => None end
  | Err _ => None end = Some [0; 32; 0; 0; 0]%Z.
Proof. vm_compute. reflexivity. Qed.

(** ** C42 *)
(** The counts, whatever the numbers and the history of the system. *)
Theorem C42_counts :
  forall (N : num) srt voro area_pow inv (s t : sys N) find r,
  identify_diamond srt voro area_pow inv s find = Ok (t, r) -> counted_structs 11 t r.
Proof.
  intros N srt voro area_pow inv s t find r. unfold identify_diamond. destruct find; cbn [bind].
  - destruct (find_four _ _ _ _ _ _) as [u|]; cbn [bind]; [|discriminate]. apply diamond_counts.
  - apply diamond_counts.
Qed.
Print Assumptions C42_counts.

(** The shell labels of any system whose candidate lists are in range and
    without repetition, in whatever arithmetic. *)
Theorem C42_shells :
  forall (N : num) srt voro area_pow inv (s : sys N), stored s -> (0 <= s_real s <= s_nop s)%Z ->
  (forall a, In a (s_atoms s) -> 4 <= length (a_temp a) /\ NoDup (map (@d_idx N) (firstn 4 (a_temp a))) /\
     forall d, In d (a_temp a) -> d_idx d < length (s_atoms s)) ->
  exists t r, identify_diamond srt voro area_pow inv s false = Ok (t, r) /\ same_geometry s t /\ counted_structs 11 t r /\
    forall i a, nth_error (s_atoms t) i = Some a -> exists a0, nth_error (s_atoms s) i = Some a0 /\
      a_nn1 a = map (@d_idx N) (firstn 4 (a_temp a0)) /\ shell_rule t i a.
Proof.
  intros N srt voro area_pow inv s Hs Hr H. unfold identify_diamond. cbn [bind].
  destruct (@diamond_run N s Hs) as (t & r & E & G & Q); auto.
  - intros a Ha. apply (H a Ha).
  - intros a Ha. apply (H a Ha).
  - intros a Ha. apply (H a Ha).
  - exists t, r. split; auto. split; auto. split; [eapply diamond_counts; eauto|]. intros i a Ha.
    destruct (@nth_error_some _ (s_atoms s) i) as [a0 Ea]; [rewrite <- (geo_length G); apply nth_error_Some; congruence|].
    exists a0. split; auto. destruct (Q i a0 Ea) as (a' & E' & X1 & _ & X3 & _). rewrite Ha in E'. apply Some_inj in E'. subst a'.
    split; auto.
Qed.
Print Assumptions C42_shells.

(** The whole function over the reals: the four nearest atoms, the second
    neighbours, the diamond labels and the shell labels. *)
Theorem C42_diamond :
  forall (srt : list (datom Rnum) -> list (datom Rnum)) voro area_pow inv (s : sys Rnum), sorts srt ->
  stored s -> nonneg3 (s_len s) -> (0 <= s_real s <= s_nop s)%Z ->
  ((4000 < s_real s)%Z -> cells_ok s (guess_distance s (nofZ 3))) ->
  (forall i, i < length (s_atoms s) -> has_candidates_by (if Z.ltb 4000 (s_real s) then Rltb else Rleb) s 4 i) ->
  exists t r (nn : nat -> list (nbr Rnum)),
    identify_diamond srt voro area_pow inv s true = Ok (t, r) /\ counted_structs 11 t r /\ same_geometry s t /\
    (forall i, i < length (s_atoms s) -> nearest s i 4 (nn i)) /\
    forall i a, nth_error (s_atoms t) i = Some a ->
      a_nn1 a = map (@nb_idx Rnum) (nn i) /\ map (@nb_idx Rnum) (a_nbrs a) = second_shell nn i /\
      shell_rule t i a /\ diamond_rule s i (second_shell nn i) (a_struct a).
Proof.
  intros srt voro area_pow inv s Hsrt Hs HL Hr Hc Hk. apply diamond_real; auto.
  - unfold big_real. intros E. apply Hc. now apply Z.ltb_lt.
  - intros i Hi. apply has_cands_by. now apply Hk.
Qed.
Print Assumptions C42_diamond.

(** An atom with fewer than four candidates: RuntimeError if the function
    searches itself, otherwise a read outside the candidate list. *)
Theorem C42_too_few :
  forall (srt : list (datom Rnum) -> list (datom Rnum)) voro area_pow inv (s : sys Rnum),
  stored s -> nonneg3 (s_len s) ->
  ((4000 < s_real s)%Z -> cells_ok s (guess_distance s (nofZ 3))) ->
  (exists i, i < length (s_atoms s) /\ ~ has_candidates_by (if Z.ltb 4000 (s_real s) then Rltb else Rleb) s 4 i) ->
  identify_diamond srt voro area_pow inv s true = Err RuntimeError.
Proof.
  intros srt voro area_pow inv s Hs HL Hc (i & Hi & Hk). unfold identify_diamond.
  destruct (@find_four_run srt voro area_pow inv s (nofZ (n := Rnum) 3) Hs HL) as [_ F].
  - change (1 <= 3)%R. lra.
  - unfold big_real. intros E. apply Hc. now apply Z.ltb_lt.
  - rewrite F; auto. exists i. split; auto. apply Nat.nle_gt. intros Q. apply Hk. apply has_cands_by. exact Q.
Qed.
Print Assumptions C42_too_few.
Theorem C42_without_search :
  forall (N : num) srt voro area_pow inv (s : sys N), stored s ->
  (exists a, In a (s_atoms s) /\ length (a_temp a) < 4) ->
  identify_diamond srt voro area_pow inv s false = Err UB.
Proof.
  intros N srt voro area_pow inv s Hs (a & Ha & HL). apply diamond_UB; auto. intros H. specialize (H a Ha). lia.
Qed.
Print Assumptions C42_without_search.

Lemma grid_bound n f L x y z t : (Z.of_nat n <= L)%Z -> In (x, y, z, t) (grid n f) -> (0 <= x <= L)%Z /\ (0 <= y <= L)%Z /\ (0 <= z <= L)%Z.
Proof.
  intros HL Hin. apply filter_In in Hin as [Hin _]. apply in_flat_map in Hin as (x' & Hx & Hin). apply in_flat_map in Hin as (y' & Hy & Hin).
  apply in_map_iff in Hin as (z' & E & Hz). injection E as <- <- <- <-. apply In_zrange in Hx, Hy, Hz. lia.
Qed.
Example C42_hyp : stored (dia_cell Rnum) /\ nonneg3 (s_len (dia_cell Rnum)) /\
  (0 <= s_real (dia_cell Rnum) <= s_nop (dia_cell Rnum))%Z /\ Z.ltb 4000 (s_real (dia_cell Rnum)) = false /\
  forall i, i < length (s_atoms (dia_cell Rnum)) -> has_candidates_by Rleb (dia_cell Rnum) 4 i.
Proof.
  destruct (cub_facts Rnum 4 (grid 4 is_dia)) as (A1 & A2 & A3 & A4 & A5 & A6). fold (dia_cell Rnum) in *.
  assert (E8 : length (grid 4 is_dia) = 8) by (vm_compute; reflexivity).
  split; auto. split; [|split; [rewrite A2, A3; lia|split; [rewrite A3, E8; reflexivity|]]].
  - assert (L3 : s_len (dia_cell Rnum) = mkV (N := Rnum) 4%R 4%R 4%R).
    { unfold dia_cell, cub. cbn [set_atoms sbox s_len]. apply diag_len; simpl; lra. }
    unfold nonneg3. rewrite L3. cbn. lra.
  - intros i Hi. apply (cub_candidates _ 4 _ 4 2%R).
    + lia.
    + rewrite <- A6. exact Hi.
    + rewrite E8. lia.
    + lra.
    + intros x y z t. apply grid_bound. simpl. lia.
    + rewrite E8. simpl Z.of_nat. lra.
    + lra.
    + intros u v Huv. apply Rleb_true. lra.
Qed.
(** A diamond crystal; the same with one atom removed: the shell labels around
    the vacancy. *)
Example C42_runs : counts (identify_diamond isort no_voro idp id_inv (dia_sys P64) true) = Some [0; 0; 0; 0; 0; 64; 0; 0; 0; 0; 0]%Z /\
  counts (identify_diamond isort no_voro idp id_inv (cub P64 8 (removelast (grid 8 is_dia))) true) = Some [0; 0; 0; 0; 0; 47; 13; 3; 0; 0; 0]%Z.
Proof. split; vm_compute; reflexivity. Qed.
