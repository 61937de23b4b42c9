(** Properties C34-C38: clusters. *)
From Coq Require Import Reals Lra ZArith List Lia Permutation.
From Verif Require Import Base Num NumR NumF NumP Types Ex M_Geometry M_Container M_Neighbors M_Steinhardt M_Cluster
  S_Geometry P_Geometry P_Box S_Container S_Neighbors S_Cluster P_Container P_Neighbors P_QRun P_QHist P_FindN P_Cutoff P_Cluster P_ClusterRun
  P_ClusterPy C_Neighbors C_Steinhardt.
Import ListNotations.
Close Scope R_scope. Close Scope Z_scope.
#[local] Open Scope nat_scope.

(** ** Concrete systems *)
Definition id_inv {N : num} : m3 N -> option (m3 N) := fun m => Some m.
(** A neighbour at a given distance. *)
Definition at_dist (N : num) (d : Z) (i : nat) : nbr N := mkNbr i (nofZ d) n1 (zv N d 0 0).
Definition graph_atom (N : num) (t : Z) (es : list (nbr N)) : atom N :=
  with_nbrs N es <| a_type := t |> <| a_cutoff := nofZ 3 |>.
(** Seven atoms: 0-2-5 and 1-4 linked, 3 not selected (type 2) but between 0
    and 1, 6 within reach of 4 only if the cutoff is 5. *)
Definition g_sys (N : num) : sys N := of_atoms N
  [graph_atom N 1 [at_dist N 2 2; at_dist N 2 3]; graph_atom N 1 [at_dist N 2 3; at_dist N 3 4];
   graph_atom N 1 [at_dist N 2 0; at_dist N 1 5]; graph_atom N 2 [at_dist N 2 0; at_dist N 2 1];
   graph_atom N 1 [at_dist N 3 1; at_dist N 5 6]; graph_atom N 1 [at_dist N 1 2];
   graph_atom N 1 [at_dist N 5 4]].
Definition type1 {N : num} (a : atom N) : res Z := Ok (Z.b2z (Z.eqb (a_type a) 1)).
Definition never {N : num} (_ : atom N) : res Z := Ok 0%Z.
(** Cluster ids and flags of the real atoms and the value returned. *)
Definition clusters {N : num} (r : res (sys N * Z)) : option (list Z * list bool * Z) :=
  match r with
  | Ok (t, lc) =>
      match get_atoms t with
      | Ok l => Some (map (@a_belongs N) l, map (@a_lcluster N) l, lc)
      | Err _ => None
      end
  | Err _ => None
  end.
Definition cluster {N : num} (s : sys N) (f : atom N -> res Z) (c : N) :=
  cluster_atoms id_inv (fun _ => raw_atom N) s f c.
Lemma g_sys_counters N : counters_ok (g_sys N).
Proof.
  exists (s_atoms (g_sys N)), []. rewrite app_nil_r. split; [reflexivity|]. split.
  { intros a Ha. cbn in Ha. decompose [or] Ha; subst; try contradiction; reflexivity. }
  split; [intros a []|]. split; [|split]; vm_compute; reflexivity.
Qed.

Lemma g_sys_get N : get_atoms (g_sys N) = Ok (s_atoms (g_sys N)).
Proof. vm_compute. reflexivity. Qed.

(** ** C34 *)
(** In a symmetric graph two selected atoms have the same id exactly when a
    chain of selected neighbours within the cutoff leads from one to the
    other; the other atoms have id -1.  Nothing but the cluster results, the
    condition and the cutoff of the atoms changes. *)
Theorem C34_connected_components :
  forall (N : num) inv raw (s t : sys N) condition cutoff lc l,
  counters_ok s -> get_atoms s = Ok l ->
  (forall i j, joined l condition cutoff i j -> joined l condition cutoff j i) ->
  cluster_atoms inv raw s condition cutoff = Ok (t, lc) ->
  exists l', get_atoms t = Ok l' /\ map (@but_cluster N) l' = map (@but_cluster N) l /\
    (forall i j, selected l condition i -> selected l condition j ->
       (id_at l' i = id_at l' j <-> chain l condition cutoff i j)) /\
    (forall i, selected l condition i -> exists c, id_at l' i = Some c /\ (0 < c)%Z) /\
    (forall i, i < length l -> ~ selected l condition i -> id_at l' i = Some (-1)%Z).
Proof.
  intros N inv raw s t condition cutoff lc l Hs Hl Hsym Hrun.
  pose proof (cluster_core inv raw condition cutoff Hs Hl) as C. rewrite Hrun in C.
  destruct C as (l' & roots & mx & H1 & H2 & H3 & H4 & Hid & Hno & Hroot & Hinc & _).
  exists l'. split; [auto|]. split; [auto|]. split; [|split; auto].
  2:{ intros i Hi. destruct (Hid i Hi) as (m & r & _ & _ & ->). eexists. split; [reflexivity|lia]. }
  assert (Htr : forall i j k, chain l condition cutoff i j -> chain l condition cutoff j k -> chain l condition cutoff i k).
  { intros i j k H. induction H; auto. intros. eapply chain_step; eauto. }
  assert (Hrev : forall i j, chain l condition cutoff i j -> chain l condition cutoff j i).
  { intros i j H. induction H as [i Hi|i j k Hj Hc IH]; [now constructor|].
    apply Htr with j; auto. apply chain_step with i; [auto|]. constructor. apply Hj. }
  intros i j Hi Hj. destruct (Hid i Hi) as (m & r & Er & Sr & ->). destruct (Hid j Hj) as (m' & r' & Er' & Sr' & ->).
  split.
  - intros E. assert (m = m') as <- by (injection E; lia). rewrite Er in Er'. injection Er' as <-.
    apply Htr with r; [apply Hrev, Sr|apply Sr'].
  - intros Hc. assert (r = r') as <-.
    { destruct Sr as [A B], Sr' as [A' B']. assert (r <= r') by (apply B, (Htr _ _ _ A'), Hrev, Hc).
      assert (r' <= r) by (apply B', (Htr _ _ _ A), Hc). lia. }
    destruct (Nat.lt_trichotomy m m') as [X|[->|X]]; auto.
    + pose proof (Hinc _ _ _ _ X Er Er'). lia.
    + pose proof (Hinc _ _ _ _ X Er' Er). lia.
Qed.
Print Assumptions C34_connected_components.
(** Without symmetry: the id is shared exactly by the atoms that have the same
    first atom from which they can be reached. *)
Theorem C34_any_graph :
  forall (N : num) inv raw (s t : sys N) condition cutoff lc l,
  counters_ok s -> get_atoms s = Ok l ->
  cluster_atoms inv raw s condition cutoff = Ok (t, lc) ->
  exists l', get_atoms t = Ok l' /\
    forall i j, selected l condition i -> selected l condition j ->
    exists u v, source l condition cutoff u i /\ source l condition cutoff v j /\
      (id_at l' i = id_at l' j <-> u = v).
Proof.
  intros N inv raw s t condition cutoff lc l Hs Hl Hrun.
  pose proof (cluster_core inv raw condition cutoff Hs Hl) as C. rewrite Hrun in C.
  destruct C as (l' & roots & mx & H1 & H2 & H3 & H4 & Hid & Hno & Hroot & Hinc & _).
  exists l'. split; auto. intros i j Hi Hj.
  destruct (Hid i Hi) as (m & r & Er & Sr & ->). destruct (Hid j Hj) as (m' & r' & Er' & Sr' & ->).
  exists r, r'. split; [auto|]. split; [auto|]. split.
  - intros E. assert (m = m') as <- by (injection E; lia). congruence.
  - intros <-. destruct (Nat.lt_trichotomy m m') as [X|[->|X]]; auto.
    + pose proof (Hinc _ _ _ _ X Er Er'). lia.
    + pose proof (Hinc _ _ _ _ X Er' Er). lia.
Qed.
Print Assumptions C34_any_graph.
(** The call succeeds when the condition gives 0 or 1 for every atom, the box
    can be used and the neighbour indices are those of stored atoms. *)
Theorem C34_succeeds :
  forall (N : num) inv raw (s : sys N) condition cutoff l,
  counters_ok s -> get_atoms s = Ok l -> l <> [] ->
  (forall a, In a l -> condition a = Ok 0%Z \/ condition a = Ok 1%Z) ->
  neqb (box_sum (box_get s)) n0 = false -> (forall m, inv m <> None) ->
  (forall a e, In a l -> In e (a_nbrs a) -> nb_idx e < padded (length l)) ->
  exists t lc, cluster_atoms inv raw s condition cutoff = Ok (t, lc).
Proof.
  intros N inv raw s condition cutoff l Hs Hl Hne Hc Hb Hi Hv.
  pose proof (cluster_core inv raw condition cutoff Hs Hl) as C.
  destruct (cluster_atoms inv raw s condition cutoff) as [[t lc]|e]; [eauto|]. exfalso.
  destruct C as [C|[(a & Ha & C)|[(l1 & Hlen & C)|[_ C]]]].
  - destruct l as [|a l]; [congruence|].
    pose proof (counters_firstn Hs) as E. rewrite Hl in E. injection E as E.
    unfold test_condition in C. destruct (s_atoms s) as [|b x]; [now rewrite firstn_nil in E|].
    destruct (Z.to_nat (s_real s)); [discriminate|]. injection E as -> _. cbn in C.
    destruct (Hc b) as [X|X]; simpl; auto; rewrite X in C; discriminate.
  - destruct (Hc a Ha) as [X|X]; rewrite X in C; discriminate.
  - destruct (@atoms_set_ok N raw inv s l1) as [s' E]; auto; [|congruence]. destruct l1, l; simpl in *; congruence.
  - auto.
Qed.
Print Assumptions C34_succeeds.

Example C34_hyp : counters_ok (g_sys F64) /\
  (forall i j, joined (s_atoms (g_sys F64)) type1 n0 i j -> joined (s_atoms (g_sys F64)) type1 n0 j i) /\
  clusters (cluster (g_sys F64) type1 n0) =
    Some ([1; 2; 1; -1; 2; 1; 3]%Z, [true; false; true; false; false; true; false], 3%Z).
Proof.
  split; [apply g_sys_counters|]. split; [|vm_compute; reflexivity].
  intros i j (Hi & Hj & a & e & Ea & He & Ej & Hd). split; [auto|]. split; [auto|].
  unfold near.
  do 7 (destruct i as [|i]; [cbn in Ea; apply Some_inj in Ea; subst a; cbn in He; destruct He as [<-|He];
     [|try (destruct He as [<-|[]])]; try contradiction; cbn in Ej; subst j;
     try discriminate Hd; eexists _, _; (split; [reflexivity|]); cbn;
     first [split; [left; reflexivity|split; [reflexivity|exact Hd]]
           |split; [right; left; reflexivity|split; [reflexivity|exact Hd]]]|]).
  cbn in Ea. destruct i; discriminate Ea.
Qed.
(** With a larger cutoff atom 6 joins atom 4; the neighbour lists of the run
    with ghosts (the system has fewer than 200 atoms) are those given. *)
Example C34_cutoff : clusters (cluster (g_sys F64) type1 (nofZ 5)) =
  Some ([1; 2; 1; -1; 2; 1; 2]%Z, [true; false; true; false; false; true; false], 3%Z).
Proof. vm_compute. reflexivity. Qed.
Example C34_succeeds_hyp :
  (forall a : atom F64, In a (s_atoms (g_sys F64)) -> type1 a = Ok 0%Z \/ type1 a = Ok 1%Z) /\
  neqb (box_sum (box_get (g_sys F64))) n0 = false /\
  (forall a e, In a (s_atoms (g_sys F64)) -> In e (a_nbrs a) -> nb_idx e < padded 7).
Proof.
  split; [intros a _; unfold type1; destruct (Z.eqb _ _); auto|]. split; [vm_compute; reflexivity|].
  intros a e Ha He. assert (7 <= padded 7) by (apply Nat.leb_le; vm_compute; reflexivity).
  cbn in Ha. decompose [or] Ha; subst; try contradiction;
    cbn in He; decompose [or] He; subst; try contradiction; cbn [nb_idx at_dist]; lia.
Qed.

(** ** C35 *)
(** The ids are 1, 2, ..., every id below an atom's id belongs to an atom
    before it; the value returned is the size of a largest cluster. *)
Theorem C35_ids_and_largest_size :
  forall (N : num) inv raw (s t : sys N) condition cutoff lc l,
  counters_ok s -> get_atoms s = Ok l ->
  cluster_atoms inv raw s condition cutoff = Ok (t, lc) ->
  exists l' k, get_atoms t = Ok l' /\ (0 <= k)%Z /\
    (forall c, (1 <= c <= k)%Z <-> exists i, selected l condition i /\ id_at l' i = Some c) /\
    (forall j c c', selected l condition j -> id_at l' j = Some c -> (1 <= c' < c)%Z ->
       exists i, i < j /\ selected l condition i /\ id_at l' i = Some c') /\
    (forall c, (1 <= c <= k)%Z -> (size l' c <= lc)%Z) /\
    ((k = 0%Z /\ lc = 0%Z) \/ (0 < lc)%Z /\ exists c, (1 <= c <= k)%Z /\ size l' c = lc).
Proof.
  intros N inv raw s t condition cutoff lc l Hs Hl Hrun.
  pose proof (cluster_core inv raw condition cutoff Hs Hl) as C. rewrite Hrun in C.
  destruct C as (l' & roots & mx & H1 & H2 & H3 & H4 & Hid & Hno & Hroot & Hinc & _ & _ & Hsz & Hmax).
  assert (Hrid : forall m r, nth_error roots m = Some r -> selected l condition r /\ id_at l' r = Some (Z.of_nat m + 1)%Z).
  { intros m r Er. pose proof (Hroot m r Er) as [A B].
    assert (selected l condition r) as Hr by (inversion A as [? X|? ? ? X]; subst; [auto|apply X]).
    split; auto. destruct (Hid r Hr) as (m' & r' & Er' & [A' B'] & ->). f_equal. f_equal. f_equal.
    assert (r' = r).
    { pose proof (B _ A'). pose proof (B' r A). lia. }
    subst r'. destruct (Nat.lt_trichotomy m m') as [X|[->|X]]; auto.
    - pose proof (Hinc _ _ _ _ X Er Er'). lia.
    - pose proof (Hinc _ _ _ _ X Er' Er). lia. }
  exists l', (Z.of_nat (length roots)). split; [auto|]. split; [lia|]. split; [|split; [|split]].
  - intros c. split.
    + intros Hc. destruct (@nth_error_some _ roots (Z.to_nat (c - 1))) as [r Er]; [lia|].
      destruct (Hrid _ _ Er) as [A B]. exists r. split; auto. rewrite B. f_equal. lia.
    + intros (i & Hi & E). destruct (Hid i Hi) as (m & r & Er & _ & E'). rewrite E in E'. injection E' as ->.
      assert (m < length roots) by (apply nth_error_Some; congruence). lia.
  - intros j c c' Hj E Hc. destruct (Hid j Hj) as (m & r & Er & [_ B] & E'). rewrite E in E'. injection E' as ->.
    assert (m < length roots) by (apply nth_error_Some; congruence).
    destruct (@nth_error_some _ roots (Z.to_nat (c' - 1))) as [r' Er']; [lia|].
    destruct (Hrid _ _ Er') as [A' B']. exists r'. split; [|split; auto].
    + assert (r' < r) by (eapply (Hinc (Z.to_nat (c' - 1)) m); eauto; lia).
      assert (r <= j); [|lia]. apply B. now constructor.
    + rewrite B'. f_equal. lia.
  - intros c Hc. replace c with (Z.of_nat (Z.to_nat (c - 1)) + 1)%Z by lia. apply Hsz. lia.
  - destruct Hmax as [(-> & -> & _)|(m & A & -> & B & D & _)]; [left; auto|]. right. split; auto.
    exists (Z.of_nat m + 1)%Z. split; auto. lia.
Qed.
Print Assumptions C35_ids_and_largest_size.
Example C35_hyp : counters_ok (g_sys F64) /\ get_atoms (g_sys F64) = Ok (s_atoms (g_sys F64)) /\
  clusters (cluster (g_sys F64) (fun a => Ok (1 - Z.b2z (Z.eqb (a_type a) 1))%Z) n0) =
    Some ([-1; -1; -1; 1; -1; -1; -1]%Z, [false; false; false; true; false; false; false], 1%Z).
Proof. split; [apply g_sys_counters|]. split; [apply g_sys_get|vm_compute; reflexivity]. Qed.

(** ** C36 *)
(** When some atom is selected: exactly the atoms of the first cluster of
    maximal size are flagged. *)
Theorem C36_flag_marks_largest :
  forall (N : num) inv raw (s t : sys N) condition cutoff lc l,
  counters_ok s -> get_atoms s = Ok l -> (exists i, selected l condition i) ->
  cluster_atoms inv raw s condition cutoff = Ok (t, lc) ->
  exists l' mx, get_atoms t = Ok l' /\ size l' mx = lc /\ (0 < mx)%Z /\
    (forall c, (1 <= c)%Z -> (size l' c <= lc)%Z) /\ (forall c, (1 <= c < mx)%Z -> (size l' c < lc)%Z) /\
    forall i, i < length l -> flagged l' i = Some true <-> id_at l' i = Some mx.
Proof.
  intros N inv raw s t condition cutoff lc l Hs Hl [i0 Hi0] Hrun.
  pose proof (cluster_core inv raw condition cutoff Hs Hl) as C. rewrite Hrun in C.
  destruct C as (l' & roots & mx & H1 & H2 & H3 & H4 & Hid & Hno & Hroot & Hinc & Hfl & _ & Hsz & Hmax).
  destruct Hmax as [(-> & _)|(m & A & -> & B & D & F)].
  { destruct (Hid i0 Hi0) as ([|m] & r & X & _); discriminate. }
  assert (Hlen : length l' = length l) by (apply (f_equal (@length _)) in H3; now rewrite !map_length in H3).
  exists l', (Z.of_nat m + 1)%Z. split; [auto|]. split; [auto|]. split; [lia|]. split; [|split].
  - intros c Hc. destruct (Z.le_gt_cases c (Z.of_nat (length roots))) as [Hle|Hgt].
    + replace c with (Z.of_nat (Z.to_nat (c - 1)) + 1)%Z by lia. apply Hsz. lia.
    + assert (size l' c = 0%Z) as ->; [|lia]. unfold size. rewrite filter_none; auto.
      intros a Ha. apply Z.eqb_neq. intros E. apply In_nth_error in Ha as [i Ei].
      assert (id_at l' i = Some c) as Hc' by (unfold id_at; rewrite Ei; cbn; now rewrite E).
      assert (Hi : i < length l) by (rewrite <- Hlen; apply nth_error_Some; congruence).
      assert (~ ~ selected l condition i) as Hns.
      { intros X. rewrite (Hno i Hi X) in Hc'. injection Hc' as <-. lia. }
      apply Hns. intros X. destruct (Hid i X) as (m' & r & Er & _ & E'). rewrite Hc' in E'. injection E' as ->.
      assert (m' < length roots) by (apply nth_error_Some; congruence). lia.
  - intros c Hc. replace c with (Z.of_nat (Z.to_nat (c - 1)) + 1)%Z by lia. apply F. lia.
  - intros i Hi. destruct (@nth_error_some _ l' i) as [a Ea]; [lia|].
    unfold flagged, id_at. rewrite Ea. cbn [option_map]. rewrite (Hfl a) by (eapply nth_error_In; eauto).
    destruct (Z.eqb_spec (a_belongs a) (Z.of_nat m + 1)) as [->|X]; split; intros E; auto; try discriminate.
    injection E as E. contradiction.
Qed.
Print Assumptions C36_flag_marks_largest.
Example C36_hyp : counters_ok (g_sys F64) /\ selected (s_atoms (g_sys F64)) type1 1 /\
  clusters (cluster (g_sys F64) type1 (nofZ 2)) =
    Some ([1; 2; 1; -1; 3; 1; 4]%Z, [true; false; true; false; false; true; false], 3%Z).
Proof.
  split; [apply g_sys_counters|]. split; [|vm_compute; reflexivity].
  eexists _, 1%Z. split; [reflexivity|]. split; [reflexivity|discriminate].
Qed.
(** When nothing is selected the id of the largest cluster of an earlier call
    is kept: no atom is flagged if there was one, every atom if there was
    none. *)
Theorem C36_nothing_selected :
  forall (N : num) inv raw (s t : sys N) condition cutoff lc l,
  counters_ok s -> get_atoms s = Ok l -> (forall i, ~ selected l condition i) ->
  cluster_atoms inv raw s condition cutoff = Ok (t, lc) ->
  lc = 0%Z /\ s_maxclus t = s_maxclus s /\ exists l', get_atoms t = Ok l' /\
    forall i, i < length l -> flagged l' i = Some (Z.eqb (s_maxclus s) (-1)).
Proof.
  intros N inv raw s t condition cutoff lc l Hs Hl Hns Hrun.
  pose proof (cluster_core inv raw condition cutoff Hs Hl) as C. rewrite Hrun in C.
  destruct C as (l' & roots & mx & H1 & H2 & H3 & H4 & Hid & Hno & Hroot & Hinc & Hfl & _ & Hsz & Hmax).
  assert (roots = []) as ->.
  { destruct roots as [|r roots]; auto. exfalso. destruct (Hroot 0 r eq_refl) as [A _].
    apply (Hns r). inversion A as [? X|? ? ? X]; subst; [auto|apply X]. }
  destruct Hmax as [(_ & -> & ->)|(m & A & _)]; [|simpl in A; lia].
  assert (Hlen : length l' = length l) by (apply (f_equal (@length _)) in H3; now rewrite !map_length in H3).
  split; [auto|]. split; [auto|]. exists l'. split; auto. intros i Hi.
  destruct (@nth_error_some _ l' i) as [a Ea]; [lia|]. pose proof (Hno i Hi (Hns i)) as Hi'.
  unfold id_at in Hi'. unfold flagged. rewrite Ea in *. cbn in *. injection Hi' as Hi'.
  rewrite (Hfl a) by (eapply nth_error_In; eauto). rewrite Hi'. f_equal. apply Z.eqb_sym.
Qed.
Print Assumptions C36_nothing_selected.
Example C36_nothing_hyp : counters_ok (g_sys F64) /\ (forall i, ~ selected (s_atoms (g_sys F64)) never i) /\
  s_maxclus (g_sys F64) = (-1)%Z.
Proof.
  split; [apply g_sys_counters|]. split; [|reflexivity].
  intros i (a & v & _ & E & X). injection E as <-. auto.
Qed.
(** In a new system with an empty selection every atom is flagged. *)
Theorem C36_empty_selection_refuted :
  exists (s t : sys F64) lc l l', counters_ok s /\ get_atoms s = Ok l /\ (forall i, ~ selected l never i) /\
    cluster s never n0 = Ok (t, lc) /\ get_atoms t = Ok l' /\ l' <> [] /\
    forall i, i < length l' -> flagged l' i = Some true.
Proof.
  assert (F : clusters (cluster (g_sys F64) never n0) =
     Some ([-1; -1; -1; -1; -1; -1; -1]%Z, [true; true; true; true; true; true; true], 0%Z)) by (vm_compute; reflexivity).
  pose proof (g_sys_counters F64) as Hc. pose proof (g_sys_get F64) as Hg.
  generalize dependent (g_sys F64). intros s F Hc Hg.
  unfold clusters in F. destruct (cluster s never n0) as [[t lc]|] eqn:E; [|discriminate].
  destruct (get_atoms t) as [l'|] eqn:El; [|discriminate].
  exists s, t, lc, (s_atoms s), l'. split; [exact Hc|]. split; [exact Hg|]. split.
  { intros i (a & v & _ & X & Y). injection X as <-. auto. }
  split; [exact E|]. split; [exact El|]. injection F as F1 F2 F3. split.
  { intros ->. discriminate F1. }
  intros i Hi. unfold flagged. rewrite <- nth_error_map, F2.
  assert (i < 7) as Hi7 by (apply (f_equal (@length _)) in F1; rewrite map_length in F1; cbn in F1; lia).
  do 7 (destruct i as [|i]; [reflexivity|]). lia.
Qed.
Print Assumptions C36_empty_selection_refuted.

(** ** C37 *)
(** A system without ghost atoms, of any number of atoms: selected atoms whose
    closest periodic images are within the cutoff of find_neighbors are put
    into the same cluster. *)
Theorem C37_joined_across_boundaries :
  forall srt voro area_pow inv raw (s s1 t : sys Rnum) (r th pad : R) nl condition lc l,
  counters_ok s -> s_ghost s = 0%Z -> ortho s -> (forall a, In a (s_atoms s) -> in_box (s_len s) (a_pos a)) ->
  neqb (n := Rnum) r n0 = false -> (s_real s <= 2300)%Z \/ cells_ok s r ->
  (forall i, i < length (s_atoms s) -> length (neighbors_within s r FNone i) <= 300) ->
  find_neighbors srt voro area_pow inv s (mkArgs (N := Rnum) (MCutoff (CutVal (N := Rnum) r)) FNone th pad nl) = Ok (s1, None) ->
  get_atoms s1 = Ok l ->
  cluster_atoms inv raw s1 condition n0 = Ok (t, lc) ->
  exists l', get_atoms t = Ok l' /\
    forall i j a b d, nth_error (s_atoms s) i = Some a -> nth_error (s_atoms s) j = Some b ->
      selected l condition i -> selected l condition j ->
      is_min_image_distance (s_len s) (a_pos a) (a_pos b) d -> (d < r)%R ->
      id_at l' i = id_at l' j.
Proof.
  intros srt voro area_pow inv raw s s1 t r th pad nl condition lc l Hs Hg Ho Hin Hr Hsize Hcap Hfind Hl Hrun.
  assert (St : stored s) by apply (counters_stored Hs).
  pose proof (cutoff_evs St Hr Hfind) as (_ & _ & ps & Hps & Hres).
  assert (Hc1 : counters_ok s1).
  { destruct Hres as [HL Hat]. pose proof (cutoff_frame Hfind St Hr) as (A & B & C).
    apply (counters_same Hs); auto. apply P_QSys.nth_error_ext'. intros k. rewrite !nth_error_map.
    destruct (nth_error (s_atoms s) k) as [a|] eqn:Ea.
    - destruct (Hat k a Ea) as (a' & Ea' & Hsame & _). rewrite Ea'. cbn. f_equal. exact (f_equal (@a_ghost Rnum) Hsame).
    - apply nth_error_None in Ea. rewrite <- HL in Ea. apply nth_error_None in Ea. now rewrite Ea. }
  assert (Hl1 : l = s_atoms s1).
  { rewrite (counters_firstn Hc1) in Hl. injection Hl as <-. apply firstn_all2.
    pose proof (cutoff_frame Hfind St Hr) as (A & B & C). destruct (counters_stored Hc1) as [D _].
    destruct Hs as (x & y & _ & _ & _ & E1 & E2 & E3). lia. }
  (* neighbours of the result *)
  assert (Hnb : forall i, i < length (s_atoms s) -> Permutation (nbrs_at s1 i) (neighbors_within s r FNone i)).
  { destruct Hsize as [H|H].
    - destruct (@C15_cutoff_neighbours Rnum srt voro area_pow inv s r th pad nl FNone St H Hr Hcap) as (s2 & E & _ & _ & X).
      rewrite Hfind in E. injection E as <-. intros i Hi. destruct (nth_error_some Hi) as [a Ea].
      destruct (X i a Ea) as (a' & Ea' & _ & Hn & _). unfold nbrs_at. rewrite Ea', Hn. apply Permutation_refl.
    - destruct (C18_find_neighbors_any_size srt voro area_pow inv s r th pad nl FNone St H Hcap) as (s2 & E & X).
      rewrite Hfind in E. injection E as <-. exact X. }
  assert (Hcut : forall i a', nth_error (s_atoms s1) i = Some a' -> a_nbrs a' <> [] -> a_cutoff a' = r).
  { intros i a' Ea'. destruct Hres as [HL Hat]. assert (i < length (s_atoms s)) as Hi.
    { rewrite <- HL. apply nth_error_Some. congruence. }
    destruct (nth_error_some Hi) as [a Ea]. destruct (Hat i a Ea) as (a'' & Ea'' & _ & _ & _ & _ & X).
    rewrite Ea' in Ea''. apply Some_inj in Ea''. now subst a''. }
  assert (Hr0 : neqb (n := Rnum) (n0 (N := Rnum)) n0 = true).
  { cbn. unfold Reqb. destruct (Req_EM_T 0 0); congruence. }
  assert (Hnear : forall i j, near l n0 i j <-> exists e, In e (nbrs_at s1 i) /\ nb_idx e = j).
  { intros i j. subst l. split.
    - intros (a & e & Ea & He & Ej & _). exists e. unfold nbrs_at. now rewrite Ea.
    - intros (e & He & Ej). unfold nbrs_at in He. destruct (nth_error (s_atoms s1) i) as [a|] eqn:Ea; [|destruct He].
      exists a, e. repeat split; auto. unfold range. rewrite Hr0. rewrite (Hcut i a Ea) by (intros X; rewrite X in He; destruct He).
      assert (In e (nbrs_at s1 i)) as He' by (unfold nbrs_at; now rewrite Ea).
      destruct (cutoff_mirror St Hr Hfind He') as (_ & _ & Hd & _). apply Rltb_true in Hd. apply Rleb_true. lra. }
  assert (Hsym : forall i j, joined l condition n0 i j -> joined l condition n0 j i).
  { intros i j (A & B & C). split; [auto|]. split; [auto|]. apply Hnear in C as (e & He & Ej). apply Hnear.
    destruct (cutoff_mirror St Hr Hfind He) as (_ & _ & _ & _ & e' & He' & Ei & _). subst j. eauto. }
  destruct (C34_connected_components Rnum inv raw s1 t condition n0 lc l Hc1 Hl Hsym Hrun) as (l' & A & _ & B & _).
  exists l'. split; auto. intros i j a b d Ea Eb Hi Hj Hd Hlt. apply B; auto.
  destruct (Nat.eq_dec i j) as [->|Hne]; [now constructor|].
  apply chain_step with j; [|now constructor]. split; [auto|]. split; [auto|]. apply Hnear.
  assert (Hm : In j (map (@nb_idx Rnum) (neighbors_within s r FNone i))).
  { apply (C15_minimum_image_neighbours s r i j a b Ho Ea Eb); [apply Hin; eapply nth_error_In; eauto..|].
    split; eauto. }
  apply in_map_iff in Hm as (e & Ej & He). exists e. split; auto.
  assert (i < length (s_atoms s)) as Hil by (apply nth_error_Some; congruence).
  eapply Permutation_in; [apply Permutation_sym, Hnb; auto|exact He].
Qed.
Print Assumptions C37_joined_across_boundaries.
(** Two atoms on either side of a face of the box, without padding. *)
Definition p_sys (N : num) : sys N := cub N 10 [(1,1,1,1); (9,1,1,1)]%Z.
Example C37_hyp : counters_ok (p_sys Rnum) /\ s_ghost (p_sys Rnum) = 0%Z /\ ortho (p_sys Rnum) /\
  (forall a, In a (s_atoms (p_sys Rnum)) -> in_box (s_len (p_sys Rnum)) (a_pos a)) /\
  neqb (n := Rnum) 3%R n0 = false /\ (s_real (p_sys Rnum) <= 2300)%Z /\
  (forall i, i < length (s_atoms (p_sys Rnum)) -> length (neighbors_within (p_sys Rnum) 3%R FNone i) <= 300).
Proof.
  assert (L : s_len (p_sys Rnum) = mkV (N := Rnum) 10%R 10%R 10%R).
  { unfold p_sys, cub. cbn [set_atoms sbox s_len]. apply diag_len; simpl; lra. }
  split.
  { exists (s_atoms (p_sys Rnum)), []. rewrite app_nil_r. split; [reflexivity|]. split.
    { intros a Ha. cbn in Ha. decompose [or] Ha; subst; try contradiction; reflexivity. }
    split; [intros a []|]. split; [reflexivity|split; reflexivity]. }
  split; [reflexivity|]. split; [split; [reflexivity|]; unfold pos3; rewrite L; cbn [vx vy vz]; lra|]. split.
  { rewrite L. intros a Ha. cbn in Ha. decompose [or] Ha; subst; try contradiction; unfold in_box; cbn; lra. }
  split; [apply Reqb_false; cbn; lra|]. split; [cbn; lia|].
  intros i Hi. etransitivity; [apply length_neighbors_within|]. cbn. lia.
Qed.
Definition find_then_cluster {N : num} (s : sys N) (c : Z) : res (sys N * Z) :=
  match find_neighbors isort no_voro idp id_inv s (cutoff_args N c FNone) with
  | Ok (s1, None) => cluster s1 type1 n0
  | Ok (_, Some e) | Err e => Err e
  end.
Example C37_runs : clusters (find_then_cluster (p_sys F64) 3) = Some ([1; 1]%Z, [true; true], 2%Z).
Proof. vm_compute. reflexivity. Qed.
(** The same two atoms assigned through System.atoms: periodic images are
    added as ghost atoms, the neighbour across the face is a ghost, and the
    two atoms are in different clusters. *)
Theorem C37_small_system_refuted :
  exists (s0 s s1 t : sys P64) l l' lc,
    box_set id_inv (sys_ctor (raw_sys P64)) (diag (nofZ 10) (nofZ 10) (nofZ 10)) = Ok s0 /\
    map (@a_pos P64) l = [zv P64 1 1 1; zv P64 9 1 1] /\
    atoms_set id_inv (fun _ => raw_atom P64) s0 l = Ok s /\
    find_neighbors isort no_voro idp id_inv s (cutoff_args P64 3 FNone) = Ok (s1, None) /\
    cluster s1 type1 n0 = Ok (t, lc) /\ get_atoms t = Ok l' /\
    id_at l' 0 <> id_at l' 1 /\ lc = 1%Z.
Proof.
  set (l := [at_pos (zv P64 1 1 1) <| a_type := 1%Z |>; at_pos (zv P64 9 1 1) <| a_type := 1%Z |>]).
  assert (F : match box_set id_inv (sys_ctor (raw_sys P64)) (diag (nofZ 10) (nofZ 10) (nofZ 10)) with
     | Ok s0 => match atoms_set id_inv (fun _ => raw_atom P64) s0 l with
                | Ok s => match find_neighbors isort no_voro idp id_inv s (cutoff_args P64 3 FNone) with
                          | Ok (s1, None) => clusters (cluster s1 type1 n0)
                          | _ => None end
                | Err _ => None end
     | Err _ => None end = Some ([1; 2]%Z, [true; false], 1%Z)) by (vm_compute; reflexivity).
  assert (Hl : map (@a_pos P64) l = [zv P64 1 1 1; zv P64 9 1 1]) by reflexivity.
  clearbody l. destruct (box_set _ _ _) as [s0|]; [|discriminate].
  destruct (atoms_set _ _ _ _) as [s|] eqn:E1; [|discriminate].
  destruct (find_neighbors _ _ _ _ _ _) as [[s1 [e|]]|] eqn:E2; [discriminate| |discriminate].
  unfold clusters in F. destruct (cluster s1 type1 n0) as [[t lc]|] eqn:E3; [|discriminate].
  destruct (get_atoms t) as [l'|] eqn:E4; [|discriminate]. injection F as F1 F2 F3.
  exists s0, s, s1, t, l, l', lc. split; [reflexivity|]. split; [exact Hl|]. split; [exact E1|]. split; [exact E2|].
  split; [exact E3|]. split; [exact E4|]. split; [|exact F3].
  unfold id_at. rewrite <- !nth_error_map, F1. discriminate.
Qed.
Print Assumptions C37_small_system_refuted.

(** ** C38 *)
(** The recursion ends: find_clusters_recursive returns, whatever the
    neighbour lists; the one way to fail is a neighbour index that is not that
    of an atom. *)
Theorem C38_terminates :
  forall (N : num) (s : sys N) cutoff, counters_ok s ->
  (exists t calls, find_clusters_recursive s cutoff = Ok (t, calls)) \/
  (find_clusters_recursive s cutoff = Err UB /\
   exists a e, In a (s_atoms s) /\ In e (a_nbrs a) /\ length (s_atoms s) <= nb_idx e).
Proof.
  intros N s c Hs. pose proof (clusters_spec c Hs) as C.
  destruct (find_clusters_recursive s c) as [[t calls]|e]; [left; eauto|]. right. destruct C as [-> C]. split; [reflexivity|].
  destruct (find (fun a => existsb (fun e => length (s_atoms s) <=? nb_idx e) (a_nbrs a)) (s_atoms s)) as [a|] eqn:E.
  - apply find_some in E as [Ha E]. apply existsb_exists in E as (e & He & E). apply Nat.leb_le in E. eauto.
  - exfalso. apply C. intros i a e Ea He.
    assert (length (start s c) = length (s_atoms s)) as HL by (unfold start, reset_clusters; rewrite map_first_length; apply map_length).
    rewrite HL. destruct (start_from Hs Ea) as (b & Eb & _ & _ & Hn). rewrite Hn in He.
    apply nth_error_In in Eb. pose proof (find_none _ _ E b Eb) as X. cbn in X.
    destruct (Nat.lt_ge_cases (nb_idx e) (length (s_atoms s))) as [|Hge]; auto.
    assert (existsb (fun e => length (s_atoms s) <=? nb_idx e) (a_nbrs b) = true) as Y; [|congruence].
    apply existsb_exists. exists e. split; auto. now apply Nat.leb_le.
Qed.
Print Assumptions C38_terminates.
(** harvest_cluster is called exactly once for every real atom that satisfies
    the condition and for no other atom. *)
Theorem C38_each_selected_atom_once :
  forall (N : num) (s t : sys N) cutoff calls, counters_ok s ->
  find_clusters_recursive s cutoff = Ok (t, calls) ->
  NoDup calls /\
  forall i, In i calls <-> exists a, nth_error (s_atoms s) i = Some a /\ a_ghost a = 0%Z /\ a_cond a <> 0%Z.
Proof.
  intros N s t c calls Hs Hrun. pose proof (clusters_spec c Hs) as C. rewrite Hrun in C.
  destruct C as (ci & roots & I & _). split; [exact (i_nodup I)|]. intros i. rewrite (i_calls I). split.
  - intros [(a & Ea & Hg & Hc) _]. destruct (start_from Hs Ea) as (b & Eb & G & K & _). exists b. repeat split; congruence.
  - intros (b & Eb & Hg & Hc). assert (ch (start s c) i) as Hch.
    { destruct (@nth_error_some _ (start s c) i) as [a Ea].
      { unfold start, reset_clusters. rewrite map_first_length, map_length. apply nth_error_Some. congruence. }
      destruct (start_from Hs Ea) as (b' & Eb' & G & K & _). rewrite Eb in Eb'. apply Some_inj in Eb'. subst b'.
      exists a. repeat split; congruence. }
    split; auto. apply (i_lab I Hch). exists i. split; [now apply (real_index Hs Eb)|]. split; [auto|constructor].
Qed.
Print Assumptions C38_each_selected_atom_once.
(** cluster_atoms as a whole: it returns or raises one of four exceptions of
    its own, or an exception of the condition. *)
Theorem C38_cluster_atoms_ends :
  forall (N : num) inv raw (s : sys N) condition cutoff l,
  counters_ok s -> get_atoms s = Ok l -> (forall a, In a l -> condition a <> Err Diverges) ->
  cluster_atoms inv raw s condition cutoff <> Err Diverges.
Proof.
  intros N inv raw s condition cutoff l Hs Hl Hc E.
  pose proof (cluster_core inv raw condition cutoff Hs Hl) as C. rewrite E in C.
  destruct C as [C|[(a & Ha & C)|[(l1 & Hlen & C)|[C _]]]].
  - unfold test_condition in C. destruct (get (s_atoms s) 0) as [a|] eqn:Ea; cbn [bind] in C.
    + destruct (condition a); [destruct (_ || _)|]; discriminate.
    + apply get_inv_err in Ea. congruence.
  - eapply Hc; eauto.
  - unfold atoms_set in C. destruct (_ <? 200)%Z; [|discriminate]. destruct (_ =? 0)%Z; [discriminate|].
    destruct (neqb _ _); [discriminate|]. unfold repeat_cell in C. cbn [bind] in C.
    unfold box_set in C. destruct (nltb _ _); [|discriminate]. destruct (inv _); discriminate.
  - discriminate.
Qed.
Print Assumptions C38_cluster_atoms_ends.
(** Atoms 0, 2, 5, ... of the example selected; the calls in order. *)
Example C38_runs : match find_clusters_recursive
    (g_sys F64 <| s_atoms := map (fun a => a <| a_cond := Z.b2z (Z.eqb (a_type a) 1) |>) (s_atoms (g_sys F64)) |>) n0 with
  | Ok (_, calls) => Some calls | Err _ => None end = Some [0; 2; 5; 1; 4; 6].
Proof. vm_compute. reflexivity. Qed.
Example C38_hyp : counters_ok (g_sys F64) /\
  match find_clusters_recursive (of_atoms F64 [with_nbrs F64 [at_dist F64 0 3] <| a_cond := 1%Z |>]) n0 with
  | Err UB => true | _ => false end = true.
Proof. split; [apply g_sys_counters|vm_compute; reflexivity]. Qed.

(** ** C62 *)
(** The surface flag: not solid, or with a neighbour that is a real atom and
    not solid. *)
Theorem C62_surface_flag :
  forall (N : num) inv raw (s t : sys N) condition cutoff lc l,
  counters_ok s -> get_atoms s = Ok l ->
  cluster_atoms inv raw s condition cutoff = Ok (t, lc) ->
  exists l', get_atoms t = Ok l' /\
    forall i a, nth_error l i = Some a -> exists a', nth_error l' i = Some a' /\
      (a_surface a' = true <-> a_solid a = false \/
         exists e b, In e (a_nbrs a) /\ nth_error l (nb_idx e) = Some b /\ a_solid b = false).
Proof.
  intros N inv raw s t condition cutoff lc l Hs Hl Hrun.
  pose proof (cluster_core inv raw condition cutoff Hs Hl) as C. rewrite Hrun in C.
  destruct C as (l' & roots & mx & H1 & H2 & H3 & H4 & _ & _ & _ & _ & _ & Hsf & _).
  exists l'. split; auto.
  assert (Hnth : forall i a, nth_error l i = Some a -> exists a', nth_error l' i = Some a' /\ but_cluster a' = but_cluster a).
  { intros i a Ea. pose proof (f_equal (fun x => nth_error x i) H3) as E. cbn beta in E. rewrite !nth_error_map, Ea in E.
    destruct (nth_error l' i) as [a'|]; [|discriminate]. exists a'. split; auto. now apply Some_inj in E. }
  assert (Hgh : forall i a, nth_error l i = Some a -> a_ghost a = 0%Z).
  { intros i a Ea. pose proof (counters_firstn Hs) as E. rewrite Hl in E. injection E as ->.
    assert (i < Z.to_nat (s_real s)).
    { assert (i < length (firstn (Z.to_nat (s_real s)) (s_atoms s))) as X by (apply nth_error_Some; congruence).
      rewrite firstn_length in X. lia. }
    rewrite firstn_nth in Ea by auto. apply (real_index Hs Ea). auto. }
  pose proof (counters_firstn H2) as Hf. rewrite H1 in Hf. injection Hf as Hf.
  assert (Hstored : forall j b, nth_error (s_atoms t) j = Some b -> a_ghost b = 0%Z -> nth_error l' j = Some b).
  { intros j b Eb G. rewrite Hf, firstn_nth; auto. apply (real_index H2 Eb). auto. }
  assert (Hstored' : forall j b, nth_error l' j = Some b -> nth_error (s_atoms t) j = Some b).
  { intros j b Eb. rewrite Hf in Eb. rewrite firstn_nth in Eb; auto.
    assert (j < length (firstn (Z.to_nat (s_real t)) (s_atoms t))) as X by (apply nth_error_Some; congruence).
    rewrite firstn_length in X. lia. }
  intros i a Ea. destruct (Hnth i a Ea) as (a' & Ea' & Hb). exists a'. split; auto.
  rewrite (Hsf i a' Ea'). unfold surf. 
  assert (a_solid a' = a_solid a) as -> by exact (f_equal (@a_solid N) Hb).
  assert (a_nbrs a' = a_nbrs a) as -> by exact (f_equal (@a_nbrs N) Hb).
  rewrite Bool.orb_true_iff, Bool.negb_true_iff. apply or_iff_compat_l. rewrite existsb_exists. split.
  - intros (e & He & Hq). unfold liquid_at in Hq. destruct (nth_error (s_atoms t) (nb_idx e)) as [b'|] eqn:Eb'; [|discriminate].
    apply andb_prop in Hq as [G S]. apply Z.eqb_eq in G. apply Bool.negb_true_iff in S.
    pose proof (Hstored _ _ Eb' G) as Eb2. 
    assert (nb_idx e < length l).
    { apply (f_equal (@length _)) in H3. rewrite !map_length in H3. rewrite <- H3. apply nth_error_Some. congruence. }
    destruct (nth_error_some H) as [b Eb]. exists e, b. split; auto. split; auto.
    destruct (Hnth _ _ Eb) as (b2 & E2 & Hb2). rewrite Eb2 in E2. apply Some_inj in E2. subst b2.
    pose proof (f_equal (@a_solid N) Hb2) as X. cbn in X. congruence.
  - intros (e & b & He & Eb & S). exists e. split; auto. unfold liquid_at.
    destruct (Hnth _ _ Eb) as (b' & Eb' & Hb'). rewrite (Hstored' _ _ Eb').
    assert (a_solid b' = a_solid b) as -> by exact (f_equal (@a_solid N) Hb').
    assert (a_ghost b' = a_ghost b) as -> by exact (f_equal (@a_ghost N) Hb').
    rewrite (Hgh _ _ Eb), S. reflexivity.
Qed.
Print Assumptions C62_surface_flag.
(** Atom 3 is not solid: 0 and 1, its neighbours, are on the surface. *)
Example C62_runs :
  match cluster (g_sys F64 <| s_atoms := map (fun a => a <| a_solid := Z.eqb (a_type a) 1 |>) (s_atoms (g_sys F64)) |>) type1 n0 with
  | Ok (t, _) => match get_atoms t with Ok l => map (@a_surface F64) l | Err _ => [] end
  | Err _ => [] end = [true; true; false; true; false; false; false].
Proof. vm_compute. reflexivity. Qed.
