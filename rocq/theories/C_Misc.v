(** Properties C70 and C71: find_tetrahedral_voids and compare_atomic_env
    (misc.py:5-175). *)
From Coq Require Import Reals Lra ZArith List Lia Sorted Permutation.
From Verif Require Import Base Num NumR NumF NumP Types Ex M_Geometry M_Container M_Neighbors M_Analysis M_Voro M_Text M_Lammps M_Formats M_Misc
  P_Neighbors P_Container P_Centro P_Voro P_VoroSys P_Text P_Ase P_Misc P_Order C_Neighbors C_Voro C_Energy S_Geometry S_Container S_Neighbors S_Voro S_Formats S_Misc.
Import ListNotations.
Close Scope R_scope. Close Scope Z_scope.
#[local] Open Scope nat_scope.

(** The stored atoms that are not images come first. *)
Definition reals_first {N : num} (s : sys N) : Prop :=
  (0 < s_real s <= s_nop s)%Z /\ forall i a, nth_error (s_atoms s) i = Some a -> i < Z.to_nat (s_real s) -> a_ghost a = 0%Z.

Lemma env_run (N : num) raw inv area_pow cells srt npsum (p : nat -> poly N) (s : sys N) vs :
  C61_data s vs -> (forall m, inv m <> None) -> C61_cells cells p (searched s) ->
  reals_first s -> neqb (box_sum (box_get s)) n0 = false ->
  exists s'' l ws, environments raw inv area_pow cells srt npsum s vs = Ok (s'', combine l ws) /\
    get_atoms s'' = Ok l /\ length l = Z.to_nat (s_real s) /\ length ws = length l /\
    forall i a w, nth_error l i = Some a -> nth_error ws i = Some w ->
      exists a0 c, nth_error (s_atoms s) i = Some a0 /\ cells i = Some c /\ a_pos a = a_pos a0 /\ a_type a = a_type a0 /\
        map nb_idx (a_nbrs a) = map fst (vc_faces c) /\ vd_volume w = vc_volume c /\
        counts_faces (face_counts npsum (nlit 1 20) (nlit 1 100)) (weighted area_pow (p i)) (vd_vector w).
Proof.
  intros HD HI HC (HR & HG) HB.
  destruct (C61_full N raw inv area_pow cells srt npsum p s (nofZ 2) (nlit 6 5) 6%Z vs (nlit 1 20) (nlit 1 100) HD HI HC HR HB)
    as (s' & vs' & s'' & ws & l & E1 & E2 & GA & LL & ES & LW & H).
  assert (AR : all_real l).
  { intros a Ha. apply In_nth_error in Ha as (i & Hi). assert (Li : i < length l) by (apply nth_error_Some; congruence).
    destruct (nth_error ws i) as [w|] eqn:Ew; [|apply nth_error_None in Ew; lia].
    destruct (H i w Ew) as ((a0 & a1 & c & H0 & H1 & _ & _ & _ & H2 & _) & _). assert (a1 = a) as -> by congruence. rewrite H2. apply (HG i a0 H0). lia. }
  destruct (atoms_set_spec AR ES) as (g & _ & G & _).
  exists s'', l, ws. split; [unfold environments; rewrite E1; cbn [bind]; rewrite E2; cbn [bind]; rewrite G; reflexivity|].
  split; [exact G|]. split; [exact LL|]. split; [congruence|]. intros i a w Ha Hw.
  destruct (H i w Hw) as ((a0 & a1 & c & H0 & H1 & Hc & P1 & P2 & P3 & P4 & P5) & _ & P6). assert (a1 = a) as -> by congruence.
  exists a0, c. auto 10.
Qed.

(** ** C70 *)
Lemma nth_combine A B (l : list A) (l' : list B) i a b : nth_error (combine l l') i = Some (a, b) -> nth_error l i = Some a /\ nth_error l' i = Some b.
Proof.
  revert l' i. induction l as [|x l IH]; intros [|y l'] [|i] H; try discriminate; cbn in *; [injection H as <- <-; auto|apply IH, H].
Qed.
Lemma map_fst_combine A B (l : list A) (l' : list B) : length l' = length l -> map fst (combine l l') = l.
Proof. revert l'. induction l as [|x l IH]; intros [|y l'] H; try discriminate; cbn in *; [reflexivity|]. f_equal. apply IH. lia. Qed.

(** On the reals, without direct_coordinates, when no neighbour is an image:
    exactly the atoms with four faces of four edges and four nearest neighbours
    are reported, in the order of the atoms.  The distances are those of the
    system that is returned. *)
Theorem C70_reported :
  forall (npsum : list R -> R) (np_sort : list R -> list R),
  (forall l, npsum l = total l) -> (forall l, Permutation (np_sort l) l /\ StronglySorted Rle (np_sort l)) ->
  forall raw inv cells srt (p : nat -> poly Rnum) (s : sys Rnum) vs (precision : R),
  C61_data s vs -> (forall m, inv m <> None) -> C61_cells cells p (searched s) ->
  reals_first s -> neqb (n := Rnum) (box_sum (box_get s)) n0 = false ->
  (forall i c f, cells i = Some c -> i < Z.to_nat (s_real s) -> In f (vc_faces c) -> fst f < Z.to_nat (s_real s)) ->
  exists s'' l (D : nat -> nat -> R) out ks,
    find_tetrahedral_voids raw inv (fun x => x) cells srt npsum np_sort s vs false precision = Ok (s'', out) /\
    get_atoms s'' = Ok l /\ length l = Z.to_nat (s_real s) /\
    (forall i j a b, nth_error l i = Some a -> nth_error l j = Some b -> D i j = dist_of (get_distance s'' a b false)) /\
    kept (fun i => such (R_face Rlt (1/20) (1/100) 4) (R_weighted (p i)) 4 /\
                   exists c, cells i = Some c /\ four_nearest (D i) (map fst (vc_faces c)) precision)
      (seq 0 (Z.to_nat (s_real s))) ks /\
    Forall2 (fun i r => exists a c, nth_error (s_atoms s) i = Some a /\ cells i = Some c /\ r = (a_type a, vc_volume c, a_pos a)) ks out.
Proof.
  intros npsum np_sort HS HN raw inv cells srt p s vs precision HD HI HC HR HB HF.
  destruct (env_run Rnum raw inv (fun x => x) cells srt npsum p s vs HD HI HC HR HB) as (s'' & l & ws & E & GA & LL & LW & H).
  set (D := fun i j => match nth_error l i, nth_error l j with Some a, Some b => abs_distance s'' (a_pos a) (a_pos b) | _, _ => 0%R end).
  destruct (@kept_run _ _ (void_at (N := Rnum) np_sort s'' l false precision)
    (fun i => such (R_face Rlt (1/20) (1/100) 4) (R_weighted (p i)) 4 /\ exists c, cells i = Some c /\ four_nearest (D i) (map fst (vc_faces c)) precision)
    (fun i r => exists a c, nth_error (s_atoms s) i = Some a /\ cells i = Some c /\ r = (a_type a, vc_volume c, a_pos a)) (combine l ws) 0) as (outs & ks & EM & K & F).
  { intros i [a w] Hi. cbn [Nat.add]. apply nth_combine in Hi as [Ha Hw]. destruct (H i a w Ha Hw) as (a0 & c & Ha0 & Hc & P1 & P2 & P3 & P4 & P5).
    assert (Li : i < Z.to_nat (s_real s)) by (rewrite <- LL; apply nth_error_Some; congruence).
    apply (C61_reals npsum HS (p i) (nlit (n := Rnum) 1 20) (nlit (n := Rnum) 1 100)) in P5. destruct P5 as (n3 & n4 & n5 & n6 & EV & _ & H4 & _).
    change (nlit (n := Rnum) 1 20) with (1/20)%R in H4. change (nlit (n := Rnum) 1 100) with (1/100)%R in H4.
    unfold void_at. cbn [fst snd]. rewrite EV. cbn [map]. change (py_get [Z.of_nat n3; Z.of_nat n4; Z.of_nat n5; Z.of_nat n6] 1) with (Ok (Z.of_nat n4)). cbn [bind].
    destruct (Z.eqb_spec (Z.of_nat n4) 4) as [E4|E4].
    2:{ right. split; [|reflexivity]. intros [S4 _]. assert (n4 = 4) by exact (such_fun H4 S4). lia. }
    assert (n4 = 4) as -> by lia.
    assert (NE : a_nbrs a <> []).
    { intros K. rewrite K in P3. destruct (HC i) as (c' & Hc' & _ & HM & _); [apply (Nat.lt_le_trans _ (length (s_atoms s))); [apply nth_error_Some; congruence|apply C61_searched]|]. assert (c' = c) as -> by congruence.
      destruct (vc_faces c); [|discriminate]. unfold R_weighted in H4. destruct (p_faces (p i)); [|discriminate]. inversion H4. }
    destruct (@mindist_run np_sort HN s'' l precision a (D i)) as (k & Ek & Hk).
    { intros x b Hb. unfold D. rewrite Ha, Hb. reflexivity. }
    { intros b Hb. apply (in_map nb_idx) in Hb. rewrite P3 in Hb. apply in_map_iff in Hb as (f & <- & Hf). rewrite LL. apply (HF i c f); assumption. }
    { exact NE. }
    rewrite P3 in Hk. rewrite Ek. cbn [bind]. destruct (Nat.eqb_spec k 4) as [K4|K4].
    - left. split; [split; [exact H4|exists c; split; [exact Hc|apply Hk, K4]]|]. cbn [bind]. eexists. split; [reflexivity|]. exists a0, c. repeat split; auto. rewrite P1, P2, P4. reflexivity.
    - right. split; [|reflexivity]. intros [_ (c' & Hc' & N4)]. apply K4, Hk. assert (c' = c) as -> by congruence. exact N4. }
  rewrite combine_length, LW, Nat.min_id, LL in K.
  exists s'', l, D, (concat outs), ks. split; [unfold find_tetrahedral_voids; rewrite E; cbn [bind]; rewrite (map_fst_combine _ _ l ws LW)|].
  { match goal with |- bind ?m _ = _ => replace m with (Ok outs) by (symmetry; exact EM) end. reflexivity. }
  split; [exact GA|]. split; [exact LL|]. split; [|split; [exact K|exact F]].
  intros i j a b Ha Hb. unfold D. rewrite Ha, Hb. reflexivity.
Qed.
Print Assumptions C70_reported.

(** Any arithmetic: with an image among the neighbours of an atom that has four
    faces of four edges, the call fails. *)
Theorem C70_ghost_neighbour :
  forall (N : num) raw inv area_pow cells srt npsum np_sort (p : nat -> poly N) (s : sys N) vs precision,
  C61_data s vs -> (forall m, inv m <> None) -> C61_cells cells p (searched s) ->
  reals_first s -> neqb (box_sum (box_get s)) n0 = false ->
  forall i c f, i < Z.to_nat (s_real s) -> cells i = Some c ->
  such (face_counts npsum (nlit 1 20) (nlit 1 100) 4) (weighted area_pow (p i)) 4 ->
  In f (vc_faces c) -> Z.to_nat (s_real s) <= fst f ->
  find_tetrahedral_voids raw inv area_pow cells srt npsum np_sort s vs false precision = Err IndexError.
Proof.
  intros N raw inv area_pow cells srt npsum np_sort p s vs precision HD HI HC HR HB i c f Hi Hc H4 Hf Lf.
  destruct (env_run N raw inv area_pow cells srt npsum p s vs HD HI HC HR HB) as (s'' & l & ws & E & GA & LL & LW & H).
  unfold find_tetrahedral_voids. rewrite E. cbn [bind]. rewrite (map_fst_combine _ _ l ws LW).
  destruct (nth_error l i) as [a|] eqn:Ea; [|apply nth_error_None in Ea; lia].
  destruct (nth_error ws i) as [w|] eqn:Ew; [|apply nth_error_None in Ew; lia].
  assert (HP : In (a, w) (combine l ws)).
  { clear -Ea Ew. revert ws i Ea Ew. induction l as [|x l IH]; intros [|y ws] [|i] Ea Ew; try discriminate; cbn in *; [left; congruence|right; eapply IH; eauto]. }
  assert (ME : forall b e, mindistcount np_sort s'' l precision b = Err e -> e = IndexError).
  { intros b e. unfold mindistcount. match goal with |- context [mapM ?f ?z] => destruct (mapM f z) as [ds|e'] eqn:Em end; cbn [bind].
    - destruct (np_sort ds); intros K; [injection K as <-; reflexivity|discriminate].
    - intros K. injection K as <-. apply mapM_Err in Em as (z & _ & K). unfold atom_at in K. destruct (nth_error l (Z.to_nat z)); cbn [bind] in K; [discriminate|injection K as <-; reflexivity]. }
  rewrite (mapM_IndexError (void_at np_sort s'' l false precision) (combine l ws) (a, w)); [reflexivity| |exact HP|].
  - intros [b v] e Hb K. apply In_nth_error in Hb as (j & Hj). apply nth_combine in Hj as [J1 J2]. destruct (H j b v J1 J2) as (_ & _ & _ & _ & _ & _ & _ & _ & n3 & n4 & n5 & n6 & EV & _).
    unfold void_at in K. cbn [fst snd] in K. rewrite EV in K. cbn [map] in K. change (py_get [Z.of_nat n3; Z.of_nat n4; Z.of_nat n5; Z.of_nat n6] 1) with (Ok (Z.of_nat n4)) in K. cbn [bind] in K.
    destruct (Z.eqb _ _); [|discriminate]. destruct (mindistcount np_sort s'' l precision b) as [k|e'] eqn:Em; cbn [bind] in K; [destruct (Nat.eqb k 4); discriminate|].
    injection K as <-. exact (ME _ _ Em).
  - destruct (H i a w Ea Ew) as (a0 & c' & _ & Hc' & _ & _ & P3 & _ & n3 & n4 & n5 & n6 & EV & _ & S4 & _). assert (c' = c) as -> by congruence.
    assert (n4 = 4) as -> by exact (such_fun S4 H4).
    unfold void_at. cbn [fst snd]. rewrite EV. cbn [map]. change (py_get [Z.of_nat n3; Z.of_nat 4; Z.of_nat n5; Z.of_nat n6] 1) with (Ok 4%Z). cbn [bind].
    change (Z.eqb 4 4) with true. cbv iota.
    assert (M : mindistcount np_sort s'' l precision a = Err IndexError); [|rewrite M; reflexivity].
    unfold mindistcount. rewrite (mapM_IndexError _ _ (Z.of_nat (fst f))); [reflexivity| | |].
    + intros z e _ K. unfold atom_at in K. destruct (nth_error l (Z.to_nat z)); cbn [bind] in K; [discriminate|injection K as <-; reflexivity].
    + apply P_Analysis.unique_keys. apply in_map_iff. apply (in_map fst) in Hf. rewrite <- P3 in Hf. apply in_map_iff in Hf as (b & <- & Hb). exists b. auto.
    + unfold atom_at. rewrite Nat2Z.id. destruct (nth_error l (fst f)) eqn:K; [|reflexivity]. assert (fst f < length l) by (apply nth_error_Some; congruence). lia.
Qed.
Print Assumptions C70_ghost_neighbour.

(** Any arithmetic: direct_coordinates divides by differences of the first two
    components of the box vectors, not by the lengths of the box. *)
Theorem C70_direct :
  forall (N : num) raw inv area_pow cells srt npsum np_sort (s s'' : sys N) vs precision out,
  find_tetrahedral_voids raw inv area_pow cells srt npsum np_sort s vs false precision = Ok (s'', out) ->
  let call := find_tetrahedral_voids raw inv area_pow cells srt npsum np_sort s vs true precision in
  let b := box_get s'' in
  let dx := nsub (vy (r0 b)) (vx (r0 b)) in let dy := nsub (vy (r1 b)) (vx (r1 b)) in let dz := nsub (vy (r2 b)) (vx (r2 b)) in
  (out = [] -> call = Ok (s'', [])) /\
  (out <> [] -> neqb dx n0 = true \/ neqb dy n0 = true \/ neqb dz n0 = true -> call = Err ZeroDivisionError) /\
  (neqb dx n0 = false -> neqb dy n0 = false -> neqb dz n0 = false ->
   call = Ok (s'', map (fun r => (fst r, mkV (ndiv (vx (snd r)) dx) (ndiv (vy (snd r)) dy) (ndiv (vz (snd r)) dz))) out)).
Proof.
  intros N raw inv area_pow cells srt npsum np_sort s s'' vs precision out H. cbv zeta. unfold find_tetrahedral_voids in *.
  destruct (environments raw inv area_pow cells srt npsum s vs) as [[s1 l]|e]; cbn [bind] in *; [|discriminate].
  destruct (mapM (void_at np_sort s1 (map fst l) false precision) l) as [outs|e] eqn:E; cbn [bind] in H; [|discriminate].
  assert (s1 = s'') as -> by (apply (f_equal (fun r => match r with Ok x => fst x | Err _ => s'' end)) in H; exact H).
  assert (out = concat outs) as -> by (apply (f_equal (fun r => match r with Ok x => snd x | Err _ => [] end)) in H; symmetry; exact H). clear H.
  set (atoms := map fst l) in *. clearbody atoms.
  set (dx := nsub (vy (r0 (box_get s''))) (vx (r0 (box_get s'')))). set (dy := nsub (vy (r1 (box_get s''))) (vx (r1 (box_get s'')))). set (dz := nsub (vy (r2 (box_get s''))) (vx (r2 (box_get s'')))).
  assert (ONE : forall q o, void_at np_sort s'' atoms false precision q = Ok o -> (o = [] /\ void_at np_sort s'' atoms true precision q = Ok []) \/
    exists r, o = [r] /\ void_at np_sort s'' atoms true precision q = (v <- direct (mkV dx dy dz) (snd r) ;; Ok [(fst r, v)])).
  { intros q o. unfold void_at. destruct (py_get _ _) as [n4|]; cbn [bind]; [|discriminate]. destruct (Z.eqb n4 4); [|intros K; injection K as <-; auto].
    destruct (mindistcount _ _ _ _ _) as [k|]; cbn [bind]; [|discriminate]. destruct (Nat.eqb k 4); intros K; injection K as <-; [|auto]. right. eexists. split; reflexivity. }
  assert (DZ : neqb dx n0 = true \/ neqb dy n0 = true \/ neqb dz n0 = true -> forall v, direct (mkV dx dy dz) v = Err ZeroDivisionError).
  { intros HZ v. unfold direct, fdiv. cbn [vx vy vz]. destruct (neqb dx n0); [reflexivity|]. cbn [bind]. destruct (neqb dy n0); [reflexivity|]. cbn [bind]. destruct HZ as [HZ|[HZ|HZ]]; [discriminate..|rewrite HZ; reflexivity]. }
  assert (DO : neqb dx n0 = false -> neqb dy n0 = false -> neqb dz n0 = false -> forall v, direct (mkV dx dy dz) v = Ok (mkV (ndiv (vx v) dx) (ndiv (vy v) dy) (ndiv (vz v) dz))).
  { intros Z1 Z2 Z3 v. unfold direct, fdiv. cbn [vx vy vz]. rewrite Z1, Z2, Z3. reflexivity. }
  clearbody dx dy dz. revert outs E. induction l as [|q l IH]; intros outs E; cbn [mapM] in E |- *.
  - injection E as <-. cbn [concat bind map]. split; [reflexivity|]. split; [congruence|reflexivity].
  - destruct (void_at np_sort s'' atoms false precision q) as [o|] eqn:Eo; cbn [bind] in E; [|discriminate].
    destruct (mapM (void_at np_sort s'' atoms false precision) l) as [os|]; cbn [bind] in E; [|discriminate].
    assert (outs = o :: os) as -> by (apply (f_equal (fun r => match r with Ok x => x | Err _ => [] end)) in E; symmetry; exact E). clear E.
    destruct (IH os eq_refl) as (I1 & I2 & I3). destruct (ONE q o Eo) as [(-> & ->)|(r & -> & ->)]; cbn [bind concat app].
    + destruct (mapM (void_at np_sort s'' atoms true precision) l) as [os'|e]; cbn [bind] in *; split; auto.
    + split; [discriminate|]. split.
      * intros _ HZ. rewrite (DZ HZ). reflexivity.
      * intros Z1 Z2 Z3. rewrite (DO Z1 Z2 Z3). cbn [bind map]. specialize (I3 Z1 Z2 Z3).
        destruct (mapM (void_at np_sort s'' atoms true precision) l) as [os'|e]; cbn [bind] in *; [|discriminate]. cbn [concat app].
        apply (f_equal (fun r => match r with Ok x => snd x | Err _ => [] end)) in I3. cbn [snd] in I3. rewrite I3. reflexivity.
Qed.
Print Assumptions C70_direct.

(** In a box along x, y and z, whatever its lengths, a call with the default
    direct_coordinates=True that finds an atom raises ZeroDivisionError; on the
    reals and for doubles. *)
Theorem C70_orthogonal_box :
  forall (N : num), machine N ->
  forall raw inv area_pow cells srt npsum np_sort (s s'' : sys N) vs precision out (x y z : N),
  find_tetrahedral_voids raw inv area_pow cells srt npsum np_sort s vs false precision = Ok (s'', out) ->
  box_get s'' = diag x y z -> out <> [] ->
  find_tetrahedral_voids raw inv area_pow cells srt npsum np_sort s vs true precision = Err ZeroDivisionError.
Proof.
  intros N M raw inv area_pow cells srt npsum np_sort s s'' vs precision out x y z H HB NE.
  apply (C70_direct N raw inv area_pow cells srt npsum np_sort s s'' vs precision out H); [exact NE|]. rewrite HB. right. right. cbn [diag r2 vx vy].
  destruct M as [->|(L & ->)]; [|reflexivity]. cbn. unfold Reqb. destruct (Req_EM_T _ _) as [|K]; [reflexivity|]. exfalso. apply K. lra.
Qed.
Print Assumptions C70_orthogonal_box.

(** ** C71 *)
Lemma kept_filter A (P : nat -> Prop) (f : A -> bool) : forall (l : list A) k,
  (forall i a, nth_error l i = Some a -> P (k + i) <-> f a = true) ->
  exists ks, kept P (seq k (length l)) ks /\ Forall2 (fun i a => k <= i /\ nth_error l (i - k) = Some a) ks (filter f l).
Proof.
  induction l as [|a l IH]; intros k H; [exists []; split; constructor|].
  destruct (IH (S k)) as (ks & K & F). { intros i b Hb. rewrite Nat.add_succ_comm. apply (H (S i) b Hb). }
  assert (F' : Forall2 (fun i b => k <= i /\ nth_error (a :: l) (i - k) = Some b) ks (filter f l)).
  { clear -F. induction F as [|i b ks bs (L & N) F IH]; constructor; [|exact IH]. split; [lia|]. replace (i - k) with (S (i - S k)) by lia. exact N. }
  assert (H0 := H 0 a eq_refl). rewrite Nat.add_0_r in H0. cbn [length seq filter]. destruct (f a) eqn:Fa.
  - exists (k :: ks). split; [constructor; [apply H0; reflexivity|exact K]|]. constructor; [|exact F']. split; [lia|]. rewrite Nat.sub_diag. reflexivity.
  - exists ks. split; [constructor; [intros X; apply H0 in X; discriminate|exact K]|exact F'].
Qed.
Lemma Forall2_map_r A B C (R : A -> C -> Prop) (g : B -> C) l l' : Forall2 (fun a b => R a (g b)) l l' -> Forall2 R l (map g l').
Proof. induction 1; constructor; assumption. Qed.
Lemma pair_of_fst A B (v : list A) : forall (f : list B), length v = length f -> forall x, In x v -> exists q, In q (combine v f) /\ fst q = x.
Proof.
  induction v as [|y v IH]; intros [|t f] L x Hx; try discriminate; [destruct Hx|]. destruct Hx as [<-|Hx]; [exists (y, t); split; [left|]; reflexivity|].
  destruct (IH f) with (x := x) as (q & Q1 & Q2); [cbn in L; lia|exact Hx|]. exists q. split; [right; exact Q1|exact Q2].
Qed.
Lemma pair_of_snd A B (v : list A) : forall (f : list B), length v = length f -> forall x, In x f -> exists q, In q (combine v f) /\ snd q = x.
Proof.
  induction v as [|y v IH]; intros [|t f] L x Hx; try discriminate; [destruct Hx|]. destruct Hx as [<-|Hx]; [exists (y, t); split; [left|]; reflexivity|].
  destruct (IH f) with (x := x) as (q & Q1 & Q2); [cbn in L; lia|exact Hx|]. exists q. split; [right; exact Q1|exact Q2].
Qed.
Lemma fp_sorted (fp : R -> text) (us : list R) : StronglySorted Rlt us ->
  (forall x y, In x us -> In y us -> (x < y)%R -> alphabetical (fp x) (fp y)) -> StronglySorted alphabetical (map fp us).
Proof.
  induction us as [|x us IH]; intros S H; [constructor|]. apply StronglySorted_inv in S as [S2 S3]. cbn [map]. constructor.
  - apply IH; [exact S2|]. intros y z Hy Hz. apply H; right; assumption.
  - apply Forall_forall. intros t Ht. apply in_map_iff in Ht as (y & <- & Hy). rewrite Forall_forall in S3. apply H; [left; reflexivity|right; exact Hy|apply S3, Hy].
Qed.

(** On the reals, for the atoms of the type: the volumes are the different
    rounded volumes with their numbers, which add up to the number of atoms; the
    fingerprints are the different ones, sorted; if larger volumes always go with
    later fingerprints, each line printed belongs together. *)
Theorem C71_groups :
  forall (npsum : list R -> R), (forall l, npsum l = total l) ->
  forall raw inv cells srt np_round (p : nat -> poly Rnum) (s : sys Rnum) vs atomtype precision,
  C61_data s vs -> (forall m, inv m <> None) -> C61_cells cells p (searched s) ->
  reals_first s -> neqb (n := Rnum) (box_sum (box_get s)) n0 = false ->
  exists s'' vvx vrx mismatch ks vols fps,
    compare_atomic_env raw inv (fun x => x) cells srt npsum np_round s vs atomtype precision = Ok (s'', (vvx, vrx, mismatch)) /\
    kept (fun i => exists a, nth_error (s_atoms s) i = Some a /\ a_type a = atomtype) (seq 0 (Z.to_nat (s_real s))) ks /\
    Forall2 (fun i x => exists c, cells i = Some c /\ x = np_round precision (vc_volume c)) ks vols /\
    Forall2 (fun i t => exists v, counts_faces (R_face Rlt (1/20) (1/100)) (R_weighted (p i)) v /\ shows v t) ks fps /\
    tally vols vvx /\ fold_right Z.add 0%Z (map snd vvx) = Z.of_nat (length ks) /\
    sorted_symbols fps vrx /\ (mismatch = true <-> length vvx <> length vrx) /\
    (ordered_alike (combine vols fps) ->
     mismatch = false /\
     forall t x c, In (t, x, c) (printed (N := Rnum) (vvx, vrx, mismatch)) ->
       exists w n, t = Some w /\ c = Z.of_nat n /\ such (fun y => y = x) vols n /\
         forall q, In q (combine vols fps) -> fst q = x -> snd q = w).
Proof.
  intros npsum HS raw inv cells srt np_round p s vs atomtype precision HD HI HC HR HB.
  destruct (env_run Rnum raw inv (fun x => x) cells srt npsum p s vs HD HI HC HR HB) as (s'' & l & ws & E & GA & LL & LW & H).
  destruct (@kept_filter _ (fun i => exists a, nth_error (s_atoms s) i = Some a /\ a_type a = atomtype) (fun q : atom Rnum * vdata Rnum => Z.eqb (a_type (fst q)) atomtype) (combine l ws) 0) as (ks & K & F).
  { intros i [a w] Hi. cbn [Nat.add fst]. apply nth_combine in Hi as [Ha Hw]. destruct (H i a w Ha Hw) as (a0 & c & Ha0 & _ & _ & P2 & _). rewrite Z.eqb_eq. split.
    - intros (a1 & Ha1 & T). rewrite Ha0 in Ha1. injection Ha1 as <-. congruence.
    - intros T. exists a0. split; [exact Ha0|congruence]. }
  rewrite combine_length, LW, Nat.min_id, LL in K. set (sel := filter (fun q : atom Rnum * vdata Rnum => Z.eqb (a_type (fst q)) atomtype) (combine l ws)) in *.
  set (vols := map (fun q : atom Rnum * vdata Rnum => np_round precision (vd_volume (snd q))) sel).
  set (fps := map (fun q : atom Rnum * vdata Rnum => fingerprint (vd_vector (snd q))) sel).
  assert (T1 : tally vols (unique_values (N := Rnum) vols)) by apply unique_values_spec.
  assert (T2 : sorted_symbols fps (unique_text fps)) by apply unique_text_spec.
  exists s'', (unique_values (N := Rnum) vols), (unique_text fps), (negb (Nat.eqb (length (unique_values (N := Rnum) vols)) (length (unique_text fps)))), ks, vols, fps.
  split; [unfold compare_atomic_env; rewrite E; reflexivity|]. split; [exact K|].
  split. { apply Forall2_map_r. revert F. apply Forall2_impl. intros i [a w] (_ & Hi). rewrite Nat.sub_0_r in Hi. apply nth_combine in Hi as [Ha Hw].
    destruct (H i a w Ha Hw) as (a0 & c & _ & Hc & _ & _ & _ & P5 & _). exists c. split; [exact Hc|]. cbn [snd]. rewrite P5. reflexivity. }
  split. { apply Forall2_map_r. revert F. apply Forall2_impl. intros i [a w] (_ & Hi). rewrite Nat.sub_0_r in Hi. apply nth_combine in Hi as [Ha Hw].
    destruct (H i a w Ha Hw) as (a0 & c & _ & Hc & _ & _ & _ & _ & P6). exists (vd_vector w).
    split; [exact (C61_reals npsum HS (p i) (nlit (n := Rnum) 1 20) (nlit (n := Rnum) 1 100) _ P6)|]. apply fingerprint_shows. destruct P6 as (n3 & n4 & n5 & n6 & EV & _). cbn [snd]; rewrite EV. discriminate. }
  split; [exact T1|]. split. { rewrite unique_values_total. unfold vols. rewrite map_length. clear -F. induction F; cbn [length] in *; lia. }
  split; [exact T2|]. split. { destruct (Nat.eqb_spec (length (unique_values (N := Rnum) vols)) (length (unique_text fps))) as [Q|Q]; cbn [negb]; [rewrite Q|]; split; intros; try discriminate; congruence. }
  intros OA. destruct T1 as (S1 & I1 & C1).
  (* the fingerprint of a volume *)
  set (fp := fun x : R => match find (fun q : R * text => Reqb (fst q) x) (combine vols fps) with Some q => snd q | None => [] end).
  assert (EQ : forall a b : R, Reqb a b = true <-> a = b) by (intros a b; unfold Reqb; destruct (Req_EM_T a b); split; intros; auto; discriminate).
  assert (LVF : length vols = length fps) by (unfold vols, fps; rewrite !map_length; reflexivity).
  assert (FP1 : forall q, In q (combine vols fps) -> snd q = fp (fst q)).
  { intros q Hq. unfold fp. destruct (find (fun q0 : R * text => Reqb (fst q0) (fst q)) (combine vols fps)) as [q'|] eqn:Ef.
    - apply find_some in Ef as [Hq' Ef]. apply EQ in Ef. destruct (tltb (snd q) (snd q')) eqn:T; [apply tltb_spec in T; apply (OA q q' Hq Hq') in T; rewrite Ef in T; destruct (Rlt_irrefl _ T)|].
      destruct (list_eq_dec Ascii.ascii_dec (snd q) (snd q')) as [D|D]; [exact D|]. apply tltb_total in T; [|exact D]. apply tltb_spec in T. apply (OA q' q Hq' Hq) in T. rewrite Ef in T. destruct (Rlt_irrefl _ T).
    - apply (find_none _ _ Ef) in Hq. assert (X : Reqb (fst q) (fst q) = true) by (apply EQ; reflexivity). exfalso. exact (Bool.diff_true_false (eq_trans (eq_sym X) Hq)). }
  assert (PR : forall x, In x vols -> exists q, In q (combine vols fps) /\ fst q = x).
  { exact (pair_of_fst _ _ _ _ LVF). }
  assert (MAP : map fp (map fst (unique_values (N := Rnum) vols)) = unique_text fps).
  { apply sorted_equal; [|apply T2|].
    - apply fp_sorted; [exact S1|]. intros x y Hx Hy L. apply I1 in Hx, Hy. destruct (PR x Hx) as (q & Q1 & Q2). destruct (PR y Hy) as (q' & Q1' & Q2').
      subst x y. rewrite <- (FP1 q Q1), <- (FP1 q' Q1'). apply (OA q q' Q1 Q1'). exact L.
    - intros t. rewrite in_map_iff. destruct T2 as [_ T2]. rewrite T2. split.
      + intros (x & <- & Hx). apply I1 in Hx. destruct (PR x Hx) as (q & Q1 & <-). rewrite <- (FP1 q Q1). destruct q as [a b]. exact (in_combine_r _ _ _ _ Q1).
      + intros Ht. assert (X : exists q, In q (combine vols fps) /\ snd q = t).
        { exact (pair_of_snd _ _ _ _ LVF _ Ht). }
        destruct X as (q & Q1 & <-). exists (fst q). split; [symmetry; apply FP1, Q1|]. apply I1. destruct q as [a b]. exact (in_combine_l _ _ _ _ Q1). }
  assert (LE : length (unique_values (N := Rnum) vols) = length (unique_text fps)) by (rewrite <- MAP, !map_length; reflexivity).
  rewrite LE, Nat.eqb_refl. cbn [negb]. split; [reflexivity|]. intros t x c Hl. cbn [printed] in Hl. rewrite <- MAP, map_map in Hl.
  assert (G : In (x, c) (unique_values (N := Rnum) vols) /\ t = Some (fp x)).
  { revert Hl. generalize (unique_values (N := Rnum) vols). intros u. induction u as [|[y d] u IH]; intros Hl; [destruct Hl|]. cbn [map combine fst snd] in Hl. destruct Hl as [Hl|Hl].
    - injection Hl as <- <- <-. split; [left|]; reflexivity.
    - destruct (IH Hl) as [A B]. split; [right; exact A|exact B]. }
  destruct G as [G ->]. destruct (C1 x c G) as (n & -> & Hn). exists (fp x), n. split; [reflexivity|]. split; [reflexivity|]. split; [exact Hn|].
  intros q Hq <-. apply FP1, Hq.
Qed.
Print Assumptions C71_groups.

(** ** Examples *)
(** Layers of rhombi: in the plane each atom has four neighbours at (+-1, +-1.2)
    and two at (+-2, 0); the layers are 4 apart.  200 atoms in a box of 10 by 12
    by 16, and the Voronoi cells of this crystal. *)
Definition pl_index (i j k b : nat) : nat := (((k mod 4) * 5 + j mod 5) * 5 + i mod 5) * 2 + b.
Definition pl_pos (N : num) (i j k b : nat) : v3 N :=
  mkV (nofZ (Z.of_nat (2 * i + b))) (nlit (Z.of_nat (12 * (2 * j + b))) 10) (nofZ (Z.of_nat (4 * k))).
Definition pl_sys (N : num) : sys N :=
  set_atoms (sbox (sys_ctor (raw_sys N)) (diag (nofZ 10) (nofZ 12) (nofZ 16)))
    (flat_map (fun k => flat_map (fun j => flat_map (fun i => map (fun b => at_pos (pl_pos N i j k b) <| a_type := 1%Z |>) [0; 1]) (seq 0 5)) (seq 0 5)) (seq 0 4)).
Definition pl_poly (N : num) : poly N :=
  let ring z := [mkV n1 (nlit (-11) 60) z; mkV n1 (nlit 11 60) z; mkV n0 (nlit 61 60) z; mkV (nofZ (-1)) (nlit 11 60) z; mkV (nofZ (-1)) (nlit (-11) 60) z; mkV n0 (nlit (-61) 60) z] in
  let e := nlit 22 15 in let f := nmul (nlit 2 3) (nsqrt (nofZ 61)) in let t := nlit 12 5 in
  mkPoly (ring (nofZ (-2)) ++ ring (nofZ 2))
    [([0; 1; 7; 6], e); ([1; 2; 8; 7], f); ([2; 3; 9; 8], f); ([3; 4; 10; 9], e); ([4; 5; 11; 10], f); ([5; 0; 6; 11], f);
     ([6; 7; 8; 9; 10; 11], t); ([5; 4; 3; 2; 1; 0], t)]%nat.
Definition pl_near (n : nat) : list nat :=
  let b := n mod 2 in let i := (n / 2) mod 5 in let j := (n / 10) mod 5 in let k := n / 50 in
  let r := if (b =? 0)%nat then (i, j) else (i + 1, j + 1) in  (* right and upper neighbours, the others are one to the left or below *)
  let (x, y) := r in let l v := v + 4 in
  [pl_index (i + 1) j k b; pl_index x y k (1 - b); pl_index (l x) y k (1 - b); pl_index (l i) j k b; pl_index (l x) (l y) k (1 - b); pl_index x (l y) k (1 - b);
   pl_index i j (k + 1) b; pl_index i j (k + 3) b].
Definition cell_of {N : num} (q : poly N) (near : list nat) (volume : N) : cell N :=
  mkCell (combine near (map snd (p_faces q))) volume (map (fun f => Z.of_nat (length (fst f))) (p_faces q))
    (concat (map (fun f => Z.of_nat (length (fst f)) :: map Z.of_nat (fst f)) (p_faces q)))
    (concat (map (fun v => [vx v; vy v; vz v]) (p_vertices q))).
Definition pl_cells (N : num) (n : nat) : option (cell N) := Some (cell_of (pl_poly N) (pl_near n) (nlit 48 5)).
Definition blank_data (N : num) (n : nat) : list (vdata N) := repeat (mkVd n0 n0 [] [] [] (repeat 0%Z 300) [] []) n.
Fixpoint ins_le {N : num} (x : N) (l : list N) : list N :=
  match l with [] => [x] | y :: r => if nltb x y then x :: l else y :: ins_le x r end.
Definition sort_le {N : num} (l : list N) : list N := fold_right ins_le [] l.

Definition pl_test (r : res (sys P64 * list (Z * P64 * v3 P64))) : res (nat * (nat * nat) * bool) :=
  '(s, out) <- r ;; l <- get_atoms s ;;
  match l with
  | [] => Err IndexError
  | a :: _ =>
      let near := filter (fun b => nltb (n := P64) (abs_distance s (a_pos a) (a_pos b)) (nlit 9 5)) l in
      Ok (length out, (length l, length near), forallb (fun b => neqb (n := P64) (vz (a_pos a)) (vz (a_pos b))) near)
  end.
(** A cell of few atoms: [b] of the [m] atoms in cell [i j k] of the 125 that the
    setter of the atoms makes (M_Container.atoms_set), the cell itself being the
    middle one and its atoms the first. *)
Definition rep_index (m i j k b : nat) : nat :=
  let t := (i mod 5 * 5 + j mod 5) * 5 + k mod 5 in
  if (t =? 62)%nat then b else if (t <? 62)%nat then m + m * t + b else m * t + b.
Definition rep_of (m n : nat) : nat * nat * nat * nat :=
  let t := if (n <? m)%nat then 62 else if (n / m <=? 62)%nat then n / m - 1 else n / m in
  (t / 25, (t / 5) mod 5, t mod 5, n mod m).
(** The crystal of above from its cell of two atoms. *)
Definition sc_start (N : num) : sys N := sbox (sys_ctor (raw_sys N)) (diag (nofZ 2) (nlit 24 10) (nofZ 4)).
Definition sc_atoms (N : num) : list (atom N) := map (fun b => at_pos (pl_pos N 0 0 0 b) <| a_type := 1%Z |>) [0; 1].
Definition sc_near (n : nat) : list nat :=
  let '(i, j, k, b) := rep_of 2 n in
  let (x, y) := if (b =? 0)%nat then (i, j) else (i + 1, j + 1) in let l v := v + 4 in
  [rep_index 2 (i + 1) j k b; rep_index 2 x y k (1 - b); rep_index 2 (l x) y k (1 - b); rep_index 2 (l i) j k b; rep_index 2 (l x) (l y) k (1 - b); rep_index 2 x (l y) k (1 - b);
   rep_index 2 i j (k + 1) b; rep_index 2 i j (l k) b].
Definition sc_cells (N : num) (n : nat) : option (cell N) := Some (cell_of (pl_poly N) (sc_near n) (nlit 48 5)).

(** A column of three atoms in a long cell of 2 by 2 by 44, at heights 0, 2 and 4. *)
Definition col_start (N : num) : sys N := sbox (sys_ctor (raw_sys N)) (diag (nofZ 2) (nofZ 2) (nofZ 44)).
Definition col_atoms (N : num) : list (atom N) := map (fun z => at_pos (zv N 0 0 z) <| a_type := 1%Z |>) [0; 2; 4]%Z.
Definition brick (N : num) (z z' : Z) : poly N :=
  mkPoly [zv N (-1) (-1) z; zv N 1 (-1) z; zv N (-1) 1 z; zv N 1 1 z; zv N (-1) (-1) z'; zv N 1 (-1) z'; zv N (-1) 1 z'; zv N 1 1 z']
    [([0; 2; 6; 4], nofZ (2 * (z' - z))); ([1; 3; 7; 5], nofZ (2 * (z' - z))); ([0; 1; 5; 4], nofZ (2 * (z' - z)));
     ([2; 3; 7; 6], nofZ (2 * (z' - z))); ([0; 1; 3; 2], nofZ 4); ([4; 5; 7; 6], nofZ 4)]%nat.
Definition col_poly (N : num) (n : nat) : poly N :=
  match n mod 3 with 0 => brick N (-20) 1 | 1 => brick N (-1) 1 | _ => brick N (-1) 20 end.
Definition col_near (n : nat) : list nat :=
  let '(i, j, k, b) := rep_of 3 n in
  [rep_index 3 (i + 4) j k b; rep_index 3 (i + 1) j k b; rep_index 3 i (j + 4) k b; rep_index 3 i (j + 1) k b;
   match b with 0 => rep_index 3 i j (k + 4) 2 | S b => rep_index 3 i j k b end; match b with 2 => rep_index 3 i j (k + 1) 0 | b => rep_index 3 i j k (S b) end].
Definition col_cells (N : num) (n : nat) : option (cell N) :=
  Some (cell_of (col_poly N n) (col_near n) (nofZ (match (n mod 3)%nat with 1%nat => 8 | _ => 84 end))).

Lemma cell_of_ok (N : num) (q : nat -> poly N) near (volume : nat -> N) n :
  (forall i, i < n -> length (near i) = length (p_faces (q i)) /\ length (near i) <= 300 /\ Forall (fun x => x < n) (near i) /\
     Forall (fun f => Forall (fun k => k < length (p_vertices (q i))) (fst f)) (p_faces (q i))) ->
  C61_cells (fun i => Some (cell_of (q i) (near i) (volume i))) q n.
Proof.
  intros H i Hi. destruct (H i Hi) as (L & L3 & F & K). eexists. split; [reflexivity|]. unfold cell_of. cbn [vc_orders vc_numbers vc_vectors vc_faces].
  split; [repeat split; exact K|]. split; [|split].
  - clear -L. revert L. generalize (near i) (p_faces (q i)). intros l. induction l as [|x l IH]; intros [|f fs] E; try discriminate E; [reflexivity|]. cbn. f_equal. apply IH. injection E as E. exact E.
  - rewrite combine_length, map_length. lia.
  - clear -F. revert F. generalize (near i) (map snd (p_faces (q i))). intros l m HF. revert m. induction HF as [|x l Hx _ IH]; intros [|y m]; cbn; constructor; [exact Hx|apply IH].
Qed.
Lemma forallb_seq (f : nat -> bool) n : forallb f (seq 0 n) = true -> forall i, i < n -> f i = true.
Proof. intros H i Hi. rewrite forallb_forall in H. apply H. apply in_seq. lia. Qed.
Lemma below_all (l : list nat) n : forallb (fun x => x <? n) l = true -> Forall (fun x => x < n) l.
Proof. intros H. apply Forall_forall. intros x Hx. rewrite forallb_forall in H. apply Nat.ltb_lt, H, Hx. Qed.
Lemma blank_ok (N : num) n : Forall (fun v => length (vd_orders v) = 300) (blank_data N n).
Proof. apply Forall_forall. intros v Hv. apply List.repeat_spec in Hv. subst v. reflexivity. Qed.

Lemma pl_near_ok : forall i, i < 200 -> length (pl_near i) = 8 /\ Forall (fun x => x < 200) (pl_near i).
Proof.
  assert (F : forallb (fun i => (length (pl_near i) =? 8) && forallb (fun x => x <? 200) (pl_near i))%bool (seq 0 200) = true) by (vm_compute; reflexivity).
  intros i Hi. apply (forallb_seq _ _ F), andb_prop in Hi as [A B]. split; [apply Nat.eqb_eq, A|apply below_all, B].
Qed.
Lemma sc_near_ok : forall i, i < 250 -> length (sc_near i) = 8 /\ Forall (fun x => x < 250) (sc_near i).
Proof.
  assert (F : forallb (fun i => (length (sc_near i) =? 8) && forallb (fun x => x <? 250) (sc_near i))%bool (seq 0 250) = true) by (vm_compute; reflexivity).
  intros i Hi. apply (forallb_seq _ _ F), andb_prop in Hi as [A B]. split; [apply Nat.eqb_eq, A|apply below_all, B].
Qed.
Lemma col_near_ok : forall i, i < 375 -> length (col_near i) = 6 /\ Forall (fun x => x < 375) (col_near i).
Proof.
  assert (F : forallb (fun i => (length (col_near i) =? 6) && forallb (fun x => x <? 375) (col_near i))%bool (seq 0 375) = true) by (vm_compute; reflexivity).
  intros i Hi. apply (forallb_seq _ _ F), andb_prop in Hi as [A B]. split; [apply Nat.eqb_eq, A|apply below_all, B].
Qed.
Lemma pl_poly_ok (N : num) : Forall (fun f => Forall (fun k => k < length (p_vertices (pl_poly N))) (fst f)) (p_faces (pl_poly N)).
Proof. cbn. repeat (constructor; [repeat (constructor; [lia|]); constructor|]). constructor. Qed.
Lemma col_poly_ok (N : num) n : length (p_faces (col_poly N n)) = 6 /\ Forall (fun f => Forall (fun k => k < length (p_vertices (col_poly N n))) (fst f)) (p_faces (col_poly N n)).
Proof. unfold col_poly. destruct (n mod 3) as [|[|k]]; (split; [reflexivity|]; cbn; repeat (constructor; [repeat (constructor; [lia|]); constructor|]); constructor). Qed.

Lemma pl_cells_ok (N : num) : C61_cells (pl_cells N) (fun _ => pl_poly N) 200.
Proof.
  apply (cell_of_ok N (fun _ => pl_poly N) pl_near (fun _ => nlit 48 5) 200). intros i Hi. destruct (pl_near_ok i Hi) as [L F]. rewrite L.
  split; [reflexivity|]. split; [lia|]. split; [exact F|apply pl_poly_ok].
Qed.
Lemma sc_cells_ok (N : num) : C61_cells (sc_cells N) (fun _ => pl_poly N) 250.
Proof.
  apply (cell_of_ok N (fun _ => pl_poly N) sc_near (fun _ => nlit 48 5) 250). intros i Hi. destruct (sc_near_ok i Hi) as [L F]. rewrite L.
  split; [reflexivity|]. split; [lia|]. split; [exact F|apply pl_poly_ok].
Qed.
Lemma col_cells_ok (N : num) : C61_cells (col_cells N) (col_poly N) 375.
Proof.
  apply (cell_of_ok N (col_poly N) col_near (fun n => nofZ (match (n mod 3)%nat with 1%nat => 8 | _ => 84 end))%Z 375). intros i Hi. destruct (col_near_ok i Hi) as [L F]. rewrite L.
  destruct (col_poly_ok N i) as [P Q]. rewrite P. split; [reflexivity|]. split; [lia|]. split; [exact F|exact Q].
Qed.
Lemma pl_length (N : num) : length (s_atoms (pl_sys N)) = 200.
Proof. reflexivity. Qed.
Lemma pl_embedded (N : num) : embedded (pl_sys N) = false.
Proof. reflexivity. Qed.
Lemma pl_searched (N : num) : searched (pl_sys N) = 200.
Proof. unfold searched. rewrite pl_embedded. apply pl_length. Qed.

(** The hypotheses of C70_reported and C71_groups. *)
Example C70_hyp :
  (forall l, add_up (N := Rnum) l = total l) /\ (forall l, Permutation (sort_le (N := Rnum) l) l /\ StronglySorted Rle (sort_le (N := Rnum) l)) /\
  C61_data (pl_sys Rnum) (blank_data Rnum 200) /\ (forall m, v_inv (N := Rnum) m <> None) /\
  C61_cells (pl_cells Rnum) (fun _ => pl_poly Rnum) (searched (pl_sys Rnum)) /\ reals_first (pl_sys Rnum) /\
  neqb (n := Rnum) (box_sum (box_get (pl_sys Rnum))) n0 = false /\
  (forall i c f, pl_cells Rnum i = Some c -> i < Z.to_nat (s_real (pl_sys Rnum)) -> In f (vc_faces c) -> fst f < Z.to_nat (s_real (pl_sys Rnum))).
Proof.
  assert (SR : s_real (pl_sys Rnum) = 200%Z) by reflexivity.
  split; [|split; [|split; [|split; [discriminate|split; [|split; [|split]]]]]].
  - intros l. unfold add_up. change (@nadd Rnum) with Rplus. change (@n0 Rnum) with (IZR 0). 
    assert (G : forall (l : list R) x, fold_left Rplus l x = (x + total l)%R) by (clear; induction l as [|y l IH]; intros x; cbn [fold_left total]; [lra|rewrite IH; lra]).
    rewrite G. lra.
  - assert (I : forall (x : R) l, StronglySorted Rle l -> Permutation (ins_le (N := Rnum) x l) (x :: l) /\ StronglySorted Rle (ins_le (N := Rnum) x l)).
    { intros x l. induction l as [|y l IH]; intros HS; cbn [ins_le]; [split; [apply Permutation_refl|repeat constructor]|].
      change (@nltb Rnum x y) with (Rltb x y). inversion HS as [|? ? H1 H2]; subst. unfold Rltb. destruct (Rlt_dec x y) as [Hx|Hx].
      - split; [apply Permutation_refl|]. constructor; [exact HS|]. constructor; [lra|]. eapply Forall_impl; [|exact H2]. intros z Hz. cbn in Hz. lra.
      - destruct (IH H1) as [P S]. split; [eapply perm_trans; [apply perm_skip, P|apply perm_swap]|]. constructor; [exact S|].
        apply Forall_forall. intros z Hz. apply (Permutation_in _ P) in Hz as [<-|Hz]; [lra|]. rewrite Forall_forall in H2. apply H2, Hz. }
    induction l as [|x l [P S]]; [split; constructor|]. cbn [sort_le fold_right]. destruct (I x _ S) as [P' S']. split; [eapply perm_trans; [exact P'|apply perm_skip, P]|exact S'].
  - split; [reflexivity|]. split; [rewrite pl_embedded; discriminate|]. split; [rewrite pl_searched; reflexivity|apply blank_ok].
  - rewrite pl_searched. apply pl_cells_ok.
  - split; [rewrite SR; change (s_nop (pl_sys Rnum)) with 200%Z; lia|]. intros i a Ha _. apply nth_error_In in Ha.
    change (s_atoms (pl_sys Rnum)) with (flat_map (fun k => flat_map (fun j => flat_map (fun i => map (fun b => at_pos (pl_pos Rnum i j k b) <| a_type := 1%Z |>) [0; 1]) (seq 0 5)) (seq 0 5)) (seq 0 4)) in Ha.
    apply in_flat_map in Ha as (k & _ & Ha). apply in_flat_map in Ha as (j & _ & Ha). apply in_flat_map in Ha as (i' & _ & Ha). apply in_map_iff in Ha as (b & <- & _). reflexivity.
  - cbn. unfold Reqb. destruct (Req_EM_T _ _) as [E|]; [exfalso; lra|reflexivity].
  - rewrite SR. change (Z.to_nat 200) with 200. intros i c f Hc Hi Hf. destruct (pl_cells_ok Rnum i Hi) as (c' & Hc' & _ & _ & _ & F). rewrite Hc in Hc'. injection Hc' as <-.
    rewrite Forall_forall in F. apply F, Hf.
Qed.

(** Reported atoms are on tetrahedra: refuted.  All the atoms of the layers are
    reported; those within 1.8 of the first, four and itself, are in a plane. *)
Lemma pl_test_sound r n m k : pl_test r = Ok (n, (m, k), true) ->
  exists s out a l, r = Ok (s, out) /\ get_atoms s = Ok (a :: l) /\ length out = n /\ length (a :: l) = m /\
    let near := filter (fun b => nltb (n := P64) (abs_distance s (a_pos a) (a_pos b)) (nlit 9 5)) (a :: l) in
    length near = k /\ forall b, In b near -> neqb (n := P64) (vz (a_pos a)) (vz (a_pos b)) = true.
Proof.
  unfold pl_test. destruct r as [[s out]|]; [|discriminate]. cbn [bind]. destruct (get_atoms s) as [[|a l]|] eqn:E; cbn [bind]; try discriminate.
  intros H. exists s, out, a, l. split; [reflexivity|]. split; [exact E|].
  assert (H1 : (length out, (length (a :: l), length (filter (fun b => nltb (n := P64) (abs_distance s (a_pos a) (a_pos b)) (nlit 9 5)) (a :: l))), forallb (fun b => neqb (n := P64) (vz (a_pos a)) (vz (a_pos b))) (filter (fun b => nltb (n := P64) (abs_distance s (a_pos a) (a_pos b)) (nlit 9 5)) (a :: l))) = (n, (m, k), true)) by congruence.
  assert (P1 := f_equal (fun x => fst (fst x)) H1). assert (P2 := f_equal (fun x => fst (snd (fst x))) H1). assert (P3 := f_equal (fun x => snd (snd (fst x))) H1). assert (P4 := f_equal snd H1).
  cbn [fst snd] in P1, P2, P3, P4. split; [exact P1|]. split; [exact P2|]. split; [exact P3|]. apply forallb_forall. exact P4.
Qed.
Lemma pl_test_run : pl_test (find_tetrahedral_voids v_raw v_inv (fun x => x) (pl_cells P64) isort add_up sort_le (pl_sys P64) (blank_data P64 200) false (nlit 1 10)) = Ok (200, (200, 5), true).
Proof. vm_compute. reflexivity. Qed.
Theorem C70_planar_refuted :
  exists (s : sys P64) vs cells p precision s' out a l,
    C61_data s vs /\ C61_cells cells p (searched s) /\
    find_tetrahedral_voids v_raw v_inv (fun x => x) cells isort add_up sort_le s vs false precision = Ok (s', out) /\
    get_atoms s' = Ok (a :: l) /\ length out = length (a :: l) /\
    let near := filter (fun b => nltb (n := P64) (abs_distance s' (a_pos a) (a_pos b)) (nlit 9 5)) (a :: l) in
    length near = 5 /\ forall b, In b near -> neqb (n := P64) (vz (a_pos a)) (vz (a_pos b)) = true.
Proof.
  destruct (pl_test_sound _ _ _ _ pl_test_run) as (s' & out & a & l & E & G & L1 & L2 & H).
  exists (pl_sys P64), (blank_data P64 200), (pl_cells P64), (fun _ => pl_poly P64), (nlit 1 10), s', out, a, l.
  split; [split; [reflexivity|split; [rewrite pl_embedded; discriminate|split; [rewrite pl_searched; reflexivity|apply blank_ok]]]|]. split; [rewrite pl_searched; apply pl_cells_ok|].
  split; [exact E|]. split; [exact G|]. split; [rewrite L1, L2; reflexivity|exact H].
Qed.
Print Assumptions C70_planar_refuted.

(** Coordinates in units of the box: refuted, the same atoms have no result. *)
Lemma pl_direct_run : pl_test (find_tetrahedral_voids v_raw v_inv (fun x => x) (pl_cells P64) isort add_up sort_le (pl_sys P64) (blank_data P64 200) true (nlit 1 10)) = Err ZeroDivisionError.
Proof. vm_compute. reflexivity. Qed.
Lemma pl_test_err r : pl_test r = Err ZeroDivisionError -> r = Err ZeroDivisionError.
Proof.
  unfold pl_test. destruct r as [[s out]|e]; cbn [bind]; [|intros H; assert (e = ZeroDivisionError) as -> by congruence; reflexivity].
  unfold get_atoms. match goal with |- context [mapM ?f ?l] => destruct (mapM f l) as [[|a l']|e] eqn:E end; cbn [bind]; try discriminate.
  apply mapM_Err in E as (i & _ & E). unfold get in E. destruct (nth_error _ _); [discriminate|]. congruence.
Qed.
Theorem C70_direct_refuted :
  exists (s : sys P64) vs cells p precision s' out,
    C61_data s vs /\ C61_cells cells p (searched s) /\ s_box s = diag (nofZ 10) (nofZ 12) (nofZ 16) /\
    find_tetrahedral_voids v_raw v_inv (fun x => x) cells isort add_up sort_le s vs false precision = Ok (s', out) /\ length out = 200 /\
    find_tetrahedral_voids v_raw v_inv (fun x => x) cells isort add_up sort_le s vs true precision = Err ZeroDivisionError.
Proof.
  destruct (pl_test_sound _ _ _ _ pl_test_run) as (s' & out & a & l & E & G & L1 & L2 & H).
  exists (pl_sys P64), (blank_data P64 200), (pl_cells P64), (fun _ => pl_poly P64), (nlit 1 10), s', out.
  split; [split; [reflexivity|split; [rewrite pl_embedded; discriminate|split; [rewrite pl_searched; reflexivity|apply blank_ok]]]|]. split; [rewrite pl_searched; apply pl_cells_ok|].
  split; [reflexivity|]. split; [exact E|]. split; [exact L1|]. exact (pl_test_err _ pl_direct_run).
Qed.
Print Assumptions C70_direct_refuted.

(** The hypotheses of C70_ghost_neighbour, for the first atom and its first face. *)
Definition counts_b {N : num} (sum : list N -> N) (ec ac : N) (k : nat) (pw : list (v3 N) * N) : bool :=
  (nltb ac (snd pw) && Nat.eqb (length (filter (fun e => nltb ec (ndiv (distance e) (sum (map distance (edges (fst pw)))))) (edges (fst pw)))) k)%bool.
Lemma counts_b_spec (N : num) sum (ec ac : N) k pw : face_counts sum ec ac k pw <-> counts_b sum ec ac k pw = true.
Proof.
  unfold face_counts, counts_b. rewrite Bool.andb_true_iff, Nat.eqb_eq.
  assert (H := such_filter (fun e => nltb ec (ndiv (distance e) (sum (map distance (edges (fst pw)))))) (edges (fst pw))). split; intros [A B]; (split; [exact A|]).
  - exact (such_fun H B).
  - subst k. exact H.
Qed.
Definition sc_shape (s : sys P64) : bool :=
  ((length (s_atoms s) =? 250)%nat && Z.eqb (s_nop s) 250 && Z.eqb (s_real s) 2 && s_ghosts_created s &&
   negb (neqb (n := P64) (box_sum (box_get s)) n0) && forallb (fun a => Z.eqb (a_ghost a) 0) (firstn 2 (s_atoms s)))%bool.
Definition sc_shaped (o : res (sys P64)) : bool := match o with Ok s => sc_shape s | Err _ => false end.
Lemma sc_shape_sound o : sc_shaped o = true ->
  exists s, o = Ok s /\ C61_data s (blank_data P64 250) /\ searched s = 250 /\ s_real s = 2%Z /\ reals_first s /\ neqb (n := P64) (box_sum (box_get s)) n0 = false.
Proof.
  unfold sc_shaped. destruct o as [s|]; [|discriminate]. unfold sc_shape. intros H. repeat (apply andb_prop in H as [H ?]). apply Nat.eqb_eq in H. apply Z.eqb_eq in H3, H4. apply Bool.negb_true_iff in H1.
  assert (EB : embedded s = false) by (unfold embedded; rewrite H2; apply Bool.andb_false_r). assert (SE : searched s = 250) by (unfold searched; rewrite EB; exact H).
  exists s. split; [reflexivity|]. split; [split; [unfold stored; lia|split; [congruence|split; [symmetry; exact SE|apply blank_ok]]]|].
  split; [exact SE|]. split; [exact H3|]. split; [|exact H1]. split; [lia|]. intros i a Ha Hi. rewrite H3 in Hi. change (Z.to_nat 2) with 2 in Hi.
  rewrite forallb_forall in H0. apply Z.eqb_eq, H0. rewrite <- (firstn_skipn 2 (s_atoms s)) in Ha. rewrite nth_error_app1 in Ha by (rewrite firstn_length; lia). exact (nth_error_In _ _ Ha).
Qed.
Lemma sc_shape_run : sc_shaped (atoms_set v_inv v_raw (sc_start P64) (sc_atoms P64)) = true.
Proof. vm_compute. reflexivity. Qed.
Lemma sc_four : length (filter (counts_b add_up (nlit 1 20) (nlit 1 100) 4) (weighted (fun x => x) (pl_poly P64))) = 4.
Proof. vm_compute. reflexivity. Qed.
Example C70_ghost_hyp : exists s, atoms_set v_inv v_raw (sc_start P64) (sc_atoms P64) = Ok s /\
  C61_data s (blank_data P64 250) /\ C61_cells (sc_cells P64) (fun _ => pl_poly P64) (searched s) /\
  reals_first s /\ neqb (n := P64) (box_sum (box_get s)) n0 = false /\
  exists c f, 0 < Z.to_nat (s_real s) /\ sc_cells P64 0 = Some c /\ such (face_counts add_up (nlit 1 20) (nlit 1 100) 4) (weighted (fun x => x) (pl_poly P64)) 4 /\
    In f (vc_faces c) /\ Z.to_nat (s_real s) <= fst f.
Proof.
  destruct (sc_shape_sound _ sc_shape_run) as (s & E & HD & L & R & RF & B). exists s. split; [exact E|]. split; [exact HD|]. split; [rewrite L; apply sc_cells_ok|]. split; [exact RF|]. split; [exact B|].
  rewrite R. change (Z.to_nat 2) with 2. exists (cell_of (pl_poly P64) (sc_near 0) (nlit 48 5)), (174, nlit 22 15). split; [lia|]. split; [reflexivity|].
  split; [rewrite <- sc_four; apply C61_such_b; intros x; apply counts_b_spec|]. split; [left; reflexivity|cbn; lia].
Qed.

(** Any number of atoms: refuted; with the same crystal given by the two atoms
    of its cell the neighbours are images and the call fails. *)
Definition sc_test (r : res (sys P64 * list (Z * P64 * v3 P64))) : bool := match r with Err IndexError => true | _ => false end.
Definition sc_check (o : res (sys P64)) (f : sys P64 -> res (sys P64 * list (Z * P64 * v3 P64))) : bool :=
  (match o with Ok s => (length (s_atoms s) =? 250)%nat && sc_test (f s) | Err _ => false end)%bool.
Lemma sc_test_sound (o : res (sys P64)) (f : sys P64 -> res (sys P64 * list (Z * P64 * v3 P64))) :
  sc_check o f = true -> exists s, o = Ok s /\ length (s_atoms s) = 250 /\ f s = Err IndexError.
Proof.
  unfold sc_check. destruct o as [s|]; [|discriminate]. intros H. apply andb_prop in H as [H1 H2]. exists s. split; [reflexivity|]. split; [apply Nat.eqb_eq, H1|].
  unfold sc_test in H2. destruct (f s) as [|[]]; try discriminate. reflexivity.
Qed.
Lemma sc_run_err : sc_check (atoms_set v_inv v_raw (sc_start P64) (sc_atoms P64))
  (fun s => find_tetrahedral_voids v_raw v_inv (fun x => x) (sc_cells P64) isort add_up sort_le s (blank_data P64 250) false (nlit 1 10)) = true.
Proof. vm_compute. reflexivity. Qed.
Theorem C70_small_cell_refuted :
  exists (s0 s : sys P64) atoms vs cells p precision,
    length atoms = 2 /\ atoms_set v_inv v_raw s0 atoms = Ok s /\ C61_cells cells p (searched s) /\
    find_tetrahedral_voids v_raw v_inv (fun x => x) cells isort add_up sort_le s vs false precision = Err IndexError.
Proof.
  destruct (sc_test_sound _ _ sc_run_err) as (s & E & _ & H).
  assert (L : searched s = 250).
  { destruct (sc_shape_sound _ sc_shape_run) as (q & Eq & _ & L & _). rewrite E in Eq. injection Eq as <-. exact L. }
  exists (sc_start P64), s, (sc_atoms P64), (blank_data P64 250), (sc_cells P64), (fun _ => pl_poly P64), (nlit 1 10).
  split; [reflexivity|]. split; [exact E|]. split; [rewrite L; apply sc_cells_ok|exact H].
Qed.
Print Assumptions C70_small_cell_refuted.

(** The fingerprint printed with a volume is that of the atoms with the volume:
    refuted. *)
Definition col_test (r : res (sys P64 * list (atom P64 * vdata P64))) : res (list (P64 * text) * list (option text * P64 * Z)) :=
  r <- r ;; Ok (map (fun w => (vd_volume (snd w), fingerprint (vd_vector (snd w)))) (snd r), printed (group_environments (fun _ x => x) 1 2 (snd r))).
Definition line_wrong (q : list (P64 * text) * list (option text * P64 * Z)) : bool :=
  match snd q with
  | (Some t, x, _) :: _ => existsb (fun w => neqb (n := P64) (fst w) x) (fst q) && forallb (fun w => negb (neqb (n := P64) (fst w) x) || negb (teqb (snd w) t)) (fst q)
  | _ => false
  end.
Lemma col_test_sound r q : col_test r = Ok q -> line_wrong q = true ->
  exists s l t x c, r = Ok (s, l) /\ In (Some t, x, c) (printed (group_environments (fun _ x => x) 1 2 l)) /\
    (exists p, In p l /\ neqb (n := P64) (vd_volume (snd p)) x = true) /\
    forall p, In p l -> neqb (n := P64) (vd_volume (snd p)) x = true -> fingerprint (vd_vector (snd p)) <> t.
Proof.
  unfold col_test. destruct r as [[s l]|]; [|discriminate]. cbn [bind fst snd]. intros H W.
  assert (q = (map (fun w => (vd_volume (snd w), fingerprint (vd_vector (snd w)))) l, printed (group_environments (fun _ x => x) 1 2 l))) as -> by congruence. clear H.
  unfold line_wrong in W. cbn [fst snd] in W. destruct (printed _) as [|[[[t|] x] c] rest] eqn:E; try discriminate. apply andb_prop in W as [W1 W2].
  exists s, l, t, x, c. split; [reflexivity|]. split; [rewrite E; left; reflexivity|]. split.
  - apply existsb_exists in W1 as (w & Hw & W1). apply in_map_iff in Hw as (p & <- & Hp). exists p. split; [exact Hp|exact W1].
  - intros p Hp HV HT. rewrite forallb_forall in W2. assert (W3 := W2 _ (in_map _ l p Hp)). cbn [fst snd] in W3. rewrite HV in W3. cbn [negb orb] in W3.
    apply Bool.negb_true_iff in W3. rewrite HT in W3. rewrite P_Text.teqb_refl in W3. discriminate.
Qed.
Definition col_check (o : res (sys P64)) (f : sys P64 -> res (sys P64 * list (atom P64 * vdata P64))) : bool :=
  match o with
  | Ok s => (searched s =? 375)%nat && match col_test (f s) with Ok q => line_wrong q | Err _ => false end
  | Err _ => false
  end.
Lemma col_check_sound o f : col_check o f = true ->
  exists s s' l t x c, o = Ok s /\ searched s = 375 /\ f s = Ok (s', l) /\ In (Some t, x, c) (printed (group_environments (fun _ x => x) 1 2 l)) /\
    (exists p, In p l /\ neqb (n := P64) (vd_volume (snd p)) x = true) /\
    forall p, In p l -> neqb (n := P64) (vd_volume (snd p)) x = true -> fingerprint (vd_vector (snd p)) <> t.
Proof.
  unfold col_check. destruct o as [s|]; [|discriminate]. intros H. apply andb_prop in H as [H1 H2]. destruct (col_test (f s)) as [q|] eqn:E; [|discriminate].
  destruct (col_test_sound _ q E H2) as (s' & l & t & x & c & H). exists s, s', l, t, x, c. split; [reflexivity|]. split; [apply Nat.eqb_eq, H1|exact H].
Qed.
Lemma col_run_wrong : col_check (atoms_set v_inv v_raw (col_start P64) (col_atoms P64))
  (fun s => environments v_raw v_inv (fun x => x) (col_cells P64) isort add_up s (blank_data P64 375)) = true.
Proof. vm_compute. reflexivity. Qed.
Theorem C71_pairing_refuted :
  exists (s0 s s' : sys P64) atoms vs cells p l t x c,
    atoms_set v_inv v_raw s0 atoms = Ok s /\ C61_cells cells p (searched s) /\
    environments v_raw v_inv (fun x => x) cells isort add_up s vs = Ok (s', l) /\
    In (Some t, x, c) (printed (group_environments (fun _ x => x) 1 2 l)) /\
    (exists p, In p l /\ neqb (n := P64) (vd_volume (snd p)) x = true) /\
    forall p, In p l -> neqb (n := P64) (vd_volume (snd p)) x = true -> fingerprint (vd_vector (snd p)) <> t.
Proof.
  destruct (col_check_sound _ _ col_run_wrong) as (s & s' & l & t & x & c & E & L & H).
  exists (col_start P64), s, s', (col_atoms P64), (blank_data P64 375), (col_cells P64), (col_poly P64), l, t, x, c.
  split; [exact E|]. split; [rewrite L; apply col_cells_ok|exact H].
Qed.
Print Assumptions C71_pairing_refuted.
