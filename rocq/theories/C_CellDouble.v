(** Properties C14 and C18 for doubles: atoms at the faces of the box. *)
From Coq Require Import ZArith List Lia Bool.
From Coq.Floats Require Import SpecFloat.
From RecordUpdate Require Import RecordSet.
From Verif Require Import Base Num NumF Types M_Geometry M_Container M_Neighbors Ex P_Container P_Centro P_Diamond S_Neighbors P_Neighbors P_Search P_FindN P_History C_Neighbors.
Import RecordSetNotations ListNotations.
Close Scope Z_scope.

(** ** C18 *)
Section Any.
Context (N : num).

Lemma atom_cells_UB (s : sys N) g e : atom_cells s g = Err e -> e = UB.
Proof.
  unfold atom_cells. apply mapM_UB. intros x e0. unfold get. destruct (nth_error _ _); cbn [bind]; [|now intros [= <-]].
  destruct (_ && _); [discriminate|now intros [= <-]].
Qed.

Lemma cells_outside (s : sys N) g a : make_grid s = Ok g -> stored s -> In a (s_atoms s) ->
  (g_nx g * g_ny g * g_nz g <= atom_cell s g (a_pos a))%Z -> get_all_neighbors_cells s = Err UB.
Proof.
  intros G St Ha Hc. unfold get_all_neighbors_cells, cell_pairs.
  change (make_grid (s <| s_vorused := false |>)) with (make_grid s). rewrite G. cbn [bind].
  change (atom_cells (s <| s_vorused := false |>) g) with (atom_cells s g).
  destruct (atom_cells s g) as [cs|e] eqn:E; cbn [bind]; [exfalso|now rewrite (atom_cells_UB _ _ _ E)].
  apply In_nth_error in Ha as [i Hi]. unfold atom_cells in E. apply P_Centro.mapM_inv in E.
  assert (Li : i < length (s_atoms s)) by (apply nth_error_Some; congruence).
  assert (In i (seq 0 (Z.to_nat (s_nop s)))) as Hin by (apply in_seq; rewrite St; lia).
  clear - E Hin Hi Hc. induction E as [|x y xs ys Hx E IH]; [destruct Hin|]. destruct Hin as [->|Hin]; [|auto].
  unfold get in Hx. rewrite Hi in Hx. cbn [bind] in Hx.
  destruct (Z.ltb_spec (atom_cell s g (a_pos a)) (g_nx g * g_ny g * g_nz g)); [lia|]. rewrite andb_false_r in Hx. discriminate.
Qed.

Lemma filter_all A (p : A -> bool) l : (forall a, In a l -> p a = true) -> filter p l = l.
Proof. induction l as [|a l IH]; cbn; intros H; [reflexivity|]. rewrite (H a) by auto. f_equal. apply IH. auto. Qed.
End Any.

(** Every atom is inside the box, which is five cutoffs wide, but the quotient of
    the largest double below the length and the width of a cell rounds to 5: in
    any system of more than 2300 atoms that has an atom there the search writes
    outside the array of cells. *)
Definition fx : spec_float := S754_finite false 8449878800853892 (-49).
Definition fL : spec_float := nlit (n := F64) 1501 100.
Definition fr : spec_float := nofZ (n := F64) 3.
Definition f1 : spec_float := n1 (N := F64).
Definition fbox : m3 F64 := diag (N := F64) fL fL fL.
Definition upper : v3 F64 := mkV (N := F64) fx f1 f1.
Lemma fL_len : sbox_len fbox = mkV (N := F64) fL fL fL.
Proof.
  assert (H : vx (sbox_len fbox) = fL /\ vy (sbox_len fbox) = fL /\ vz (sbox_len fbox) = fL)
    by (repeat split; vm_compute; reflexivity).
  destruct H as (H1 & H2 & H3). destruct (sbox_len fbox) as [x y z]. cbn [vx vy vz] in *. now rewrite H1, H2, H3.
Qed.

Lemma upper_grid (s : sys F64) : s_len s = mkV (N := F64) fL fL fL -> s_nd s = fr -> make_grid s = Ok (mkGrid 5 5 5).
Proof.
  intros H1 H2. unfold make_grid. rewrite H1, H2. cbn [vx vy vz].
  replace (ntrunc (n := F64) (ndiv (n := F64) fL fr)) with 5%Z by (vm_compute; reflexivity). reflexivity.
Qed.
Lemma upper_cell (s : sys F64) : s_len s = mkV (N := F64) fL fL fL -> atom_cell s (mkGrid 5 5 5) upper = 125%Z.
Proof.
  intros H1. unfold atom_cell. rewrite H1. cbn [g_nx g_ny g_nz vx vy vz upper].
  replace (cell_coord (N := F64) fL (ndiv (n := F64) fL (nofZ (n := F64) 5)) fx) with 5%Z by (vm_compute; reflexivity).
  replace (cell_coord (N := F64) fL (ndiv (n := F64) fL (nofZ (n := F64) 5)) f1) with 0%Z by (vm_compute; reflexivity).
  reflexivity.
Qed.

Theorem C18_inside_box_refuted :
  exists (L r : F64) (p : v3 F64),
    (nltb (n := F64) n0 r = true /\ nleb (n := F64) (nmul (n := F64) (nofZ (n := F64) 3) r) L = true) /\
    inside (N := F64) (diag (N := F64) L L L) p = true /\
    forall srt voro area_pow inv (s0 : sys F64) (l : list (atom F64)) (t pad : F64) (nl : Z) (f : filt),
    2300 < length l -> (forall a, In a l -> a_ghost a = 0%Z) -> (exists a, In a l /\ a_pos a = p) ->
    find_neighbors srt voro area_pow inv (set_atoms (sbox s0 (diag (N := F64) L L L)) l)
      (mkArgs (N := F64) (MCutoff (CutVal (N := F64) r)) f t pad nl) = Err UB.
Proof.
  exists fL, fr, upper. split; [split; vm_compute; reflexivity|]. split; [vm_compute; reflexivity|].
  intros srt voro area_pow inv s0 l t pad nl f Hl Hg (a & Ha & Hp).
  change (diag (N := F64) fL fL fL) with fbox.
  set (s := set_atoms (sbox s0 fbox) l). assert (St : stored s) by reflexivity.
  assert (HL : s_len s = mkV (N := F64) fL fL fL) by exact fL_len.
  assert (HR : s_real s = Z.of_nat (length l)).
  { change (s_real s) with (count_real l). unfold count_real. rewrite filter_all; [reflexivity|].
    intros b Hb. unfold is_real. now rewrite (Hg b Hb). }
  unfold find_neighbors. rewrite (reset_stored St). cbn [bind]. cbv zeta.
  cbn [fa_method fa_filter fa_threshold].
  replace (neqb (n := F64) fr n0) with false by (vm_compute; reflexivity).
  match goal with |- context [real_count ?x] => change (real_count x) with (s_real s) end. rewrite HR.
  destruct (Z.ltb_spec 2300 (Z.of_nat (length l))); [|lia].
  match goal with |- context [get_all_neighbors_cells ?x] => set (s1 := x) end.
  rewrite (cells_outside F64 s1 (mkGrid 5 5 5) (reset_atom_all a)); [reflexivity|..].
  - apply upper_grid; [exact HL|reflexivity].
  - unfold stored, s1. cbn. now rewrite map_length.
  - apply (in_map (@reset_atom_all F64)). exact Ha.
  - change (a_pos (reset_atom_all a)) with (a_pos a). rewrite Hp, upper_cell; [cbn; lia|exact HL].
Qed.
Print Assumptions C18_inside_box_refuted.

(** Along z the index is that of another cell inside the array: no error, and a
    neighbour half the cutoff away is missed. *)
Definition face_sys : sys F64 :=
  set_atoms (sbox (sys_ctor (raw_sys F64)) fbox)
    [at_pos (mkV (N := F64) f1 (nofZ (n := F64) 7) fx); at_pos (mkV (N := F64) f1 (nlit (n := F64) 55 10) (nlit (n := F64) 145 10))].
Theorem C18_inside_box_missed_refuted :
  exists (s sc sn : sys F64),
    forallb (fun a => inside (N := F64) (box_get s) (a_pos a)) (s_atoms s) = true /\
    get_all_neighbors_cells s = Ok sc /\ get_all_neighbors_normal s = Ok sn /\
    map (@nb_idx F64) (nbrs_at sc 0) = [] /\ map (@nb_idx F64) (nbrs_at sn 0) = [1] /\
    Forall (fun b => nltb (n := F64) (nb_dist b) (nlit (n := F64) 16 10) = true) (nbrs_at sn 0) /\ s_nd s = (nofZ (n := F64) 3).
Proof.
  set (s := face_sys <| s_nd := nofZ (n := F64) 3 |>).
  assert (F : match get_all_neighbors_cells s, get_all_neighbors_normal s with
              | Ok sc, Ok sn => (map (@nb_idx F64) (nbrs_at sc 0), map (@nb_idx F64) (nbrs_at sn 0),
                  forallb (fun b => nltb (n := F64) (nb_dist b) (nlit (n := F64) 16 10)) (nbrs_at sn 0))
              | _, _ => ([], [], false) end = ([], [1], true)) by (vm_compute; reflexivity).
  exists s. destruct (get_all_neighbors_cells s) as [sc|]; [|discriminate].
  destruct (get_all_neighbors_normal s) as [sn|]; [|discriminate].
  injection F as F1 F2 F3. exists sc, sn. split; [vm_compute; reflexivity|]. repeat split; auto.
  rewrite Forall_forall. rewrite forallb_forall in F3. exact F3.
Qed.
Print Assumptions C18_inside_box_missed_refuted.

(** ** C14 *)
(** An atom below 0 by less than half a unit in the last place of the length is
    remapped to the length itself, outside the half-open cell, and the remapping
    with removal drops it: the system loses an atom whose image lies inside. *)
Definition f10 : spec_float := nofZ (n := F64) 10.
Definition below : v3 F64 := mkV (N := F64) (nlit (n := F64) (-1) 100000000000000000) f1 f1.
Theorem C14_double_refuted :
  exists (L : F64) (p : v3 F64),
    (nltb (n := F64) (nopp (n := F64) L) (vx p) = true /\ nltb (n := F64) (vx p) n0 = true) /\
    inside (N := F64) (diag (N := F64) L L L) (remap_py (N := F64) (diag (N := F64) L L L) p) = false /\
    forall inv (s : sys F64) l a s' l' remove_images assign dtol,
      box_get s = diag (N := F64) L L L -> get_atoms s = Ok l -> In a l -> a_pos a = p ->
      remap_atoms inv s remove_images assign true dtol = Ok (s', l') -> length l' < length l.
Proof.
  exists f10, below. split; [split; vm_compute; reflexivity|]. split; [vm_compute; reflexivity|].
  assert (HI : inside (N := F64) (diag (N := F64) f10 f10 f10) (remap_py (N := F64) (diag (N := F64) f10 f10 f10) below) = false) by (vm_compute; reflexivity).
  intros inv s l a s' l' ri asg dtol HB HL Ha Hp. unfold remap_atoms. rewrite HB, HL. cbn [bind].
  destruct (box_set _ _ _) as [s1|]; cbn [bind]; [|discriminate]. intros H.
  set (l1 := map _ l) in H. set (l2 := filter _ l1) in H.
  assert (H2 : length l2 < length l).
  { unfold l2, l1. clear - Ha Hp HI. set (q := fun a : atom F64 => inside _ _). set (g := fun a : atom F64 => _).
    assert (Hq : q (g a) = false) by (unfold q, g; cbn; now rewrite Hp).
    clearbody q g. induction l as [|b l IH]; [destruct Ha|]. cbn [map filter length].
    assert (forall k, length (filter q (map g k)) <= length k) as Hk.
    { intros k. etransitivity; [apply filter_length_le|]. now rewrite map_length. }
    destruct Ha as [->|Ha]; [rewrite Hq; specialize (Hk l); lia|]. specialize (IH Ha). destruct (q (g b)); cbn; lia. }
  assert (forall bad (k : list (atom F64)), length (drop_indices bad k) <= length k) as Hd.
  { intros bad k. unfold drop_indices. rewrite map_length.
    etransitivity; [apply filter_length_le|]. rewrite combine_length. lia. }
  assert (El : l' = if ri then drop_indices (dup_indices s1 dtol l2) l2 else l2) by congruence.
  rewrite El. destruct ri; [specialize (Hd (dup_indices s1 dtol l2) l2); lia|exact H2].
Qed.
Print Assumptions C14_double_refuted.

Example C18_inside_box_hyp :
  let l := at_pos upper :: repeat (at_pos (mkV (N := F64) f1 f1 f1)) (24 * 100) in
  2300 < length l /\ (forall a, In a l -> a_ghost a = 0%Z) /\ exists a, In a l /\ a_pos a = upper.
Proof.
  intros l. split; [unfold l; cbn [length]; rewrite repeat_length; lia|]. split.
  - intros a [<-|Ha]; [reflexivity|]. apply List.repeat_spec in Ha. now subst.
  - exists (at_pos upper). split; [now left|reflexivity].
Qed.
Example C14_double_hyp : forall inv,
  let s := set_atoms (sbox (sys_ctor (raw_sys F64)) (diag (N := F64) f10 f10 f10)) [at_pos (mkV (N := F64) f1 f1 f1); at_pos below] in
  box_get s = diag (N := F64) f10 f10 f10 /\
  exists l, get_atoms s = Ok l /\ length l = 2 /\ In (at_pos below) l /\
  exists r, remap_atoms inv s false true true f1 = Ok r.
Proof.
  intros inv s. split; [reflexivity|]. exists [at_pos (mkV (N := F64) f1 f1 f1); at_pos below].
  split; [reflexivity|]. split; [reflexivity|]. split; [right; now left|].
  unfold remap_atoms. change (box_get s) with (diag (N := F64) f10 f10 f10).
  change (get_atoms s) with (Ok [at_pos (mkV (N := F64) f1 f1 f1); at_pos below]). cbn [bind].
  assert (E : box_set inv s (diag (N := F64) f10 f10 f10) = Ok (sbox s (diag (N := F64) f10 f10 f10))).
  { unfold box_set. replace (nltb _ _) with false by (vm_compute; reflexivity). reflexivity. }
  rewrite E. eexists. reflexivity.
Qed.
