(** Properties C07-C14: boxes and atom lists. *)
From Coq Require Import Lia ZArith List Reals Lra.
From Verif Require Import Base Num NumR NumF Types M_Geometry M_Container S_Geometry S_Container
  P_Geometry P_Box P_Container P_Remap Ex C_Geometry.
Open Scope R_scope.

(** ** C07 *)
Lemma orthogonal_cos_sum b : orthogonal_box b -> cos_sum b = 0.
Proof.
  intros [H1 [H2 H3]]. unfold cos_sum, vdot; rnum. rewrite H1, H2, H3. unfold Rdiv. ring.
Qed.

(** As long as only orthogonal boxes are assigned the system is treated as
    orthogonal, and every assignment succeeds. *)
Theorem C07_orthogonal_history :
  forall (inv : m3 Rnum -> option (m3 Rnum)) (bs : list (m3 Rnum)) (s : sys Rnum),
  s_tri s = false -> Forall orthogonal_box bs ->
  exists s', foldM (box_set inv) bs s = Ok s' /\ s_tri s' = false.
Proof.
  intros inv bs. induction bs as [|b bs IH]; intros s Ht Hb; [exists s; auto|].
  inversion Hb; subst. cbn [foldM].
  assert (E : box_set inv s b = Ok (sbox s b)).
  { unfold box_set. rewrite orthogonal_cos_sum by assumption.
    replace (nltb _ _) with false; [reflexivity|]. symmetry. rnum. apply Rltb_false.
    rewrite Rabs_R0. lra. }
  rewrite E. cbn [bind]. apply IH; assumption.
Qed.
Print Assumptions C07_orthogonal_history.

Example C07_hyp : Forall orthogonal_box
  [diag (N:=Rnum) 3 4 5; mkM (zv Rnum 1 1 0) (zv Rnum 1 (-1) 0) (zv Rnum 0 0 2)].
Proof. repeat constructor; unfold diag, zv; cbn; lra. Qed.

(** A box with non-negative cosines (acute angles) one of which exceeds 1e-6 is
    treated as triclinic, whatever was assigned before. *)
Theorem C07_skewed_box_is_triclinic :
  forall (inv : m3 Rnum -> option (m3 Rnum)) (s s' : sys Rnum) (b : m3 Rnum),
  0 <= cosine (r0 b) (r1 b) -> 0 <= cosine (r1 b) (r2 b) -> 0 <= cosine (r2 b) (r0 b) ->
  (1 / 1000000 < cosine (r0 b) (r1 b) \/ 1 / 1000000 < cosine (r1 b) (r2 b) \/
   1 / 1000000 < cosine (r2 b) (r0 b)) ->
  box_set inv s b = Ok s' -> s_tri s' = true /\ s_rot s' = transpose b.
Proof.
  intros inv s s' b H1 H2 H3 H4 H.
  assert (E : cos_sum b = 0 + cosine (r2 b) (r0 b) + cosine (r0 b) (r1 b) + cosine (r1 b) (r2 b))
    by reflexivity.
  unfold box_set in H. replace (nltb _ _) with true in H.
  - destruct (inv _); [|discriminate]. inversion H; subst. split; reflexivity.
  - symmetry. rnum. apply Rltb_true. rewrite E. rewrite Rabs_pos_eq by lra. lra.
Qed.
Print Assumptions C07_skewed_box_is_triclinic.

Example C07_skew_hyp : 0 <= cosine (r0 k_box) (r1 k_box) /\ 0 <= cosine (r1 k_box) (r2 k_box) /\
  0 <= cosine (r2 k_box) (r0 k_box) /\ 1 / 1000000 < cosine (r0 k_box) (r1 k_box).
Proof.
  unfold cosine, k_box, zv; cbn [vx vy vz r0 r1 r2]; rnum.
  replace (2 * 0 + 1 * 0 + 0 * 1) with 0 by ring. replace (0 * 1 + 0 * 0 + 1 * 0) with 0 by ring.
  unfold Rdiv. rewrite !Rmult_0_l.
  replace (sqrt (1 * 1 + 0 + 0)) with 1 by (rewrite <- sqrt_1 at 1; f_equal; ring).
  set (q := sqrt (2 * 2 + 1 * 1 + 0)).
  assert (Q : 0 < q <= 3).
  { unfold q. split; [apply sqrt_lt_R0; lra|].
    replace 3 with (sqrt (3 * 3)) by (apply sqrt_square; lra). apply sqrt_le_1_alt. lra. }
  assert (/ 3 <= / (1 * q)) by (rewrite Rmult_1_l; apply Rinv_le_contravar; lra).
  set (z := / (1 * q)) in *. clearbody z. lra.
Qed.

(** The flag is never cleared: after a triclinic box an orthogonal one is still
    treated with the old cell, and distances are wrong. *)
Theorem C07_history_refuted :
  exists (inv : m3 Rnum -> option (m3 Rnum)) (b1 b2 : m3 Rnum) (s1 s2 : sys Rnum) (p q : atom Rnum),
    box_set inv (sys_ctor (raw_sys Rnum)) b1 = Ok s1 /\ inverse_of (transpose b1) (s_rotinv s1) /\
    box_set inv s1 b2 = Ok s2 /\ orthogonal_box b2 /\ s_len s2 = mkV (N:=Rnum) 10 10 10 /\
    s_tri s2 = true /\
    get_distance s2 p q false = DistOnly (N:=Rnum) 8 /\
    is_min_image_distance (s_len s2) (a_pos p) (a_pos q) 1.
Proof.
  exists (fun _ => Some k_inv), k_box, (diag (N:=Rnum) 10 10 10).
  set (s0 := sys_ctor (raw_sys Rnum)).
  set (s1 := sbox (assign_triclinic_params s0 (transpose k_box) k_inv) k_box).
  set (s2 := sbox s1 (diag (N:=Rnum) 10 10 10)).
  assert (L2 : s_len s2 = mkV (N:=Rnum) 10 10 10).
  { change (s_len s2) with (sbox_len (diag (N:=Rnum) 10 10 10)). apply diag_len; lra. }
  exists s1, s2, (at_pos (mkV (N:=Rnum) 9 0 0)), (at_pos (mkV (N:=Rnum) 0 0 0)).
  assert (O : orthogonal_box (diag (N:=Rnum) 10 10 10)) by (unfold orthogonal_box, diag; cbn; lra).
  split.
  { unfold box_set. replace (nltb _ _) with true; [reflexivity|]. symmetry. rnum. apply Rltb_true.
    apply k_hyp. }
  split; [apply k_hyp|]. split; [apply box_set_diag|]. split; [exact O|].
  split; [exact L2|]. split; [reflexivity|]. split.
  - unfold get_distance. f_equal. unfold abs_distance. rewrite norm_eucl.
    unfold pbc_diff. change (s_tri s2) with true. cbv iota.
    rewrite L2. unfold wrap; cbn [vx vy vz].
    change (s_rotinv s2) with k_inv. change (s_rot s2) with (transpose k_box).
    unfold mvmul, vdot, vsub, k_inv, k_box, transpose, col0, col1, col2, zv, at_pos; cbn [vx vy vz r0 r1 r2]; rnum.
    set (u := @wrap1 Rnum 10 _). set (v := @wrap1 Rnum 10 _). set (w := @wrap1 Rnum 10 _).
    assert (Eu : u = 80).
    { unfold u. match goal with |- wrap1 10 ?d = _ => replace d with 90 by (cbn; lra) end. ev_wrap. lra. }
    assert (Ev : v = 0).
    { unfold v. match goal with |- wrap1 10 ?d = _ => replace d with 0 by (cbn; lra) end. ev_wrap. lra. }
    assert (Ew : w = 0).
    { unfold w. match goal with |- wrap1 10 ?d = _ => replace d with 0 by (cbn; lra) end. ev_wrap. lra. }
    rewrite Eu, Ev, Ew. unfold eucl, len2.
    replace 8 with (sqrt (8 * 8)) by (apply sqrt_square; lra). f_equal. lra.
  - rewrite L2. set (so := sbox s0 (diag (N:=Rnum) 10 10 10)).
    assert (Ho : ortho so) by (apply sbox_diag_ortho; [reflexivity|lra..]).
    assert (Lo : s_len so = mkV (N:=Rnum) 10 10 10) by exact L2.
    rewrite <- Lo.
    replace 1 with (abs_distance so (mkV (N:=Rnum) 9 0 0) (mkV (N:=Rnum) 0 0 0)).
    + apply abs_distance_min; [assumption| |]; rewrite Lo; unfold in_box; cbn; lra.
    + unfold abs_distance. rewrite norm_eucl.
      change (pbc_diff so (vsub (mkV (N:=Rnum) 9 0 0) (mkV (N:=Rnum) 0 0 0))) with
        (distance_vector so (mkV (N:=Rnum) 9 0 0) (mkV (N:=Rnum) 0 0 0)).
      rewrite (distance_vector_ortho _ _ _ Ho), Lo. cbn [vx vy vz]. ev_wrap.
      unfold eucl, len2. rewrite <- sqrt_1. f_equal. lra.
Qed.
Print Assumptions C07_history_refuted.

(** The three cosines can cancel: a non-orthogonal box (with non-zero volume)
    is treated as orthogonal. *)
Theorem C07_cancelling_cosines_refuted :
  exists b : m3 Rnum, forall inv,
    ~ orthogonal_box b /\
    (exists w, inverse_of (transpose b) w) /\
    exists s, box_set inv (sys_ctor (raw_sys Rnum)) b = Ok s /\ s_tri s = false.
Proof.
  exists (mkM (zv Rnum 1 1 0) (zv Rnum 1 0 1) (zv Rnum (-1) 1 0)). intros inv. split; [|split].
  - unfold orthogonal_box, zv; cbn. lra.
  - exists (mkM (mkV (N:=Rnum) (1/2) (1/2) (-1/2)) (mkV (N:=Rnum) 0 0 1) (mkV (N:=Rnum) (-1/2) (1/2) (1/2))).
    unfold inverse_of, dot3, transpose, col0, col1, col2, zv; cbn. lra.
  - eexists (sbox (sys_ctor (raw_sys Rnum)) _). split; [|reflexivity]. unfold box_set.
    replace (nltb _ _) with false; [reflexivity|]. symmetry.
    replace (cos_sum _) with 0.
    + rnum. apply Rltb_false. rewrite Rabs_R0. lra.
    + symmetry. unfold cos_sum, vdot, norm, zv; cbn [vx vy vz r0 r1 r2]; rnum.
      replace (-1 * -1 + 1 * 1 + 0 * 0) with 2 by ring.
      replace (1 * 1 + 1 * 1 + 0 * 0) with 2 by ring. replace (1 * 1 + 0 * 0 + 1 * 1) with 2 by ring.
      rewrite sqrt_sqrt by lra. lra.
Qed.
Print Assumptions C07_cancelling_cosines_refuted.

(** ** C08 *)
(** While no small atom list was assigned (and no repeat called), the box set
    is the box returned, and it is the box whose lengths distances use. *)
Theorem C08_box_get_after_set :
  forall (inv : m3 Rnum -> option (m3 Rnum)) (s s' : sys Rnum) (B : m3 Rnum),
  s_actual s = None -> box_set inv s B = Ok s' ->
  box_get s' = B /\ s_actual s' = None /\
  s_len s' = mkV (N:=Rnum) (eucl (vx (r0 B)) (vy (r0 B)) (vz (r0 B)))
                 (eucl (vx (r1 B)) (vy (r1 B)) (vz (r1 B)))
                 (eucl (vx (r2 B)) (vy (r2 B)) (vz (r2 B))).
Proof.
  intros inv s s' B Ha H. destruct (box_set_len _ _ _ _ H) as [E1 E2].
  assert (E3 : s_actual s' = None).
  { unfold box_set in H. destruct (nltb _ _); [destruct (inv _)|]; inversion H; subst; exact Ha. }
  split; [unfold box_get; rewrite E3; exact E2|]. split; [exact E3|]. rewrite E1.
  unfold sbox_len, eucl, len2; rnum. rewrite !Rminus_0_r. f_equal; f_equal; ring.
Qed.
Print Assumptions C08_box_get_after_set.

Example C08_hyp : s_actual (sys_ctor (raw_sys Rnum)) = None /\
  exists s, box_set (fun _ => None) (sys_ctor (raw_sys Rnum)) (diag (N:=Rnum) 10 8 6) = Ok s.
Proof. split; [reflexivity|]. exists g_sys. apply g_sys_reached. Qed.

(** After a small list was assigned, a new box is used for distances but the
    old one is returned. *)
Theorem C08_stale_box_refuted :
  exists (B1 B2 : m3 Rnum) (a : atom Rnum) (s1 s2 s3 : sys Rnum), forall inv raw,
    box_set inv (sys_ctor (raw_sys Rnum)) B1 = Ok s1 /\
    (exists s2', atoms_set inv raw s1 [a] = Ok s2' /\
       exists s3', box_set inv s2' B2 = Ok s3' /\ box_get s3' = B1 /\ B1 <> B2 /\ s_box s3' = B2).
Proof.
  exists (diag (N:=Rnum) 1 1 1), (diag (N:=Rnum) 2 2 2), (at_pos (zv Rnum 0 0 0)).
  set (s1 := sbox (sys_ctor (raw_sys Rnum)) (diag (N:=Rnum) 1 1 1)). exists s1, s1, s1.
  intros inv raw. split; [apply box_set_diag|].
  assert (Hne : (neqb (box_sum (box_get s1)) (n0 (N:=Rnum))) = false).
  { unfold box_sum, s1, box_get; cbn. apply Reqb_false. lra. }
  unfold atoms_set. cbn [length Z.of_nat Pos.of_succ_nat Z.ltb Z.compare Pos.compare Pos.compare_cont Z.eqb].
  rewrite Hne. unfold repeat_cell. cbn [bind].
  set (r := small_reps 1).
  assert (Esc : scale_box (box_get s1) (r, r, r) =
    diag (N:=Rnum) (IZR (2 * r + 1) * 1) (IZR (2 * r + 1) * 1) (IZR (2 * r + 1) * 1)).
  { unfold scale_box, s1, box_get, diag, vscale; cbn. rewrite !Rmult_0_r. reflexivity. }
  rewrite Esc, box_set_diag. cbn [bind]. eexists. split; [reflexivity|].
  rewrite box_set_diag. eexists. split; [reflexivity|]. split; [reflexivity|]. split; [|reflexivity].
  unfold diag. intros E. injection E as E _ _. lra.
Qed.
Print Assumptions C08_stale_box_refuted.

(** ** C09, any arithmetic *)
Theorem C09_atoms_roundtrip :
  forall (N : num) (inv : m3 N -> option (m3 N)) (raw : Z -> atom N) (s s' : sys N) (l : list (atom N)),
  all_real l -> atoms_set inv raw s l = Ok s' ->
  get_atoms s' = Ok l /\ s_real s' = Z.of_nat (length l).
Proof.
  intros N inv raw s s' l Hr H. destruct (atoms_set_spec Hr H) as [g [_ [H1 [_ [H2 _]]]]]. auto.
Qed.
Print Assumptions C09_atoms_roundtrip.

(** The assignment succeeds for every non-empty list when the box entries do
    not sum to zero. *)
Theorem C09_assignment_succeeds :
  forall (N : num) (inv : m3 N -> option (m3 N)) (raw : Z -> atom N) (s : sys N) (l : list (atom N)),
  l <> [] -> neqb (box_sum (box_get s)) n0 = false -> (forall m, inv m <> None) ->
  exists s', atoms_set inv raw s l = Ok s'.
Proof. intros. apply atoms_set_ok; assumption. Qed.
Print Assumptions C09_assignment_succeeds.

(** A concrete double-precision run: two atoms in a cubic box of side 2. *)
Definition c_inv : m3 F64 -> option (m3 F64) := fun _ => None.
Definition c_raw : Z -> atom F64 := fun _ => raw_atom F64.
Definition c_sys : sys F64 :=
  sbox (sys_ctor (raw_sys F64)) (diag (N:=F64) (nofZ 2) (nofZ 2) (nofZ 2)).
Definition c_atoms : list (atom F64) :=
  [atom_ctor (raw_atom F64) (zv F64 0 0 0) 1 1; atom_ctor (raw_atom F64) (zv F64 1 1 1) 2 1].
Example C09_hyp : all_real c_atoms /\
  match atoms_set c_inv c_raw c_sys c_atoms with
  | Ok s' => Z.of_nat (length (s_atoms s'))
  | Err _ => 0%Z
  end = 250%Z.
Proof.
  split; [intros a [<-|[<-|[]]]; reflexivity|]. vm_compute. reflexivity.
Qed.

(** ** C10, any arithmetic *)
Theorem C10_small_systems_padded :
  forall (N : num) (inv : m3 N -> option (m3 N)) (raw : Z -> atom N) (s s' : sys N) (l : list (atom N)),
  all_real l -> (1 <= length l < 200)%nat -> atoms_set inv raw s l = Ok s' ->
  exists ghosts r,
    s_atoms s' = l ++ ghosts /\ (200 <= length (s_atoms s'))%nat /\ (1 <= r)%Z /\
    copies_of (box_get s) r r r l ghosts 1 (Z.of_nat (length l) + 1).
Proof.
  intros N inv raw s s' l Hr Hn H.
  destruct (atoms_set_spec Hr H) as [g [H1 [_ [_ [_ [_ [_ H2]]]]]]].
  exists g, (small_reps (Z.of_nat (length l))).
  destruct (Z.ltb_spec (Z.of_nat (length l)) 200) as [E|E]; [|lia].
  destruct H2 as [H2 H3].
  destruct (@small_reps_enough (Z.of_nat (length l))) as [R1 R2]; [lia|].
  split; [exact H1|]. split; [|split; [exact R1|exact H3]].
  rewrite H1, app_length, H2.
  set (r := small_reps _) in *.
  pose proof (length_shifts (rx:=r) (ry:=r) (rz:=r) ltac:(lia) ltac:(lia) ltac:(lia)) as LS.
  apply Nat2Z.inj_le. rewrite Nat2Z.inj_add, Nat2Z.inj_mul, LS.
  change (Z.of_nat 200) with 200%Z.
  replace ((2 * r + 1) ^ 3)%Z with ((2 * r + 1) * (2 * r + 1) * (2 * r + 1))%Z in R2 by ring. lia.
Qed.
Print Assumptions C10_small_systems_padded.

Example C10_hyp : all_real c_atoms /\ (1 <= length c_atoms < 200)%nat /\
  exists s', atoms_set c_inv c_raw c_sys c_atoms = Ok s'.
Proof.
  split; [apply C09_hyp|]. split; [cbn; lia|]. pose proof C09_hyp as [_ H].
  destruct (atoms_set c_inv c_raw c_sys c_atoms) as [s'|]; [exists s'; reflexivity|discriminate].
Qed.

(** ** C11, any arithmetic *)
Theorem C11_repeat :
  forall (N : num) (inv : m3 N -> option (m3 N)) (raw : Z -> atom N) (s s' : sys N)
         (rx ry rz : Z) (l l' : list (atom N)) (ghost scale : bool),
  (0 <= rx)%Z -> (0 <= ry)%Z -> (0 <= rz)%Z ->
  get_atoms s = Ok l ->
  repeat_cell inv raw s (rx, ry, rz) None ghost scale = Ok (s', l') ->
  exists new,
    l' = l ++ new /\
    Z.of_nat (length l') = (Z.of_nat (length l) * ((2 * rx + 1) * (2 * ry + 1) * (2 * rz + 1)))%Z /\
    copies_of (box_get s) rx ry rz l new (if ghost then 1 else 0)%Z (Z.of_nat (length l) + 1) /\
    (scale = true ->
      let k (r : Z) (v : v3 N) : v3 N :=
        mkV (nmul (nofZ (2 * r + 1)) (vx v)) (nmul (nofZ (2 * r + 1)) (vy v))
            (nmul (nofZ (2 * r + 1)) (vz v)) in
      let b := box_get s in
      s_box s' = mkM (k rx (r0 b)) (k ry (r1 b)) (k rz (r2 b)) /\ s_len s' = sbox_len (s_box s')).
Proof.
  intros N inv raw s s' rx ry rz l l' gh sc Hx Hy Hz Hl H.
  destruct (repeat_spec H) as [l0 [new [E0 [E1 [E2 [E3 [E4 _]]]]]]].
  assert (l0 = l) by congruence. subst l0.
  exists new. split; [exact E1|]. split.
  - rewrite E1, app_length, E3, Nat2Z.inj_add, Nat2Z.inj_mul, length_shifts by assumption. ring.
  - split; [exact E2|]. intros ->. destruct E4 as [E4 E5]. split; [exact E4|]. rewrite E4. exact E5.
Qed.
Print Assumptions C11_repeat.

Example C11_hyp :
  match repeat_cell c_inv c_raw (set_atoms c_sys c_atoms) (1, 0, 2)%Z None false true with
  | Ok (_, l') => length l'
  | Err _ => 0%nat
  end = 30%nat /\ get_atoms (set_atoms c_sys c_atoms) = Ok c_atoms.
Proof.
  split; [vm_compute; reflexivity|]. rewrite <- (app_nil_r c_atoms).
  apply set_atoms_counters; [apply C09_hyp|intros a []].
Qed.

(** ** C12, any arithmetic *)
(** One container operation: assigning a list (real atoms first), or adding a
    list, where ghosts are only added to systems that have ghosts. *)
Inductive cop (N : num) (inv : m3 N -> option (m3 N)) (raw : Z -> atom N) : sys N -> sys N -> Prop :=
| op_set s s' l : all_real l -> atoms_set inv raw s l = Ok s' -> cop N inv raw s s'
| op_set_mixed s r g : all_real r -> (forall a, In a g -> a_ghost a <> 0%Z) ->
    cop N inv raw s (set_atoms s (r ++ g))
| op_add_real s s' l : all_real l -> add_atoms s l = Ok s' -> cop N inv raw s s'
| op_add s s' l : s_ghost s <> 0%Z -> add_atoms s l = Ok s' -> cop N inv raw s s'.
Inductive cops (N : num) (inv : m3 N -> option (m3 N)) (raw : Z -> atom N) : sys N -> sys N -> Prop :=
| cops_nil s : cops N inv raw s s
| cops_step s1 s2 s3 : cops N inv raw s1 s2 -> cop N inv raw s2 s3 -> cops N inv raw s1 s3.

Theorem C12_counters :
  forall (N : num) (inv : m3 N -> option (m3 N)) (raw : Z -> atom N) (m : sys N) (s : sys N),
  cops N inv raw (sys_ctor m) s ->
  s_nop s = Z.of_nat (length (s_atoms s)) /\
  s_real s = Z.of_nat (length (filter (fun a => Z.eqb (a_ghost a) 0) (s_atoms s))) /\
  exists l, get_atoms s = Ok l /\ l = filter (fun a => Z.eqb (a_ghost a) 0) (s_atoms s).
Proof.
  intros N inv raw m s H.
  assert (C : counters_ok s).
  { remember (sys_ctor m) as s0 eqn:E. induction H as [s|s1 s2 s3 H IH Hop].
    - subst s. exists [], []. cbn. repeat split; intros a [].
    - specialize (IH E). destruct Hop as [s s' l Hr Hs|s r g Hr Hg|s s' l Hr Ha|s s' l Hg Ha].
      + destruct (atoms_set_spec Hr Hs) as [g [_ [_ [X _]]]]. exact X.
      + apply (set_atoms_counters s Hr Hg).
      + apply (add_atoms_counters IH (or_intror Hr) Ha).
      + apply (add_atoms_counters IH (or_introl Hg) Ha). }
  destruct (counters_get_atoms C) as [r [g [Ea [Eg [Hr [Hg _]]]]]].
  assert (F : filter (fun a => Z.eqb (a_ghost a) 0) (s_atoms s) = r).
  { rewrite Ea, filter_app. rewrite filter_all, filter_none, app_nil_r; [reflexivity| |].
    - intros a Ha. apply Z.eqb_neq. auto.
    - intros a Ha. apply Z.eqb_eq. auto. }
  rewrite F. destruct C as [r' [g' [Ea' [_ [_ [E1 [E2 E3]]]]]]].
  split; [rewrite E3, E1, E2, Ea', app_length; lia|]. split.
  - pose proof Eg as Q. unfold get_atoms in Q. rewrite E1, Nat2Z.id, Ea', mapM_get_prefix in Q.
    rewrite E1. congruence.
  - exists r. auto.
Qed.
Print Assumptions C12_counters.

Example C12_hyp : exists s, cops F64 c_inv c_raw (sys_ctor (raw_sys F64)) s /\
  s_real s = 3%Z /\ s_nop s = 5%Z.
Proof.
  pose (g := raw_atom F64 <| a_ghost := 1%Z |>).
  pose (s1 := set_atoms (sys_ctor (raw_sys F64)) (c_atoms ++ [g])).
  destruct (add_atoms s1 [g; raw_atom F64]) as [s2|] eqn:E; [|discriminate].
  exists s2. split.
  - apply cops_step with s1; [apply cops_step with (sys_ctor (raw_sys F64)); [constructor|]|].
    + apply op_set_mixed; [apply C09_hyp|]. intros a [<-|[]]. discriminate.
    + apply op_add with [g; raw_atom F64]; [vm_compute; discriminate|exact E].
  - assert (F : match add_atoms s1 [g; raw_atom F64] with
        | Ok s => (s_real s, s_nop s) | Err _ => (0, 0)%Z end = (3, 5)%Z) by (vm_compute; reflexivity).
    rewrite E in F. split; congruence.
Qed.

(** Ghosts added to a system without ghosts are counted but not stored. *)
Theorem C12_add_ghosts_refuted :
  exists (s s' : sys F64) (l : list (atom F64)),
    counters_ok s /\ add_atoms s l = Ok s' /\
    s_nop s' <> Z.of_nat (length (s_atoms s')) /\ get_all_atoms s' = Err UB.
Proof.
  pose (g := raw_atom F64 <| a_ghost := 1%Z |>).
  pose (s1 := set_atoms (sys_ctor (raw_sys F64)) c_atoms).
  assert (F : match add_atoms s1 [g] with
     | Ok s' => (s_nop s', length (s_atoms s'), match get_all_atoms s' with Err UB => true | _ => false end)
     | Err _ => (0%Z, 0%nat, false) end = (3%Z, 2%nat, true)) by (vm_compute; reflexivity).
  destruct (add_atoms s1 [g]) as [s'|] eqn:E; [|discriminate].
  injection F as F1 F2 F3.
  exists s1, s', [g]. split.
  - apply (set_atoms_counters (sys_ctor (raw_sys F64)) (reals:=c_atoms) (ghosts:=[]));
      [apply C09_hyp|intros a []].
  - split; [exact E|]. split; [rewrite F1, F2; discriminate|].
    destruct (get_all_atoms s') as [|[]]; congruence.
Qed.
Print Assumptions C12_add_ghosts_refuted.

(** A list with a ghost before a real atom: sys.atoms returns the ghost. *)
Theorem C12_ghost_first_refuted :
  forall N : num, exists (s : sys N) (g r : atom N),
    a_ghost g = 1%Z /\ a_ghost r = 0%Z /\ get_atoms (set_atoms s [g; r]) = Ok [g].
Proof.
  intros N. exists (raw_sys N), (raw_atom N <| a_ghost := 1%Z |>), (raw_atom N). repeat split.
Qed.
Print Assumptions C12_ghost_first_refuted.

(** ** C13, any arithmetic: set_atom after get_atom, for atoms whose stored
    index is their position (see C13 theorems of the readers). *)
Theorem C13_set_get_atom :
  forall (N : num) (s : sys N) (i : Z) (a : atom N),
  get_atom s i = Ok a -> a_loc a = i -> set_atom s a = Ok s.
Proof. intros N s i a. apply set_get_atom. Qed.
Print Assumptions C13_set_get_atom.

Example C13_hyp : forall N : num,
  let s := set_atoms (raw_sys N) [raw_atom N; raw_atom N <| a_loc := 1%Z |>] in
  exists a, get_atom s 1 = Ok a /\ a_loc a = 1%Z.
Proof. intros N s. eexists. split; reflexivity. Qed.

(** Images created for small systems carry index 0: writing one back
    overwrites the first real atom. *)
Theorem C13_ghost_writeback_refuted :
  exists (s s' s'' : sys F64) (l : list (atom F64)) (i : Z) (g : atom F64),
    all_real l /\ atoms_set c_inv c_raw s l = Ok s' /\
    get_atom s' i = Ok g /\ set_atom s' g = Ok s'' /\
    get_atom s' 0 <> get_atom s'' 0.
Proof.
  exists c_sys.
  assert (F : match atoms_set c_inv c_raw c_sys c_atoms with Ok s' =>
                match get_atom s' 2 with Ok g =>
                  match set_atom s' g with Ok s'' =>
                    match get_atom s' 0, get_atom s'' 0 with
                    | Ok a, Ok b => (a_id a, a_id b) | _, _ => (0, 0)%Z end
                  | Err _ => (0, 0)%Z end
                | Err _ => (0, 0)%Z end
              | Err _ => (0, 0)%Z end = (1, 3)%Z) by (vm_compute; reflexivity).
  destruct (atoms_set c_inv c_raw c_sys c_atoms) as [s'|] eqn:E; [|discriminate].
  destruct (get_atom s' 2) as [g|] eqn:Eg; [|discriminate].
  destruct (set_atom s' g) as [s''|] eqn:Es; [|discriminate].
  exists s', s'', c_atoms, 2%Z, g. split; [apply C09_hyp|]. split; [exact E|]. split; [exact Eg|].
  split; [exact Es|].
  destruct (get_atom s' 0) as [a|]; [|discriminate]. destruct (get_atom s'' 0) as [b|]; [|discriminate].
  intros X. injection X as ->. congruence.
Qed.
Print Assumptions C13_ghost_writeback_refuted.

(** ** C14 *)
Theorem C14_remap_atoms :
  forall (inv : m3 Rnum -> option (m3 Rnum)) (s s' : sys Rnum) (remove_images assign remove_atoms : bool)
         (dtol : R) (l l' : list (atom Rnum)),
  get_atoms s = Ok l ->
  remap_atoms inv s remove_images assign remove_atoms dtol = Ok (s', l') ->
  exists l1 l2,
    Forall2 (remapped (box_get s)) l l1 /\
    subseq l2 l1 /\ (remove_atoms = false -> l2 = l1) /\
    (remove_atoms = true -> forall a, In a l2 <-> In a l1 /\ in_cell (box_get s) (a_pos a)) /\
    subseq l' l2 /\ (remove_images = false -> l' = l2) /\
    (remove_images = true ->
       (l2 <> [] -> l' <> []) /\
       (forall i j a b, (i < j)%nat -> nth_error l' i = Some a -> nth_error l' j = Some b ->
          dtol < dist_of (get_distance s' a b false)) /\
       (forall i a, nth_error l2 i = Some a -> In a l' \/
          exists j b, (i < j)%nat /\ nth_error l2 j = Some b /\
            dist_of (get_distance s' a b false) <= dtol)) /\
    (assign = true -> s_atoms s' = l').
Proof. intros. eapply remap_atoms_spec; eassumption. Qed.
Print Assumptions C14_remap_atoms.

Example C14_hyp : forall inv,
  let s := set_atoms g_sys [at_pos (zv Rnum (-1) 9 3); at_pos (zv Rnum 9 1 3); at_pos (zv Rnum 2 2 2)] in
  exists l, get_atoms s = Ok l /\ length l = 3%nat /\
  exists r, remap_atoms inv s true true false (1/10) = Ok r.
Proof.
  intros inv s. eexists. split; [reflexivity|]. split; [reflexivity|].
  unfold remap_atoms. change (get_atoms s) with (Ok [at_pos (zv Rnum (-1) 9 3); at_pos (zv Rnum 9 1 3); at_pos (zv Rnum 2 2 2)]).
  cbn [bind]. change (box_get s) with (diag (N:=Rnum) 10 8 6). rewrite box_set_diag. eexists. reflexivity.
Qed.
