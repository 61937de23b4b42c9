(** Property C68: System.embed_in_cubic_box (core.py:1975-2025). *)
From Coq Require Import Reals Lra.
From Verif Require Import Base Num NumR Types Ex M_Geometry M_Container S_Geometry S_Embed P_Geometry P_Box P_Embed C_Geometry.
Local Open Scope R_scope.

(** Over the reals: the new box is the smallest orthogonal box around a cell
    with the same lengths and angles; atoms and flags are left alone. *)
Theorem C68_tight_box :
  forall inv (s : sys Rnum), volume3 (s_box s) <> 0 ->
  exists s' (c : m3 Rnum) (o L : v3 Rnum), embed_in_cubic_box inv s = Ok s' /\
    s_box s' = diag (N := Rnum) (vx L) (vy L) (vz L) /\ s_len s' = L /\
    congruent (s_box s) c /\ tight_box c o L /\
    s_atoms s' = s_atoms s /\ s_tri s' = s_tri s /\ s_rot s' = s_rot s /\ s_rotinv s' = s_rotinv s.
Proof.
  intros inv s V. destruct (cube_tight (s_box s) V) as (c & o & L & E & HC & HT & P1 & P2 & P3).
  exists (sbox s (diag (N := Rnum) (vx L) (vy L) (vz L))), c, o, L.
  split; [unfold embed_in_cubic_box; rewrite E; apply box_set_diag|]. split; [reflexivity|].
  split; [|split; [exact HC|split; [exact HT|auto]]].
  change (sbox_len (diag (N := Rnum) (vx L) (vy L) (vz L)) = L). rewrite diag_len by lra. destruct L. reflexivity.
Qed.
Print Assumptions C68_tight_box.

Lemma wrap_any_length (L M x : R) : 0 < L -> 0 < M ->
  (wrap1 (N := Rnum) L (x * L) : R) / L = (wrap1 (N := Rnum) M (x * M) : R) / M.
Proof.
  assert (G : forall K, 0 < K -> (wrap1 (N := Rnum) K (x * K) : R) / K = let y := (if Rltb (1/2) x then x - 1 else x) in if Rltb y (-1/2) then y + 1 else y).
  { intros K HK. unfold wrap1; rnum. cbv zeta.
    assert (E1 : Rltb (K / 2) (x * K) = Rltb (1/2) x).
    { destruct (Rltb (1/2) x) eqn:E; [apply Rltb_true in E; apply Rltb_true|apply Rltb_false in E; apply Rltb_false]; nra. }
    rewrite E1. set (y := if Rltb (1/2) x then x - 1 else x).
    assert (E2 : (if Rltb (1/2) x then x * K - K else x * K) = y * K) by (unfold y; destruct (Rltb (1/2) x); ring).
    rewrite E2.
    assert (E3 : Rltb (y * K) (- K / 2) = Rltb y (-1/2)).
    { destruct (Rltb y (-1/2)) eqn:E; [apply Rltb_true in E; apply Rltb_true|apply Rltb_false in E; apply Rltb_false]; nra. }
    rewrite E3. destruct (Rltb y (-1/2)); field; lra. }
  intros HL HM. rewrite (G L HL), (G M HM). reflexivity.
Qed.

(** But the system is not treated as orthogonal afterwards: on a triclinic
    system all distances stay those of the old cell. *)
Theorem C68_distances_unchanged :
  forall inv (s s' : sys Rnum) (b : m3 Rnum), tric s b -> volume3 (s_box s) <> 0 ->
  embed_in_cubic_box inv s = Ok s' ->
  s_tri s' = true /\ forall p q vec, get_distance s' p q vec = get_distance s p q vec.
Proof.
  intros inv s s' b (T & (L1 & L2 & L3) & _) V E. destruct (cube_tight (s_box s) V) as (c & o & L & EC & _ & _ & P1 & P2 & P3).
  unfold embed_in_cubic_box in E. rewrite EC, box_set_diag in E. injection E as <-.
  split; [exact T|].
  assert (G : forall d, pbc_diff (sbox s (diag (N := Rnum) (vx L) (vy L) (vz L))) d = pbc_diff s d).
  { intros d. unfold pbc_diff. change (s_tri (sbox s (diag (N := Rnum) (vx L) (vy L) (vz L)))) with (s_tri s). rewrite T.
    change (s_rot (sbox s (diag (N := Rnum) (vx L) (vy L) (vz L)))) with (s_rot s).
    change (s_rotinv (sbox s (diag (N := Rnum) (vx L) (vy L) (vz L)))) with (s_rotinv s).
    change (s_len (sbox s (diag (N := Rnum) (vx L) (vy L) (vz L)))) with (sbox_len (diag (N := Rnum) (vx L) (vy L) (vz L))).
    rewrite diag_len by lra. f_equal. unfold wrap; cbn [vx vy vz]; rnum.
    rewrite (wrap_any_length (vx L) (vx (s_len s))), (wrap_any_length (vy L) (vy (s_len s))), (wrap_any_length (vz L) (vz (s_len s))) by assumption.
    reflexivity. }
  intros p q vec. unfold get_distance, abs_distance, distance_vector. rewrite G. reflexivity.
Qed.
Print Assumptions C68_distances_unchanged.

(** And the atoms are not moved, so atoms of the cell may lie outside the box. *)
Definition n_box : m3 Rnum := mkM (zv Rnum 1 0 0) (zv Rnum (-2) 1 0) (zv Rnum 0 0 1).
Definition n_inv : m3 Rnum := mkM (zv Rnum 1 2 0) (zv Rnum 0 1 0) (zv Rnum 0 0 1).
Definition n_sys : sys Rnum :=
  set_atoms (sbox (assign_triclinic_params (sys_ctor (raw_sys Rnum)) (transpose n_box) n_inv) n_box)
    [at_pos (lin n_box 0 (1/2) 0)].
Lemma n_volume : volume3 n_box = 1.
Proof. unfold volume3, n_box, zv; cbn. ring. Qed.
Lemma n_tric : tric n_sys n_box.
Proof.
  split; [reflexivity|]. split; [|split; [reflexivity|]].
  - change (pos3 (sbox_len n_box)). unfold pos3, sbox_len, n_box, zv; cbn [vx vy vz r0 r1 r2]; rnum. rewrite !Rminus_0_r.
    repeat split; apply sqrt_lt_R0; lra.
  - change (inverse_of (transpose n_box) n_inv). unfold inverse_of, dot3, transpose, col0, col1, col2, n_inv, n_box, zv; cbn. lra.
Qed.
Example C68_hyp : tric n_sys n_box /\ volume3 (s_box n_sys) <> 0.
Proof. split; [apply n_tric|]. change (s_box n_sys) with n_box. rewrite n_volume. lra. Qed.
Theorem C68_atoms_in_box_refuted :
  exists inv (s s' : sys Rnum) (b : m3 Rnum) (a : atom Rnum), tric s b /\ s_box s = b /\
    In a (s_atoms s') /\ a_pos a = lin b 0 (1/2) 0 /\
    embed_in_cubic_box inv s = Ok s' /\ ~ in_box (s_len s') (a_pos a).
Proof.
  destruct (C68_tight_box (fun _ => None) n_sys (proj2 C68_hyp)) as (s' & c & o & L & E & _ & _ & _ & _ & A & _).
  exists (fun _ => None), n_sys, s', n_box, (at_pos (lin n_box 0 (1/2) 0)).
  split; [apply n_tric|]. split; [reflexivity|]. split; [rewrite A; left; reflexivity|]. split; [reflexivity|]. split; [exact E|].
  intros (Hx & _). unfold at_pos, lin, n_box, zv in Hx. cbn in Hx. lra.
Qed.
Print Assumptions C68_atoms_in_box_refuted.
