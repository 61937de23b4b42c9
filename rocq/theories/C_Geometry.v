(** Properties C01-C06: pair distances. *)
From Coq Require Import Reals Lra ZArith Lia.
From Verif Require Import Base Num NumR Types M_Geometry M_Container S_Geometry P_Geometry P_Box Ex.
Open Scope R_scope.

(** Example system: a 10 x 8 x 6 box set through the box setter on a freshly
    constructed System, and two atoms near opposite faces. *)
Definition g_sys : sys Rnum := sbox (sys_ctor (raw_sys Rnum)) (diag (N:=Rnum) 10 8 6).
Definition g_a : atom Rnum := at_pos (zv Rnum 1 1 1).
Definition g_b : atom Rnum := at_pos (zv Rnum 9 2 1).

Example g_sys_reached : forall inv,
  box_set inv (sys_ctor (raw_sys Rnum)) (diag (N:=Rnum) 10 8 6) = Ok g_sys.
Proof. intros. apply box_set_diag. Qed.
Example g_sys_ortho : ortho g_sys.
Proof. apply sbox_diag_ortho; [reflexivity| lra ..]. Qed.
Lemma g_len : s_len g_sys = mkV (N:=Rnum) 10 8 6.
Proof. change (s_len g_sys) with (sbox_len (diag (N:=Rnum) 10 8 6)). apply diag_len; lra. Qed.
Example g_in_box : in_box (s_len g_sys) (a_pos g_a) /\ in_box (s_len g_sys) (a_pos g_b).
Proof. rewrite g_len. unfold in_box, g_a, g_b, at_pos, zv; cbn. repeat split; lra. Qed.

(** Evaluates [wrap1] on numerals. *)
Ltac ev_wrap :=
  repeat match goal with
  | |- context [wrap1 (N:=Rnum) ?L ?d] =>
      let w := fresh "w" in let E := fresh "E" in
      remember (wrap1 (N:=Rnum) L d) as w eqn:E;
      let A := fresh in let B := fresh in let C := fresh in
      destruct (wrap1_cases L d) as [[A [[B C]|[B C]]]|[A [[B C]|[B C]]]];
      try (exfalso; lra); rewrite C in E; clear A B C; subst w
  end.

Example g_value : get_distance g_sys g_a g_b false = DistOnly (N:=Rnum) (sqrt 5).
Proof.
  unfold get_distance. f_equal. unfold abs_distance.
  rewrite norm_eucl.
  change (pbc_diff g_sys (vsub (a_pos g_a) (a_pos g_b))) with
    (distance_vector g_sys (a_pos g_a) (a_pos g_b)).
  rewrite (distance_vector_ortho _ _ _ g_sys_ortho), g_len. cbn [vx vy vz g_a g_b at_pos zv a_pos]. rnum.
  change (vx (a_pos g_a)) with 1. change (vx (a_pos g_b)) with 9.
  change (vy (a_pos g_a)) with 1. change (vy (a_pos g_b)) with 2.
  change (vz (a_pos g_a)) with 1. change (vz (a_pos g_b)) with 1.
  ev_wrap. unfold eucl, len2. f_equal. lra.
Qed.

(** ** C01.  For every box accepted by the setter (orthogonal or triclinic, any
    inverse routine) and every two atoms. *)
Theorem C01_distance_symmetric_nonneg :
  forall (inv : m3 Rnum -> option (m3 Rnum)) (s0 s : sys Rnum) (B : m3 Rnum),
  box_set inv s0 B = Ok s ->
  forall a b : atom Rnum,
  exists d : R,
    get_distance s a b false = DistOnly (N:=Rnum) d /\
    get_distance s b a false = DistOnly (N:=Rnum) d /\
    0 <= d /\
    get_distance s a a false = DistOnly (N:=Rnum) 0.
Proof.
  intros inv s0 s B H a b. pose proof (box_set_nonneg _ _ _ _ H) as HL.
  exists (abs_distance s (a_pos a) (a_pos b)). unfold get_distance.
  rewrite (abs_distance_sym s (a_pos b)) by assumption.
  rewrite (abs_distance_self s (a_pos a)) by assumption.
  repeat split. apply abs_distance_nonneg.
Qed.
Print Assumptions C01_distance_symmetric_nonneg.

Example C01_hyp : forall inv, exists s,
  box_set inv (sys_ctor (raw_sys Rnum)) (diag (N:=Rnum) 10 8 6) = Ok s /\
  get_distance s g_a g_b false = DistOnly (N:=Rnum) (sqrt 5).
Proof. intros. exists g_sys. split; [apply g_sys_reached|apply g_value]. Qed.

(** ** C02 *)
Theorem C02_minimum_image_is_minimum :
  forall (s : sys Rnum) (a b : atom Rnum),
  ortho s -> in_box (s_len s) (a_pos a) -> in_box (s_len s) (a_pos b) ->
  exists d, get_distance s a b false = DistOnly (N:=Rnum) d /\
            is_min_image_distance (s_len s) (a_pos a) (a_pos b) d.
Proof.
  intros s a b Ho Ha Hb. exists (abs_distance s (a_pos a) (a_pos b)).
  split; [reflexivity|]. apply abs_distance_min; assumption.
Qed.
Print Assumptions C02_minimum_image_is_minimum.

(** The hypothesis on the box holds for every box with positive diagonal
    entries set on a system that is not triclinic. *)
Theorem C02_diagonal_box_is_orthogonal :
  forall inv s (x y z : R), s_tri s = false -> 0 < x -> 0 < y -> 0 < z ->
  exists s', box_set inv s (diag (N:=Rnum) x y z) = Ok s' /\ ortho s' /\
             s_len s' = mkV (N:=Rnum) x y z.
Proof.
  intros inv s x y z Ht Hx Hy Hz. exists (sbox s (diag (N:=Rnum) x y z)).
  split; [apply box_set_diag|]. split; [apply sbox_diag_ortho; assumption|].
  change (sbox_len (diag (N:=Rnum) x y z) = mkV (N:=Rnum) x y z). apply diag_len; lra.
Qed.
Print Assumptions C02_diagonal_box_is_orthogonal.

Example C02_hyp : ortho g_sys /\ in_box (s_len g_sys) (a_pos g_a) /\ in_box (s_len g_sys) (a_pos g_b).
Proof. split; [apply g_sys_ortho|apply g_in_box]. Qed.

(** ** C03 *)
Theorem C03_distance_vector_consistent :
  forall (s : sys Rnum) (a b : atom Rnum),
  ortho s ->
  let L := s_len s in let p := a_pos a in let q := a_pos b in
  exists (d : R) (v : v3 Rnum),
    get_distance s a b true = DistVec (N:=Rnum) d v /\
    get_distance s a b false = DistOnly (N:=Rnum) d /\
    d = eucl (vx v) (vy v) (vz v) /\
    (exists i j k : Z,
      vx v = vx p - vx q + IZR i * vx L /\ vy v = vy p - vy q + IZR j * vy L /\
      vz v = vz p - vz q + IZR k * vz L) /\
    (in_box L p -> in_box L q ->
      Rabs (vx v) <= vx L / 2 /\ Rabs (vy v) <= vy L / 2 /\ Rabs (vz v) <= vz L / 2) /\
    (* the routine used when neighbours are built, with the opposite sign *)
    abs_distance_ij s p q = (d, mkV (N:=Rnum) (- vx v) (- vy v) (- vz v)).
Proof.
  intros s a b Ho L p q.
  destruct (distance_vector_consistent s p q Ho) as [H1 [H2 H3]].
  exists (abs_distance s p q), (distance_vector s p q).
  split; [reflexivity|]. split; [reflexivity|]. split; [symmetry; exact H2|].
  split; [exact H1|]. split.
  - intros Hp Hq. apply H3. apply in_box_near; assumption.
  - rewrite abs_distance_ij_spec by (apply ortho_nonneg; assumption). reflexivity.
Qed.
Print Assumptions C03_distance_vector_consistent.

Example C03_hyp : ortho g_sys /\ in_box (s_len g_sys) (a_pos g_a) /\ in_box (s_len g_sys) (a_pos g_b).
Proof. split; [apply g_sys_ortho|apply g_in_box]. Qed.

(** ** C04 *)
Definition moved (t : v3 Rnum) (a : atom Rnum) : atom Rnum :=
  a <| a_pos := mkV (N:=Rnum) (vx (a_pos a) + vx t) (vy (a_pos a) + vy t) (vz (a_pos a) + vz t) |>.

Theorem C04_translation_invariant :
  forall (s : sys Rnum) (a b : atom Rnum) (t : v3 Rnum) (v : bool),
  get_distance s (moved t a) (moved t b) v = get_distance s a b v.
Proof.
  intros s a b t v.
  assert (E : vsub (a_pos (moved t a)) (a_pos (moved t b)) = vsub (a_pos a) (a_pos b)).
  { unfold vsub, moved; cbn. f_equal; ring. }
  unfold get_distance, abs_distance, distance_vector. rewrite E. reflexivity.
Qed.
Print Assumptions C04_translation_invariant.

(** Moving the second atom by at most one box length along each axis, either
    direction. *)
Theorem C04_image_invariant :
  forall (s : sys Rnum) (a b : atom Rnum) (i j k : Z),
  ortho s -> let L := s_len s in
  in_box L (a_pos a) -> in_box L (a_pos b) ->
  let b' := moved (mkV (N:=Rnum) (IZR i * vx L) (IZR j * vy L) (IZR k * vz L)) b in
  Rabs (vx (a_pos a) - vx (a_pos b')) <= 3 / 2 * vx L ->
  Rabs (vy (a_pos a) - vy (a_pos b')) <= 3 / 2 * vy L ->
  Rabs (vz (a_pos a) - vz (a_pos b')) <= 3 / 2 * vz L ->
  get_distance s a b' false = get_distance s a b false.
Proof.
  intros s a b i j k Ho L Ha Hb b' H1 H2 H3. unfold get_distance. f_equal.
  apply (abs_distance_lattice s (a_pos a) (a_pos b) i j k Ho).
  - apply in_box_near; assumption.
  - repeat split; assumption.
Qed.
Print Assumptions C04_image_invariant.

Example C04_hyp : ortho g_sys /\ in_box (s_len g_sys) (a_pos g_a) /\ in_box (s_len g_sys) (a_pos g_b) /\
  let b' := moved (mkV (N:=Rnum) (-1 * 10) (0 * 8) (1 * 6)) g_b in
  Rabs (vx (a_pos g_a) - vx (a_pos b')) <= 3 / 2 * 10 /\
  Rabs (vz (a_pos g_a) - vz (a_pos b')) <= 3 / 2 * 6.
Proof.
  split; [apply g_sys_ortho|]. split; [apply g_in_box|]. split; [apply g_in_box|].
  cbn. split; unfold Rabs; destruct (Rcase_abs _); lra.
Qed.

(** Beyond 1.5 box lengths the single shift is not enough. *)
Theorem C04_far_image_refuted :
  exists (s : sys Rnum) (a b : atom Rnum),
    ortho s /\ in_box (s_len s) (a_pos a) /\ in_box (s_len s) (a_pos b) /\
    get_distance s a (moved (mkV (N:=Rnum) (2 * vx (s_len s)) 0 0) b) false
      <> get_distance s a b false.
Proof.
  exists g_sys, g_a, g_a. split; [apply g_sys_ortho|]. split; [apply g_in_box|].
  split; [apply g_in_box|]. intros H. apply (f_equal dist_of) in H. cbn [dist_of get_distance] in H.
  rewrite (abs_distance_self g_sys) in H by (apply ortho_nonneg, g_sys_ortho).
  unfold abs_distance in H. rewrite norm_eucl in H. apply eucl_0 in H. destruct H as [H _].
  change (vx (distance_vector g_sys (a_pos g_a)
     (a_pos (moved (mkV (N:=Rnum) (2 * vx (s_len g_sys)) 0 0) g_a))) = 0) in H.
  rewrite (distance_vector_ortho _ _ _ g_sys_ortho), g_len in H. cbn [vx vy vz] in H.
  replace (vx (a_pos g_a) - vx (a_pos (moved (mkV (N:=Rnum) (2 * 10) 0 0) g_a))) with (-20) in H.
  2:{ cbn. lra. }
  destruct (wrap1_cases 10 (-20)) as [[? [[? E]|[? E]]]|[? [[? E]|[? E]]]]; rewrite E in H; lra.
Qed.
Print Assumptions C04_far_image_refuted.

(** ** C05 *)
Theorem C05_triangle :
  forall (s : sys Rnum) (a b c : atom Rnum),
  ortho s -> in_box (s_len s) (a_pos a) -> in_box (s_len s) (a_pos b) -> in_box (s_len s) (a_pos c) ->
  exists dac dab dbc,
    get_distance s a c false = DistOnly (N:=Rnum) dac /\
    get_distance s a b false = DistOnly (N:=Rnum) dab /\
    get_distance s b c false = DistOnly (N:=Rnum) dbc /\
    dac <= dab + dbc /\ (dab = 0 -> a_pos a = a_pos b).
Proof.
  intros s a b c Ho Ha Hb Hc. repeat eexists.
  - apply abs_distance_triangle; assumption.
  - intros H. eapply abs_distance_0_inv; eassumption.
Qed.
Print Assumptions C05_triangle.

Example C05_hyp : ortho g_sys /\ in_box (s_len g_sys) (a_pos g_a) /\ in_box (s_len g_sys) (a_pos g_b)
  /\ in_box (s_len g_sys) (zv Rnum 5 5 5).
Proof.
  split; [apply g_sys_ortho|]. split; [apply g_in_box|]. split; [apply g_in_box|].
  rewrite g_len. unfold in_box, zv; cbn. repeat split; lra.
Qed.

(** ** C06 *)
Theorem C06_triclinic_image :
  forall (s : sys Rnum) (b : m3 Rnum) (p q : atom Rnum) (f : v3 Rnum),
  tric s b ->
  (* fractional separation of the two atoms *)
  mkV (N:=Rnum) (vx (a_pos p) - vx (a_pos q)) (vy (a_pos p) - vy (a_pos q))
      (vz (a_pos p) - vz (a_pos q)) = lin b (vx f) (vy f) (vz f) ->
  exists (d : R) (v : v3 Rnum) (i j k : Z),
    get_distance s p q true = DistVec (N:=Rnum) d v /\
    d = eucl (vx v) (vy v) (vz v) /\
    v = lin b (vx f + IZR i) (vy f + IZR j) (vz f + IZR k) /\
    (Rabs (vx f) <= 3/2 -> Rabs (vx f + IZR i) <= 1/2) /\
    (Rabs (vy f) <= 3/2 -> Rabs (vy f + IZR j) <= 1/2) /\
    (Rabs (vz f) <= 3/2 -> Rabs (vz f + IZR k) <= 1/2).
Proof. exact triclinic_frac. Qed.
Print Assumptions C06_triclinic_image.

(** The box setter reaches this state for every box whose cosines do not
    cancel, when the inverse is exact and no box vector is zero. *)
Theorem C06_setter_reaches_triclinic :
  forall (inv : m3 Rnum -> option (m3 Rnum)) (s : sys Rnum) (b ri : m3 Rnum),
  1 / 1000000 < Rabs (cos_sum b) ->
  inv (transpose b) = Some ri -> inverse_of (transpose b) ri ->
  exists s', box_set inv s b = Ok s' /\ tric s' b.
Proof. exact box_set_tric. Qed.
Print Assumptions C06_setter_reaches_triclinic.

Definition k_box : m3 Rnum := mkM (zv Rnum 1 0 0) (zv Rnum 2 1 0) (zv Rnum 0 0 1).
Definition k_inv : m3 Rnum := mkM (zv Rnum 1 (-2) 0) (zv Rnum 0 1 0) (zv Rnum 0 0 1).
Example k_hyp : 1 / 1000000 < Rabs (cos_sum k_box) /\ inverse_of (transpose k_box) k_inv.
Proof.
  split.
  - unfold cos_sum, k_box, vdot, norm, zv; cbn [vx vy vz r0 r1 r2]; rnum.
    replace (sqrt (1 * 1 + 0 * 0 + 0 * 0)) with 1 by (rewrite <- sqrt_1 at 1; f_equal; ring).
    set (q := sqrt (2 * 2 + 1 * 1 + 0 * 0)).
    assert (Q : 0 < q <= 3).
    { unfold q. split; [apply sqrt_lt_R0; lra|].
      replace 3 with (sqrt (3 * 3)) by (apply sqrt_square; lra). apply sqrt_le_1_alt. lra. }
    replace (0 + (0 * 1 + 0 * 0 + 1 * 0) / (sqrt (0 * 0 + 0 * 0 + 1 * 1) * 1) +
       (1 * 2 + 0 * 1 + 0 * 0) / (1 * q) +
       (2 * 0 + 1 * 0 + 0 * 1) / (q * sqrt (0 * 0 + 0 * 0 + 1 * 1))) with (2 / q).
    + assert (2 / 3 <= 2 / q) by (apply Rmult_le_compat_l; [lra|apply Rinv_le_contravar; lra]).
      rewrite Rabs_pos_eq; lra.
    + replace (0 * 1 + 0 * 0 + 1 * 0) with 0 by ring.
      replace (2 * 0 + 1 * 0 + 0 * 1) with 0 by ring. unfold Rdiv. rewrite !Rmult_0_l, !Rmult_1_l. ring.
  - unfold inverse_of, dot3, transpose, col0, col1, col2, k_inv, k_box, zv; cbn. lra.
Qed.

(** The selected image need not be the closest one. *)
Theorem C06_closest_image_refuted :
  exists (s : sys Rnum) (b : m3 Rnum) (p q : atom Rnum) (f : v3 Rnum) (i j k : Z) (d : R),
    tric s b /\
    mkV (N:=Rnum) (vx (a_pos p) - vx (a_pos q)) (vy (a_pos p) - vy (a_pos q))
        (vz (a_pos p) - vz (a_pos q)) = lin b (vx f) (vy f) (vz f) /\
    Rabs (vx f) <= 1/2 /\ Rabs (vy f) <= 1/2 /\ Rabs (vz f) <= 1/2 /\
    get_distance s p q false = DistOnly (N:=Rnum) d /\
    let w := lin b (vx f + IZR i) (vy f + IZR j) (vz f + IZR k) in
    eucl (vx w) (vy w) (vz w) < d.
Proof.
  destruct k_hyp as [K1 K2].
  destruct (box_set_tric (fun _ => Some k_inv) (sys_ctor (raw_sys Rnum)) k_box k_inv K1 eq_refl K2)
    as [s [_ Hs]].
  set (p := at_pos (mkV (N:=Rnum) (6/5) (2/5) 0)). set (q := at_pos (mkV (N:=Rnum) 0 0 0)).
  set (f := mkV (N:=Rnum) (2/5) (2/5) 0).
  assert (E : mkV (N:=Rnum) (vx (a_pos p) - vx (a_pos q)) (vy (a_pos p) - vy (a_pos q))
        (vz (a_pos p) - vz (a_pos q)) = lin k_box (vx f) (vy f) (vz f)).
  { unfold lin, k_box, zv, p, q, f; cbn. f_equal; lra. }
  destruct (triclinic_frac s k_box p q f Hs E) as [d [v [i [j [k [G [Ed [Ev [B1 [B2 B3]]]]]]]]]].
  exists s, k_box, p, q, f, (-1)%Z, 0%Z, 0%Z, d.
  split; [assumption|]. split; [assumption|].
  assert (F1 : Rabs (vx f) <= 1 / 2) by (cbn; rewrite Rabs_pos_eq; lra).
  assert (F3 : Rabs (vz f) <= 1 / 2) by (cbn; rewrite Rabs_pos_eq; lra).
  split; [exact F1|]. split; [exact F1|]. split; [exact F3|]. split.
  { unfold get_distance in *. injection G as G _. f_equal. exact G. }
  assert (I : forall n : Z, Rabs (2/5 + IZR n) <= 1/2 -> n = 0%Z).
  { intros n H. destruct (Z_dec n 0) as [[L|L]|L]; [| |assumption].
    - assert (IZR n <= -1) by (apply IZR_le; lia). unfold Rabs in H; destruct (Rcase_abs _); lra.
    - assert (1 <= IZR n) by (apply IZR_le; lia). unfold Rabs in H; destruct (Rcase_abs _); lra. }
  assert (I0 : forall n : Z, Rabs (0 + IZR n) <= 1/2 -> n = 0%Z).
  { intros n H. destruct (Z_dec n 0) as [[L|L]|L]; [| |assumption].
    - assert (IZR n <= -1) by (apply IZR_le; lia). unfold Rabs in H; destruct (Rcase_abs _); lra.
    - assert (1 <= IZR n) by (apply IZR_le; lia). unfold Rabs in H; destruct (Rcase_abs _); lra. }
  assert (i = 0%Z) by (apply I, B1; cbn; cbn in F1; lra).
  assert (j = 0%Z) by (apply I, B2; cbn; cbn in F1; lra).
  assert (k = 0%Z) by (apply I0, B3; cbn; cbn in F3; lra).
  subst i j k. rewrite Ed, Ev. unfold lin, k_box, zv, f; cbn. unfold eucl, len2.
  apply sqrt_lt_1_alt. split; lra.
Qed.
Print Assumptions C06_closest_image_refuted.
