(** Property C04 on doubles: moved atoms keep their distance up to rounding. *)
From Coq Require Import ZArith Reals Lia Lra.
From Coq.Floats Require Import SpecFloat.
From Flocq Require Import Core.
From Verif Require Import Base Num NumR NumF Types M_Geometry M_Container Ex S_Double S_Geometry S_DoubleDist
  P_Round P_Double P_Geometry P_DoubleDist C_DoubleDist.
Open Scope R_scope.

(** Two pairs of atoms whose difference vectors agree up to whole box lengths
    and an error of [e] have distances that agree up to [e] and two roundings.
    This covers atoms moved together, moved to another image, and both. *)
Theorem C04_double :
  forall (lib : libm) inv (s0 s : sys (SF64 lib)) (x y z : SF64 lib) (a b a' b' : atom (SF64 lib)) (i j k : Z) (e : R),
  s_tri s0 = false -> side x -> side y -> side z -> box_set inv s0 (diag (N := SF64 lib) x y z) = Ok s ->
  let L := mkV (N := Rnum) (val x) (val y) (val z) in
  double3 (a_pos a) -> double3 (a_pos b) -> double3 (a_pos a') -> double3 (a_pos b') ->
  let p := val3 (a_pos a) in let q := val3 (a_pos b) in let p' := val3 (a_pos a') in let q' := val3 (a_pos b') in
  within L p q -> within L p' q' ->
  Rabs ((vx p' - vx q') - (vx p - vx q + IZR i * vx L)) + Rabs ((vy p' - vy q') - (vy p - vy q + IZR j * vy L)) +
    Rabs ((vz p' - vz q') - (vz p - vz q + IZR k * vz L)) <= e ->
  exists d d', get_distance s a b false = DistOnly (N := SF64 lib) d /\ get_distance s a' b' false = DistOnly (N := SF64 lib) d' /\
    Rabs (val d' - val d) <= e + 2 * tol L.
Proof.
  intros lib inv s0 s x y z a b a' b' i j k e HT Sx Sy Sz HB L Ha Hb Ha' Hb' p q p' q' W W' HE.
  destruct (C02_double lib inv s0 x y z HT Sx Sy Sz) as (s' & E & G). rewrite HB in E. injection E as <-.
  destruct (G a b Ha Hb W) as (d & E1 & _ & (n & m & o & N1) & M1). destruct (G a' b' Ha' Hb' W') as (d' & E2 & _ & (n' & m' & o' & N2) & M2).
  exists d, d'. split; [exact E1|]. split; [exact E2|]. apply Rabs_le_inv in N1, N2. fold L p q p' q' in N1, N2, M1, M2.
  specialize (M1 (n' - i)%Z (m' - j)%Z (o' - k)%Z). specialize (M2 (n + i)%Z (m + j)%Z (o + k)%Z).
  assert (A : image_distance L p' q' (n + i) (m + j) (o + k) <= image_distance L p q n m o + e).
  { unfold image_distance. eapply Rle_trans; [apply eucl_near|]. apply Rplus_le_compat_l. eapply Rle_trans; [|exact HE]. right. rewrite !plus_IZR.
    f_equal; [f_equal|]; f_equal; ring. }
  assert (B : image_distance L p q (n' - i) (m' - j) (o' - k) <= image_distance L p' q' n' m' o' + e).
  { unfold image_distance. eapply Rle_trans; [apply eucl_near|]. apply Rplus_le_compat_l. eapply Rle_trans; [|exact HE]. right. rewrite !minus_IZR.
    f_equal; [f_equal|]; (rewrite <- Rabs_Ropp; f_equal; ring). }
  apply Rabs_le. lra.
Qed.
Print Assumptions C04_double.

(** The sum of two doubles that is not larger than two side lengths. *)
Lemma add_near (X t l : spec_float) : side l -> double X -> double t -> Rabs (val X + val t) <= 2 * val l ->
  double (sf_add X t) /\ Rabs (val (sf_add X t) - (val X + val t)) <= powerRZ 2 (-51) * val l.
Proof.
  intros [_ [l1 l2]] HX Ht H. rewrite pow_bpow in l1, l2.
  assert (B : Rabs (val X + val t) <= bpow radix2 501).
  { eapply Rle_trans; [exact H|]. change 501%Z with (1 + 500)%Z. rewrite bpow_plus. change (bpow radix2 1) with 2. lra. }
  assert (I : (501 <= 1023)%Z) by lia. pose proof (add_rep (rep_double HX) (rep_double Ht) I B) as R. destruct (double_rep R) as [D V].
  split; [exact D|]. rewrite V. eapply Rle_trans; [apply rnd_err|].
  assert (E : eta <= u * val l).
  { apply Rle_trans with (u * bpow radix2 (-480)); [|apply Rmult_le_compat_l; [unfold u; lra|exact l1]].
    unfold eta. replace u with (bpow radix2 (-53)) by reflexivity. rewrite <- bpow_plus. apply bpow_le. lia. }
  assert (P : powerRZ 2 (-51) = 4 * u) by (rewrite pow_bpow; change (bpow radix2 (-51)) with (/ 2251799813685248); unfold u; lra).
  rewrite P. assert (0 < val l) by (eapply Rlt_le_trans; [|exact l1]; apply bpow_gt_0).
  assert (u * Rabs (val X + val t) <= u * (2 * val l)) by (apply Rmult_le_compat_l; [unfold u; lra|exact H]).
  assert (0 <= u * val l) by (apply Rmult_le_pos; [unfold u|]; lra). lra.
Qed.

(** Adding the same vector to both atoms, in double arithmetic, with coordinates
    up to two side lengths from the origin, changes the distance by at most three
    times the bound. *)
Theorem C04_translation_double :
  forall (lib : libm) inv (s0 s : sys (SF64 lib)) (x y z : SF64 lib) (a b : atom (SF64 lib)) (t : v3 (SF64 lib)),
  s_tri s0 = false -> side x -> side y -> side z -> box_set inv s0 (diag (N := SF64 lib) x y z) = Ok s ->
  let L := mkV (N := Rnum) (val x) (val y) (val z) in
  double3 (a_pos a) -> double3 (a_pos b) -> double3 t ->
  let a' := a <| a_pos := vadd (a_pos a) t |> in let b' := b <| a_pos := vadd (a_pos b) t |> in
  let p := val3 (a_pos a) in let q := val3 (a_pos b) in let T := val3 t in
  within L p q -> within L (val3 (a_pos a')) (val3 (a_pos b')) ->
  (forall w, w = p \/ w = q -> Rabs (vx w + vx T) <= 2 * vx L /\ Rabs (vy w + vy T) <= 2 * vy L /\ Rabs (vz w + vz T) <= 2 * vz L) ->
  exists d d', get_distance s a b false = DistOnly (N := SF64 lib) d /\ get_distance s a' b' false = DistOnly (N := SF64 lib) d' /\
    Rabs (val d' - val d) <= 3 * tol L.
Proof.
  intros lib inv s0 s x y z a b t HT Sx Sy Sz HB L (A1 & A2 & A3) (B1 & B2 & B3) (T1 & T2 & T3) a' b' p q T W W' H.
  destruct (H p (or_introl eq_refl)) as (P1 & P2 & P3). destruct (H q (or_intror eq_refl)) as (Q1 & Q2 & Q3).
  destruct (add_near _ _ _ Sx A1 T1 P1) as [D1 V1]. destruct (add_near _ _ _ Sy A2 T2 P2) as [D2 V2]. destruct (add_near _ _ _ Sz A3 T3 P3) as [D3 V3].
  destruct (add_near _ _ _ Sx B1 T1 Q1) as [D4 V4]. destruct (add_near _ _ _ Sy B2 T2 Q2) as [D5 V5]. destruct (add_near _ _ _ Sz B3 T3 Q3) as [D6 V6].
  destruct (C04_double lib inv s0 s x y z a b a' b' 0 0 0 (tol L) HT Sx Sy Sz HB) as (d & d' & E1 & E2 & E); try assumption; try (split; [|split]; assumption).
  - assert (S : forall P P' Q Q' t l, Rabs (P' - (P + t)) <= powerRZ 2 (-51) * l -> Rabs (Q' - (Q + t)) <= powerRZ 2 (-51) * l ->
      forall M, Rabs (P' - Q' - (P - Q + 0 * M)) <= powerRZ 2 (-50) * l).
    { intros P P' Q Q' t' l H1 H2 M. replace (P' - Q' - (P - Q + 0 * M)) with ((P' - (P + t')) - (Q' - (Q + t'))) by ring.
      assert (E : powerRZ 2 (-50) = 2 * powerRZ 2 (-51)) by (rewrite !pow_bpow; change (-50)%Z with (1 + -51)%Z; rewrite bpow_plus; reflexivity).
      rewrite E. apply Rabs_le_inv in H1, H2. apply Rabs_le. lra. }
    unfold tol. rewrite !Rmult_plus_distr_l.
    apply Rplus_le_compat; [apply Rplus_le_compat|]; eapply S; eassumption.
  - exists d, d'. split; [exact E1|]. split; [exact E2|]. fold L in E. lra.
Qed.
Print Assumptions C04_translation_double.

(** A double as a multiple of 2^-60. *)
Definition num60 (x : spec_float) : option Z :=
  match x with
  | S754_finite s m e => if (-60 <=? e)%Z then Some ((if s then Z.neg m else Z.pos m) * 2 ^ (e + 60))%Z else None
  | _ => None
  end.
Lemma val60 x n : num60 x = Some n -> val x = IZR n / 1152921504606846976 /\ fin x.
Proof.
  destruct x as [| | |s m e]; cbn [num60]; try discriminate. destruct (Z.leb_spec (-60) e) as [H|H]; [|discriminate]. injection 1 as <-.
  split; [|exists s, m, e; now right]. cbn [val]. rewrite pow_bpow, mult_IZR, (IZR_Zpower radix2) by lia.
  rewrite bpow_plus. change (bpow radix2 60) with 1152921504606846976. destruct s; [change (Z.neg m) with (- Z.pos m)%Z; rewrite opp_IZR|]; field.
Qed.

(** A box of 10 by 8 by 6.  Atoms at (0.1, 0.3, 0.7) and (9.7, 7.9, 5.3), both
    moved by (0.2, 0.4, 0.5): none of the numbers is exact. *)
Definition mv_at (x y z : Z) : atom F64 := at_pos (mkV (N := F64) (nlit x 10) (nlit y 10) (nlit z 10)).
Definition mv_t : v3 F64 := mkV (N := F64) (nlit 2 10) (nlit 4 10) (nlit 5 10).
Definition mv_move (a : atom F64) : atom F64 := a <| a_pos := vadd (a_pos a) mv_t |>.
Example C04_double_hyp :
  let L := mkV (N := Rnum) (val (nofZ (n := F64) 10)) (val (nofZ (n := F64) 8)) (val (nofZ (n := F64) 6)) in
  let a := mv_at 1 3 7 in let b := mv_at 97 79 53 in
  side (nofZ (n := F64) 10) /\ side (nofZ (n := F64) 8) /\ side (nofZ (n := F64) 6) /\
  double3 (lib := libm_test) (a_pos a) /\ double3 (lib := libm_test) (a_pos b) /\ double3 (lib := libm_test) mv_t /\
  within L (val3 (lib := libm_test) (a_pos a)) (val3 (lib := libm_test) (a_pos b)) /\
  within L (val3 (lib := libm_test) (a_pos (mv_move a))) (val3 (lib := libm_test) (a_pos (mv_move b))) /\
  (let p := val3 (lib := libm_test) (a_pos a) in let q := val3 (lib := libm_test) (a_pos b) in let T := val3 (lib := libm_test) mv_t in
   forall w, w = p \/ w = q -> Rabs (vx w + vx T) <= 2 * vx L /\ Rabs (vy w + vy T) <= 2 * vy L /\ Rabs (vz w + vz T) <= 2 * vz L).
Proof.
  cbv zeta.
  assert (SD : forall x n, num60 x = Some n -> dbl x -> (1152921504606846976 <= n <= 1152921504606846976000)%Z -> side x).
  { intros x n Hx Dx Hn. destruct (val60 _ _ Hx) as [V Fx]. split; [split; assumption|]. rewrite V, !pow_bpow. destruct Hn as [H1 H2]. apply IZR_le in H1, H2. split.
    - apply Rle_trans with 1; [|lra]. change 1 with (bpow radix2 0). apply bpow_le. lia.
    - apply Rle_trans with 1000; [lra|]. apply Rle_trans with (bpow radix2 10); [change (bpow radix2 10) with 1024; lra|apply bpow_le; lia]. }
  assert (DD : forall x n, num60 x = Some n -> dbl x -> double x) by (intros x n Hx Dx; destruct (val60 _ _ Hx); split; assumption).
  assert (DV : forall x n, num60 x = Some n -> val x = IZR n / 1152921504606846976) by (intros x n Hx; apply (val60 _ _ Hx)).
  split; [eapply SD; [vm_compute; reflexivity|vm_compute; reflexivity|lia]|].
  split; [eapply SD; [vm_compute; reflexivity|vm_compute; reflexivity|lia]|].
  split; [eapply SD; [vm_compute; reflexivity|vm_compute; reflexivity|lia]|].
  split; [split; [|split]; (eapply DD; vm_compute; reflexivity)|].
  split; [split; [|split]; (eapply DD; vm_compute; reflexivity)|].
  split; [split; [|split]; (eapply DD; vm_compute; reflexivity)|].
  unfold within, val3. cbn [vx vy vz a_pos at_pos mv_at mv_move mv_t].
  split; [|split].
  3: intros w Hw.
  3: assert (H : w = val3 (lib := libm_test) (a_pos (mv_at 1 3 7)) \/ w = val3 (lib := libm_test) (a_pos (mv_at 97 79 53))) by exact Hw; clear Hw.
  3: destruct H as [-> | ->]; unfold val3; cbn [vx vy vz].
  all: repeat match goal with |- context [val ?x] => erewrite (DV x) by (vm_compute; reflexivity) end.
  all: split; [|split]; apply Rabs_le; lra.
Qed.
(** The distance before and after: not the same double, two units in the last
    place apart. *)
Example C04_double_runs :
  let s := sbox (sys_ctor (raw_sys F64)) (diag (N := F64) (nofZ 10) (nofZ 8) (nofZ 6)) in
  let a := mv_at 1 3 7 in let b := mv_at 97 79 53 in
  (num60 (abs_distance s (a_pos a) (a_pos b)), num60 (abs_distance s (a_pos (mv_move a)) (a_pos (mv_move b)))) =
  (Some 1740873295328987904%Z, Some 1740873295328988416%Z).
Proof. vm_compute. reflexivity. Qed.
