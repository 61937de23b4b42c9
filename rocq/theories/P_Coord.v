(** Coordination numbers of points of a periodic integer lattice. *)
From Coq Require Import Reals Lra ZArith List Lia Permutation.
From Verif Require Import Base Num NumR Types M_Geometry M_Neighbors S_Geometry S_Neighbors P_Geometry P_Neighbors.
Import ListNotations.
Set Implicit Arguments.
Close Scope R_scope.

Definition Z3 := (Z * Z * Z)%type.
Definition plus3 (x d : Z3) : Z3 := let '(a, b, c) := x in let '(e, f, g) := d in (a + e, b + f, c + g)%Z.
Definition sq3 (d : Z3) : Z := let '(a, b, c) := d in (a * a + b * b + c * c)%Z.
(** Congruent modulo the three periods. *)
Definition cong3 (t x y : Z3) : Prop :=
  let '(t1, t2, t3) := t in let '(a, b, c) := x in let '(a', b', c') := y in
  exists k1 k2 k3, (a' = a + k1 * t1 /\ b' = b + k2 * t2 /\ c' = c + k3 * t3)%Z.
Lemma cong3_sym t x y : cong3 t x y -> cong3 t y x.
Proof.
  destruct t as [[t1 t2] t3], x as [[a b] c], y as [[a' b'] c']. intros (k1 & k2 & k3 & -> & -> & ->).
  exists (-k1)%Z, (-k2)%Z, (-k3)%Z. lia.
Qed.
Lemma cong3_trans t x y z : cong3 t x y -> cong3 t y z -> cong3 t x z.
Proof.
  destruct t as [[t1 t2] t3], x as [[a b] c], y as [[a' b'] c'], z as [[a'' b''] c'']. intros (k1 & k2 & k3 & -> & -> & ->) (m1 & m2 & m3 & -> & -> & ->).
  exists (k1 + m1)%Z, (k2 + m2)%Z, (k3 + m3)%Z. lia.
Qed.
Definition pt (h : R) (x : Z3) : v3 Rnum := let '(a, b, c) := x in mkV ((IZR a * h)%R : Rnum) ((IZR b * h)%R : Rnum) ((IZR c * h)%R : Rnum).

Section Torus.
Variables (s : sys Rnum) (h r : R) (t : Z3) (X : nat -> Z3) (P : Z3 -> Prop) (S : list Z3) (m1 m2 : Z).
Let n := length (s_atoms s).
Hypothesis Hh : (0 < h)%R.
Hypothesis Ho : ortho s.
Hypothesis HL : s_len s = pt h t.
Hypothesis Ht : let '(t1, t2, t3) := t in (5 < t1 /\ 5 < t2 /\ 5 < t3)%Z.
Hypothesis HX : forall i a, nth_error (s_atoms s) i = Some a -> a_pos a = pt h (X i) /\ P (X i).
Hypothesis Hall : forall y, P y -> exists i, i < n /\ cong3 t (X i) y.
Hypothesis Hone : forall i j, i < n -> j < n -> cong3 t (X i) (X j) -> i = j.
Hypothesis Hnear : forall i j a b, nth_error (s_atoms s) i = Some a -> nth_error (s_atoms s) j = Some b -> near (s_len s) (a_pos a) (a_pos b).
Hypothesis HP : forall x y, P x -> cong3 t x y -> P y.
Hypothesis NDS : NoDup S.
Hypothesis HS1 : forall x d, P x -> P (plus3 x d) -> d <> (0, 0, 0)%Z -> (sq3 d < m2)%Z -> In d S.
Hypothesis HS2 : forall x d, P x -> In d S -> P (plus3 x d).
Hypothesis HS3 : forall d, In d S -> (sq3 d <= m1)%Z /\ d <> (0, 0, 0)%Z /\
  let '(a, b, c) := d in (-2 <= a <= 2 /\ -2 <= b <= 2 /\ -2 <= c <= 2)%Z.
Hypothesis Hr : (0 < r)%R.
Hypothesis Hr1 : (IZR m1 * (h * h) < r * r)%R.
Hypothesis Hr2 : (r * r <= IZR m2 * (h * h))%R.

Definition diff3 (x y : Z3) : Z3 := let '(a, b, c) := x in let '(e, f, g) := y in (e - a, f - b, g - c)%Z.
Lemma eucl_pt (a b c : Z) : (eucl (IZR a * h) (IZR b * h) (IZR c * h) = sqrt (IZR (sq3 (a, b, c)) * (h * h)))%R.
Proof. unfold eucl, len2, sq3. f_equal. rewrite !plus_IZR, !mult_IZR. ring. Qed.
Lemma lt_sqrt (x : R) : (0 <= x -> sqrt x < r <-> x < r * r)%R.
Proof.
  intros H. split; intros K.
  - pose proof (sqrt_pos x). rewrite <- (sqrt_sqrt x H). nra.
  - rewrite <- (sqrt_square r) by lra. apply sqrt_lt_1_alt. lra.
Qed.
Lemma sq3_nonneg d : (0 <= sq3 d)%Z. Proof. destruct d as [[a b] c]. cbn. nia. Qed.

Lemma torus_near i j a b : nth_error (s_atoms s) i = Some a -> nth_error (s_atoms s) j = Some b -> i <> j ->
  (abs_distance s (a_pos a) (a_pos b) < r)%R <-> exists d, In d S /\ cong3 t (X j) (plus3 (X i) d).
Proof.
  intros Ha Hb Hij. destruct (HX _ Ha) as [Pa Qa]. destruct (HX _ Hb) as [Pb Qb].
  assert (Li : i < n) by (apply nth_error_Some; congruence). assert (Lj : j < n) by (apply nth_error_Some; congruence).
  destruct (abs_distance_min_near _ _ _ Ho (Hnear _ _ Ha Hb)) as [(k1 & k2 & k3 & E) M]. rewrite HL, Pa, Pb in *.
  destruct (X i) as [[x1 x2] x3] eqn:EX. destruct (X j) as [[y1 y2] y3] eqn:EY. destruct t as [[t1 t2] t3] eqn:ET.
  assert (I : forall k1 k2 k3, image_distance (pt h (t1, t2, t3)) (pt h (x1, x2, x3)) (pt h (y1, y2, y3)) k1 k2 k3 =
    sqrt (IZR (sq3 (y1 + k1 * t1 - x1, y2 + k2 * t2 - x2, y3 + k3 * t3 - x3)%Z) * (h * h))%R).
  { intros. rewrite <- eucl_pt, <- eucl_opp. unfold image_distance, pt; cbn [vx vy vz]. f_equal; rewrite !minus_IZR, !plus_IZR, !mult_IZR; rring. }
  split.
  - intros D. rewrite E, I in D. set (d := (y1 + k1 * t1 - x1, y2 + k2 * t2 - x2, y3 + k3 * t3 - x3)%Z) in *.
    assert (Nn : (0 <= IZR (sq3 d) * (h * h))%R) by (pose proof (IZR_le _ _ (sq3_nonneg d)); nra).
    apply (lt_sqrt Nn) in D.
    assert (C : cong3 (t1, t2, t3) (y1, y2, y3) (plus3 (x1, x2, x3) d)).
    { exists k1, k2, k3. unfold d. lia. }
    exists d. split; [|exact C]. apply (@HS1 (x1, x2, x3)); [exact Qa|eapply HP; eauto| |].
    + intros Z0. rewrite Z0 in C. apply Hij. apply Hone; [exact Li|exact Lj|]. rewrite EX, EY. apply cong3_sym.
      cbn in C. rewrite !Z.add_0_r in C. exact C.
    + apply lt_IZR. apply Rmult_lt_reg_r with (h * h)%R; [nra|]. lra.
  - intros ([[d1 d2] d3] & HD & k1' & k2' & k3' & E1 & E2 & E3). eapply Rle_lt_trans; [apply (M k1' k2' k3')|]. rewrite I.
    replace (y1 + k1' * t1 - x1, y2 + k2' * t2 - x2, y3 + k3' * t3 - x3)%Z with (d1, d2, d3) by (f_equal; [f_equal|]; lia).
    destruct (HS3 _ HD) as [K _]. apply IZR_le in K.
    apply lt_sqrt; [pose proof (IZR_le _ _ (sq3_nonneg (d1, d2, d3))); nra|]. nra.
Qed.
Lemma link_dist i j a b : nth_error (s_atoms s) i = Some a -> nth_error (s_atoms s) j = Some b -> i <> j ->
  exists e, link s i j = Some e /\ nb_dist e = abs_distance s (a_pos a) (a_pos b) /\ nb_idx e = j.
Proof.
  intros Ha Hb Hij. unfold link. rewrite Ha, Hb. pose proof (ortho_nonneg _ Ho) as NL.
  destruct (Nat.ltb_spec i j); [|destruct (Nat.ltb_spec j i); [|lia]]; rewrite abs_distance_ij_spec by exact NL; eexists; split; try reflexivity; split; try reflexivity.
  cbn [nb_dist]. apply abs_distance_sym. exact NL.
Qed.
Definition close_at (i j : nat) : bool :=
  match link s i j with Some e => nltb (nb_dist e) r && allowed FNone (type_at s i) (type_at s j) | None => false end.
Lemma within_filter i : length (neighbors_within s r FNone i) = length (filter (close_at i) (seq 0 n)).
Proof.
  unfold neighbors_within, close_at. fold n. induction (seq 0 n) as [|j l IH]; [reflexivity|]. cbn [flat_map filter].
  rewrite app_length, IH. destruct (link s i j) as [e|]; [|reflexivity]. destruct (_ && _); reflexivity.
Qed.
Lemma close_at_iff i j : i < n -> j < n -> close_at i j = true <-> exists d, In d S /\ cong3 t (X j) (plus3 (X i) d).
Proof.
  intros Hi Hj. destruct (nth_error (s_atoms s) i) as [a|] eqn:Ea; [|apply nth_error_None in Ea; unfold n in Hi; lia].
  destruct (nth_error (s_atoms s) j) as [b|] eqn:Eb; [|apply nth_error_None in Eb; unfold n in Hj; lia].
  destruct (Nat.eq_dec i j) as [<-|Hij].
  - split.
    + unfold close_at, link. rewrite Ea, Nat.ltb_irrefl. discriminate.
    + intros (d & HD & C). exfalso. destruct (HS3 _ HD) as (_ & Z0 & B). destruct d as [[d1 d2] d3], (X i) as [[x1 x2] x3], t as [[t1 t2] t3].
      destruct C as (k1 & k2 & k3 & E1 & E2 & E3). apply Z0. assert (k1 = 0 /\ k2 = 0 /\ k3 = 0)%Z by nia. f_equal; [f_equal|]; lia.
  - rewrite <- (torus_near Ea Eb Hij). unfold close_at. destruct (link_dist Ea Eb Hij) as (e & -> & -> & _).
    cbn [allowed]. rewrite Bool.andb_true_r. split; [apply Rltb_true|apply Rltb_true].
Qed.
Lemma shell_atoms i (l : list Z3) : (forall d, In d l -> exists j, j < n /\ cong3 t (X j) (plus3 (X i) d)) ->
  exists js, Forall2 (fun d j => j < n /\ cong3 t (X j) (plus3 (X i) d)) l js.
Proof.
  induction l as [|d l IH]; intros H; [exists []; constructor|].
  destruct (H d) as [j Hj]; [now left|]. destruct IH as [js F]; [intros; apply H; now right|]. exists (j :: js). now constructor.
Qed.
Lemma shell_distinct i l js : i < n -> Forall2 (fun d j => j < n /\ cong3 t (X j) (plus3 (X i) d)) l js -> NoDup l -> incl l S -> NoDup js.
Proof.
  intros Hi F. induction F as [|d j l js [Hj C] F IH]; intros ND Inc; [constructor|]. inversion ND as [|? ? N1 N2]; subst. constructor.
  - intros K. clear IH. assert (G : exists d', In d' l /\ cong3 t (X j) (plus3 (X i) d')).
    { clear -F K. induction F as [|d' j' l js [_ C] F IH]; [contradiction|]. destruct K as [<-|K]; [exists d'; cbn; auto|].
      destruct (IH K) as (d'' & I & C'). exists d''. cbn; auto. }
    destruct G as (d' & I & C'). apply cong3_sym in C. pose proof (cong3_trans _ _ _ _ C C') as CC.
    destruct (HS3 d) as (_ & _ & B); [apply Inc; now left|]. destruct (HS3 d') as (_ & _ & B'); [apply Inc; now right|].
    assert (E : d = d'); [|subst; contradiction].
    destruct d as [[d1 d2] d3], d' as [[e1 e2] e3], (X i) as [[x1 x2] x3], t as [[t1 t2] t3].
    destruct CC as (k1 & k2 & k3 & E1 & E2 & E3). assert (k1 = 0 /\ k2 = 0 /\ k3 = 0)%Z by nia. f_equal; [f_equal|]; lia.
  - apply IH; [exact N2|]. intros x Hx. apply Inc. now right.
Qed.
Theorem torus_coordination i : i < n -> length (neighbors_within s r FNone i) = length S.
Proof.
  intros Hi. rewrite within_filter.
  assert (PX : P (X i)). { destruct (nth_error (s_atoms s) i) as [a|] eqn:Ea; [apply (HX _ Ea)|apply nth_error_None in Ea; unfold n in Hi; lia]. }
  destruct (shell_atoms i S) as [js F].
  { intros d Hd. apply Hall. apply HS2; assumption. }
  pose proof (shell_distinct Hi F NDS (incl_refl S)) as ND.
  assert (L : length S = length js) by (clear -F; induction F; cbn; auto). rewrite L. apply Permutation_length, NoDup_Permutation.
  - apply NoDup_filter, seq_NoDup.
  - exact ND.
  - intros j. rewrite filter_In, in_seq. split.
    + intros [[_ Hj] C]. cbn in Hj. apply (close_at_iff Hi Hj) in C. destruct C as (d & HD & C).
      assert (G : exists j', In j' js /\ j' < n /\ cong3 t (X j') (plus3 (X i) d)).
      { clear -F HD. induction F as [|d' j' l js [Hj C] F IH]; [contradiction|]. destruct HD as [->|K]; [exists j'; cbn; auto|].
        destruct (IH K) as (j'' & I & C'). exists j''. cbn; tauto. }
      destruct G as (j' & I & Hj' & C'). replace j with j'; [exact I|]. apply Hone; auto. eapply cong3_trans; [exact C'|]. now apply cong3_sym.
    + intros I. assert (G : exists d, In d S /\ j < n /\ cong3 t (X j) (plus3 (X i) d)).
      { clear -F I. induction F as [|d' j' l js [Hj C] F IH]; [contradiction|]. destruct I as [<-|K]; [exists d'; cbn; auto|].
        destruct (IH K) as (d'' & I & C'). exists d''. cbn; tauto. }
      destruct G as (d & HD & Hj & C). split; [cbn; lia|]. apply (close_at_iff Hi Hj). eauto.
Qed.
End Torus.
