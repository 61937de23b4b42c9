(** Perfect cubic crystals as periodic integer lattices in units of a/2. *)
From Coq Require Import Reals Lra ZArith List Lia String Permutation Bool.
From Verif Require Import Base Num NumR Types M_Geometry M_Container M_Neighbors M_Crystal S_Geometry S_Container S_Neighbors S_Crystal
  P_Geometry P_Container P_Box P_Neighbors P_FindN P_Centro P_Crystal P_Coord Ex.
Import ListNotations.
Set Implicit Arguments.
Close Scope R_scope.

Definition B3 := (bool * bool * bool)%type.
Definition odd3 (x : Z3) : B3 := let '(a, b, c) := x in (Z.odd a, Z.odd b, Z.odd c).
Definition xor3 (x y : B3) : B3 := let '(a, b, c) := x in let '(d, e, f) := y in (xorb a d, xorb b e, xorb c f).
Definition half (b : bool) : R := if b then (1/2)%R else 0%R.
Definition half3 (x : B3) : R * R * R := let '(a, b, c) := x in (half a, half b, half c).
Definition z3 (x : B3) : Z3 := let '(a, b, c) := x in (Z.b2z a, Z.b2z b, Z.b2z c).
Lemma odd3_plus x d : odd3 (plus3 x d) = xor3 (odd3 x) (odd3 d).
Proof. destruct x as [[a b] c], d as [[e f] g]. cbn. now rewrite !Z.odd_add. Qed.

Lemma pair3_inv {A} (x y z x' y' z' : A) : (x, y, z) = (x', y', z') -> x = x' /\ y = y' /\ z = z'.
Proof. intros E. inversion E. auto. Qed.

Section Perfect.
Variables (hs : list B3) (memb : B3 -> bool) (S : list Z3) (m1 m2 : Z).
Hypothesis NDh : NoDup hs.
Hypothesis Hmem : forall b, In b hs <-> memb b = true.
Hypothesis Hgrp : forall x d, memb x = true -> memb (xor3 x d) = memb d.
Variables (nx ny nz : nat).
Hypothesis Hn : 3 <= nx /\ 3 <= ny /\ 3 <= nz.
Notation nb := (List.length hs).
Definition t0 : Z3 := (2 * Z.of_nat nx, 2 * Z.of_nat ny, 2 * Z.of_nat nz)%Z.
Definition P (x : Z3) : Prop := memb (odd3 x) = true.
Definition X0 (m : nat) : Z3 :=
  plus3 (2 * Z.of_nat (m / nb / nz / ny), 2 * Z.of_nat ((m / nb / nz) mod ny), 2 * Z.of_nat ((m / nb) mod nz))%Z
        (z3 (nth (m mod nb) hs (false, false, false))).
Definition count0 := nx * ny * nz * nb.

Lemma X0_slot i j k l b : j < ny -> k < nz -> nth_error hs l = Some b ->
  X0 (slot ny nz nb i j k l) = plus3 (2 * Z.of_nat i, 2 * Z.of_nat j, 2 * Z.of_nat k)%Z (z3 b).
Proof.
  intros Hj Hk Hl. assert (Ll : l < nb) by (apply nth_error_Some; congruence). unfold X0, slot.
  assert (E1 : (((i * ny + j) * nz + k) * nb + l) / nb = (i * ny + j) * nz + k) by (rewrite Nat.div_add_l, Nat.div_small by lia; lia).
  assert (E2 : (((i * ny + j) * nz + k) * nb + l) mod nb = l) by (rewrite Nat.add_comm, Nat.mod_add, Nat.mod_small by lia; lia).
  rewrite E1, E2.
  assert (E3 : ((i * ny + j) * nz + k) / nz = i * ny + j) by (rewrite Nat.div_add_l, Nat.div_small by lia; lia).
  assert (E4 : ((i * ny + j) * nz + k) mod nz = k) by (rewrite Nat.add_comm, Nat.mod_add, Nat.mod_small by lia; lia).
  rewrite E3, E4.
  assert (E5 : (i * ny + j) / ny = i) by (rewrite Nat.div_add_l, Nat.div_small by lia; lia).
  assert (E6 : (i * ny + j) mod ny = j) by (rewrite Nat.add_comm, Nat.mod_add, Nat.mod_small by lia; lia).
  rewrite E5, E6. now rewrite (nth_error_nth _ _ _ Hl).
Qed.
Lemma odd_z3 i j k b : odd3 (plus3 (2 * i, 2 * j, 2 * k)%Z (z3 b)) = b.
Proof.
  destruct b as [[b1 b2] b3]. cbn [odd3 plus3 z3]. rewrite !Z.odd_add, !Z.odd_mul. cbn [Z.odd andb]. rewrite !xorb_false_l.
  destruct b1, b2, b3; reflexivity.
Qed.
Lemma X0_cases m : m < count0 -> exists i j k l b, i < nx /\ j < ny /\ k < nz /\ nth_error hs l = Some b /\ m = slot ny nz nb i j k l /\
  X0 m = plus3 (2 * Z.of_nat i, 2 * Z.of_nat j, 2 * Z.of_nat k)%Z (z3 b).
Proof.
  intros H. destruct (slot_surj _ _ _ _ H) as (i & j & k & l & Hi & Hj & Hk & Hl & ->).
  destruct (nth_error hs l) as [b|] eqn:E; [|apply nth_error_None in E; lia].
  exists i, j, k, l, b. repeat split; auto. now apply X0_slot.
Qed.
Lemma X0_P m : m < count0 -> P (X0 m).
Proof.
  intros H. destruct (X0_cases H) as (i & j & k & l & b & _ & _ & _ & E & _ & ->). unfold P. rewrite odd_z3. apply Hmem. eapply nth_error_In; eauto.
Qed.
Lemma X0_range m : m < count0 -> let '(a, b, c) := X0 m in let '(t1, t2, t3) := t0 in (0 <= a < t1 /\ 0 <= b < t2 /\ 0 <= c < t3)%Z.
Proof.
  intros H. destruct (X0_cases H) as (i & j & k & l & [[b1 b2] b3] & Hi & Hj & Hk & _ & _ & ->).
  unfold t0, z3, plus3. destruct b1, b2, b3; cbn [Z.b2z]; lia.
Qed.
Lemma half_of y n b : (0 < n)%nat -> Z.odd y = b -> exists i, i < n /\ exists k, (y = 2 * Z.of_nat i + Z.b2z b + k * (2 * Z.of_nat n))%Z.
Proof.
  intros Hn' Hb. pose proof (Z.mod_pos_bound y (2 * Z.of_nat n) ltac:(lia)) as B. pose proof (Z.div_mod y (2 * Z.of_nat n) ltac:(lia)) as E.
  set (q := (y / (2 * Z.of_nat n))%Z) in *. set (z := (y mod (2 * Z.of_nat n))%Z) in *.
  assert (Hz : Z.odd z = b). { rewrite <- Hb, E, Z.odd_add, !Z.odd_mul. cbn [Z.odd andb]. now rewrite xorb_false_l. }
  pose proof (Z.div2_odd z) as D. rewrite Hz in D.
  exists (Z.to_nat (Z.div2 z)). destruct b; cbn [Z.b2z] in *; (split; [lia|]); exists q; lia.
Qed.
Lemma X0_all y : P y -> exists m, m < count0 /\ cong3 t0 (X0 m) y.
Proof.
  intros Hy. unfold P in Hy. apply Hmem in Hy. apply In_nth_error in Hy. destruct Hy as [l Hl].
  destruct y as [[y1 y2] y3]. cbn [odd3] in Hl.
  destruct (@half_of y1 nx _ ltac:(lia) eq_refl) as (i & Hi & k1 & E1).
  destruct (@half_of y2 ny _ ltac:(lia) eq_refl) as (j & Hj & k2 & E2).
  destruct (@half_of y3 nz _ ltac:(lia) eq_refl) as (k & Hk & k3 & E3).
  exists (slot ny nz nb i j k l). split; [apply slot_bound; auto; apply nth_error_Some; congruence|].
  rewrite (X0_slot i l Hj Hk Hl). cbn [plus3 z3]. exists k1, k2, k3. auto.
Qed.
Lemma X0_one m m' : m < count0 -> m' < count0 -> cong3 t0 (X0 m) (X0 m') -> m = m'.
Proof.
  intros H H' C. pose proof (X0_range H) as B. pose proof (X0_range H') as B'.
  assert (E : X0 m = X0 m').
  { destruct (X0 m) as [[a b] c], (X0 m') as [[a' b'] c']. unfold t0 in *. destruct C as (k1 & k2 & k3 & E1 & E2 & E3).
    assert (k1 = 0 /\ k2 = 0 /\ k3 = 0)%Z by nia. f_equal; [f_equal|]; lia. }
  clear C B B'. destruct (X0_cases H) as (i & j & k & l & b & Hi & Hj & Hk & Hl & -> & E1).
  destruct (X0_cases H') as (i' & j' & k' & l' & b' & Hi' & Hj' & Hk' & Hl' & -> & E2). rewrite E1, E2 in E.
  assert (b = b') by (apply (f_equal odd3) in E; now rewrite !odd_z3 in E). subst b'.
  assert (l = l'). { rewrite NoDup_nth_error in NDh. apply NDh; [apply nth_error_Some; congruence|congruence]. } subst l'.
  destruct b as [[b1 b2] b3]. cbn [plus3 z3] in E. apply pair3_inv in E. destruct E as (A1 & A2 & A3). assert (i = i') by lia. assert (j = j') by lia. assert (k = k') by lia. congruence.
Qed.

(** ** Supercells: the padding of small systems; [rr] = 0 without padding *)
Variables (s : sys Rnum) (a r : R) (rr : Z) (keys : list key).
Hypothesis Ha : (0 < a)%R.
Hypothesis Hrr : (0 <= rr)%Z.
Hypothesis NDk : NoDup keys.
Definition shift3 (q : Z3) : Z3 := let '(i, j, k) := q in let '(t1, t2, t3) := t0 in (i * t1, j * t2, k * t3)%Z.
Hypothesis Hkeys : forall i j k m, In ((i, j, k), m) keys <-> (- rr <= i <= rr /\ - rr <= j <= rr /\ - rr <= k <= rr)%Z /\ m < count0.
Hypothesis Hatoms : Forall2 (fun (q : key) (x : atom Rnum) => a_pos x = pt (a / 2) (plus3 (X0 (snd q)) (shift3 (fst q)))) keys (s_atoms s).
Definition t1 : Z3 := let '(a, b, c) := t0 in ((2 * rr + 1) * a, (2 * rr + 1) * b, (2 * rr + 1) * c)%Z.
Hypothesis Ho : ortho s.
Hypothesis HL : s_len s = pt (a / 2) t1.
Definition X (m : nat) : Z3 := match nth_error keys m with Some q => plus3 (X0 (snd q)) (shift3 (fst q)) | None => (0, 0, 0)%Z end.

Lemma X_cases m : m < List.length (s_atoms s) -> exists q m0, nth_error keys m = Some (q, m0) /\ m0 < count0 /\ X m = plus3 (X0 m0) (shift3 q) /\
  let '(i, j, k) := q in (- rr <= i <= rr /\ - rr <= j <= rr /\ - rr <= k <= rr)%Z.
Proof.
  intros H. rewrite <- (P_FindN.Forall2_length' Hatoms) in H. destruct (nth_error keys m) as [[[[i j] k] m0]|] eqn:E; [|apply nth_error_None in E; lia].
  exists (i, j, k), m0. unfold X. rewrite E. apply nth_error_In in E. apply Hkeys in E. tauto.
Qed.
Lemma odd_shift x q : odd3 (plus3 x (shift3 q)) = odd3 x.
Proof.
  destruct x as [[x1 x2] x3], q as [[i j] k]. unfold shift3, t0. cbn [odd3 plus3]. rewrite !Z.odd_add, !Z.odd_mul. cbn [Z.odd andb]. now rewrite !andb_false_r, !xorb_false_r.
Qed.
Lemma cong_t1 x y : cong3 t1 x y -> cong3 t0 x y.
Proof.
  destruct x as [[x1 x2] x3], y as [[y1 y2] y3]. unfold t1, t0. intros (k1 & k2 & k3 & -> & -> & ->).
  exists (k1 * (2 * rr + 1))%Z, (k2 * (2 * rr + 1))%Z, (k3 * (2 * rr + 1))%Z. nia.
Qed.
Lemma cong_shift x q : cong3 t0 x (plus3 x (shift3 q)).
Proof. destruct x as [[x1 x2] x3], q as [[i j] k]. unfold t0, shift3. cbn. exists i, j, k. auto. Qed.
Lemma P_cong x y : P x -> cong3 t1 x y -> P y.
Proof.
  intros H C. apply cong_t1 in C. destruct x as [[x1 x2] x3], y as [[y1 y2] y3]. unfold t0 in C. destruct C as (k1 & k2 & k3 & -> & -> & ->).
  unfold P in *. cbn [odd3] in *. rewrite !Z.odd_add, !Z.odd_mul. cbn [Z.odd andb]. now rewrite !andb_false_r, !xorb_false_r.
Qed.
Lemma center_mod k : exists q w, (k = q + w * (2 * rr + 1) /\ - rr <= q <= rr)%Z.
Proof.
  exists ((k + rr) mod (2 * rr + 1) - rr)%Z, ((k + rr) / (2 * rr + 1))%Z.
  pose proof (Z.mod_pos_bound (k + rr) (2 * rr + 1) ltac:(lia)). pose proof (Z.div_mod (k + rr) (2 * rr + 1) ltac:(lia)). lia.
Qed.
Hypothesis NDS : NoDup S.
Hypothesis HS1 : forall d, memb (odd3 d) = true -> d <> (0, 0, 0)%Z -> (sq3 d < m2)%Z -> In d S.
Hypothesis HS3 : forall d, In d S -> memb (odd3 d) = true /\ (sq3 d <= m1)%Z /\ d <> (0, 0, 0)%Z /\
  let '(a, b, c) := d in (-2 <= a <= 2 /\ -2 <= b <= 2 /\ -2 <= c <= 2)%Z.
Hypothesis Hr : (0 < r)%R.
Hypothesis Hr1 : (IZR m1 * (a / 2 * (a / 2)) < r * r)%R.
Hypothesis Hr2 : (r * r <= IZR m2 * (a / 2 * (a / 2)))%R.

Theorem perfect_coordination i : i < List.length (s_atoms s) -> List.length (neighbors_within s r FNone i) = List.length S.
Proof.
  apply (@torus_coordination s (a / 2) r t1 X P S m1 m2); auto.
  - lra.
  - unfold t1, t0. nia.
  - intros m x Hx. assert (Lm : m < List.length (s_atoms s)) by (apply nth_error_Some; congruence).
    destruct (X_cases Lm) as (q & m0 & E & H0 & EX & _). split.
    + destruct (P_Centro.Forall2_nth_l Hatoms E) as (x' & E' & Hp). rewrite Hx in E'. injection E' as <-. rewrite Hp, EX. reflexivity.
    + rewrite EX. unfold P. rewrite odd_shift. now apply X0_P.
  - intros y Hy. destruct (X0_all Hy) as (m & Hm & C). destruct (X0 m) as [[x1 x2] x3] eqn:E. destruct y as [[y1 y2] y3]. unfold t0 in C.
    destruct C as (k1 & k2 & k3 & E1 & E2 & E3).
    destruct (center_mod k1) as (q1 & w1 & F1 & B1). destruct (center_mod k2) as (q2 & w2 & F2 & B2). destruct (center_mod k3) as (q3 & w3 & F3 & B3').
    assert (I : @In key ((q1, q2, q3), m) keys) by (apply Hkeys; auto). apply In_nth_error in I. destruct I as [p Hp].
    exists p. split; [rewrite <- (P_FindN.Forall2_length' Hatoms); apply nth_error_Some; intros K; rewrite K in Hp; discriminate|].
    unfold X. rewrite Hp. cbn [fst snd]. rewrite E. unfold shift3, t1, t0. cbn [plus3]. exists w1, w2, w3. nia.
  - intros p p' Hp Hp' C. destruct (X_cases Hp) as ([[i1 j1] k1] & m & E & Hm & EX & B). destruct (X_cases Hp') as ([[i2 j2] k2] & m' & E' & Hm' & EX' & B').
    assert (m = m').
    { apply X0_one; auto. eapply cong3_trans; [apply (cong_shift _ (i1, j1, k1))|]. rewrite <- EX. eapply cong3_trans; [apply cong_t1; exact C|].
      rewrite EX'. apply cong3_sym, cong_shift. }
    subst m'. assert (Q : (i1, j1, k1) = (i2, j2, k2)).
    { rewrite EX, EX' in C. destruct (X0 m) as [[x1 x2] x3]. unfold shift3, t1, t0 in C. cbn [plus3] in C. destruct C as (w1 & w2 & w3 & C1 & C2 & C3).
      assert (A : forall i1 i2 w x n, (0 < n -> - rr <= i1 <= rr -> - rr <= i2 <= rr -> x + i2 * (2 * n) = x + i1 * (2 * n) + w * ((2 * rr + 1) * (2 * n)) -> i1 = i2)%Z).
      { clear. intros i1 i2 w x n Hn B B' E. assert (i2 - i1 = w * (2 * rr + 1))%Z by nia. assert (w = 0)%Z by nia. lia. }
      apply A in C1; [|lia|lia|lia]. apply A in C2; [|lia|lia|lia]. apply A in C3; [|lia|lia|lia]. congruence. }
    injection Q as <- <- <-. rewrite NoDup_nth_error in NDk. apply NDk; [apply nth_error_Some; congruence|congruence].
  - intros p p' x x' Hx Hx'. assert (Lp : p < List.length (s_atoms s)) by (apply nth_error_Some; congruence). assert (Lp' : p' < List.length (s_atoms s)) by (apply nth_error_Some; congruence).
    destruct (X_cases Lp) as ([[i1 j1] k1] & m & E & Hm & EX & B). destruct (X_cases Lp') as ([[i2 j2] k2] & m' & E' & Hm' & EX' & B').
    destruct (P_Centro.Forall2_nth_l Hatoms E) as (y & Ey & Py). rewrite Hx in Ey. injection Ey as <-.
    destruct (P_Centro.Forall2_nth_l Hatoms E') as (y & Ey & Py'). rewrite Hx' in Ey. injection Ey as <-. cbn [fst snd] in Py, Py'. rewrite Py, Py', HL.
    pose proof (X0_range Hm) as R1. pose proof (X0_range Hm') as R2. destruct (X0 m) as [[x1 x2] x3], (X0 m') as [[y1 y2] y3].
    assert (A : forall x y i j n, (0 < n)%Z -> (0 <= x < 2 * n)%Z -> (0 <= y < 2 * n)%Z -> (- rr <= i <= rr)%Z -> (- rr <= j <= rr)%Z ->
       (Rabs (IZR (x + i * (2 * n)) * (a / 2) - IZR (y + j * (2 * n)) * (a / 2)) <= 3 / 2 * (IZR ((2 * rr + 1) * (2 * n)) * (a / 2)))%R).
    { intros x0 y0 i0 j0 n Hn0 B1 B2 B3' B4.
      assert (D1 : (x0 + i0 * (2 * n) - (y0 + j0 * (2 * n)) <= (2 * rr + 1) * (2 * n))%Z) by nia.
      assert (D2 : (- ((2 * rr + 1) * (2 * n)) <= x0 + i0 * (2 * n) - (y0 + j0 * (2 * n)))%Z) by nia.
      assert (D3 : (0 <= (2 * rr + 1) * (2 * n))%Z) by nia.
      apply IZR_le in D1, D2, D3. rewrite opp_IZR, minus_IZR in D2. rewrite minus_IZR in D1. apply Rabs_le. split; nra. }
    unfold near, t1, t0, shift3, pt in *. cbn [plus3 vx vy vz]. repeat split; apply A; lia.
  - exact P_cong.
  - intros x d Px Pd. apply HS1. unfold P in *. rewrite odd3_plus in Pd. rewrite Hgrp in Pd; assumption.
  - intros x d Px Id. destruct (HS3 _ Id) as [Hd _]. unfold P in *. rewrite odd3_plus, Hgrp; assumption.
  - intros d Id. apply HS3 in Id. tauto.
Qed.
End Perfect.
