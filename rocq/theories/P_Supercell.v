(** Sites of a supercell. *)
From Coq Require Import Reals ZArith List Lia Lra Permutation.
From Verif Require Import Base Num NumR Types M_Geometry M_Container M_Neighbors M_Steinhardt
  S_Geometry S_Container S_Neighbors S_Steinhardt S_Periodic S_PeriodicQ S_Same S_Supercell Ex P_Geometry P_Box P_Container P_Neighbors P_QRun P_QInv P_QSys P_QHist P_Same P_FindN P_Periodic P_PeriodicQ.
Import ListNotations.
Set Implicit Arguments.
Unset Strict Implicit.
Close Scope R_scope. Close Scope Z_scope.
#[local] Open Scope nat_scope.

(** A supercell describes the arrangement. *)
Lemma one_cell (n a b u v : Z) : (0 <= u < n -> 0 <= v < n -> u + a * n = v + b * n -> a = b /\ u = v)%Z.
Proof. intros A B E. assert (a = b) by nia. subst. lia. Qed.
Lemma supercell_describes L n1 n2 n3 l l' at_ : (0 < n1 /\ 0 < n2 /\ 0 < n3)%Z -> supercell L n1 n2 n3 l l' at_ ->
  describes L (mkV (N := Rnum) 0%R 0%R 0%R) n1 n2 n3 l l' at_.
Proof.
  intros (N1 & N2 & N3) HS. split; [|split].
  - intros j a Ha. destruct (proj1 HS _ _ Ha) as (B & _ & P & T). split; [exact B|]. split; [|exact T]. rewrite P. destruct (site_pos L l (at_ j)) as [u v w]. cbn [vx vy vz]. f_equal; rring.
  - intros [i [[a b] c]] H. cbn [fst] in H.
    destruct (proj2 (proj2 HS) (i, (a mod n1, b mod n2, c mod n3)%Z) H) as (j & Hj & Ej).
    { unfold in_cells. split; [|split]; apply Z.mod_pos_bound; lia. }
    exists j, (a / n1, b / n2, c / n3)%Z. split; [exact Hj|]. rewrite Ej. unfold big_step. f_equal.
    f_equal; [f_equal|]; rewrite Z.add_comm, Z.mul_comm; symmetry; apply Z.div_mod; lia.
  - intros j j' [[a b] c] [[a' b'] c'] H H' E.
    destruct (@P_QRun.nth_error_some _ l' _ H) as [p Hp]. destruct (@P_QRun.nth_error_some _ l' _ H') as [p' Hp'].
    destruct (proj1 HS _ _ Hp) as (_ & C & _). destruct (proj1 HS _ _ Hp') as (_ & C' & _).
    assert (J := proj1 (proj2 HS) j j' H H').
    destruct (at_ j) as [i [[u v] w]], (at_ j') as [i' [[u' v'] w']]. unfold big_step in E.
    pose proof (f_equal (fun q : site => fst (fst (snd q))) E) as E1. pose proof (f_equal (fun q : site => snd (fst (snd q))) E) as E2.
    pose proof (f_equal (fun q : site => snd (snd q)) E) as E3. apply (f_equal (@fst nat _)) in E. cbn [fst snd] in E, E1, E2, E3.
    destruct C as (A1 & A2 & A3), C' as (B1 & B2 & B3).
    destruct (one_cell A1 B1 E1) as [-> ->]. destruct (one_cell A2 B2 E2) as [-> ->]. destruct (one_cell A3 B3 E3) as [-> ->].
    subst i'. rewrite (J eq_refl). auto.
Qed.

Section S.
Variables (x y z : R) (T : v3 Rnum) (n1 n2 n3 : Z) (l l' : list (atom Rnum)) (at_ : nat -> site).
Let L : v3 Rnum := mkV (N := Rnum) x y z.
Let L' : v3 Rnum := mkV (N := Rnum) (IZR n1 * x)%R (IZR n2 * y)%R (IZR n3 * z)%R.
Hypothesis HS : describes L T n1 n2 n3 l l' at_.
(** The site of the small cell where a site of the large one stands. *)
Definition unfolded (q : site) : site := big_step n1 n2 n3 (snd q) (at_ (fst q)).
Lemma unfolded_fst q : fst (unfolded q) = fst (at_ (fst q)).
Proof. destruct q as [j [[a b] c]]. unfold unfolded, big_step. cbn [fst snd]. now destruct (at_ j) as [i [[u v] w]]. Qed.
Lemma unfolded_bound q : fst q < length l' -> fst (unfolded q) < length l.
Proof. intros H. rewrite unfolded_fst. destruct (@P_QRun.nth_error_some _ l' _ H) as [a Ha]. apply (proj1 HS _ _ Ha). Qed.
Lemma unfolded_pos q : fst q < length l' -> site_pos L' l' q =
  mkV (N := Rnum) (vx (site_pos L l (unfolded q)) + vx T)%R (vy (site_pos L l (unfolded q)) + vy T)%R (vz (site_pos L l (unfolded q)) + vz T)%R.
Proof.
  destruct q as [j [[a b] c]]. cbn [fst]. intros H. destruct (@P_QRun.nth_error_some _ l' _ H) as [at' Ha].
  destruct (proj1 HS _ _ Ha) as (Bi & P & _). unfold unfolded, big_step. cbn [fst snd]. destruct (at_ j) as [i [[u v] w]]. cbn [fst] in Bi.
  destruct (@P_QRun.nth_error_some _ l _ Bi) as [a0 Ha0]. unfold site_pos in P |- *. rewrite Ha, Ha0 in *. rewrite P. unfold L, L'. cbn [vx vy vz].
  rewrite !plus_IZR, !mult_IZR. f_equal; rring.
Qed.
Lemma unfolded_type q : fst q < length l' -> site_type l' q = site_type l (unfolded q).
Proof.
  intros H. destruct (@P_QRun.nth_error_some _ l' _ H) as [a Ha]. destruct (proj1 HS _ _ Ha) as (Bi & _ & Ty).
  unfold site_type at 1. rewrite Ha, Ty. unfold site_type. now rewrite unfolded_fst.
Qed.
Lemma unfolded_inj q q' : fst q < length l' -> fst q' < length l' -> unfolded q = unfolded q' -> q = q'.
Proof. intros H H' E. destruct (proj2 (proj2 HS) _ _ _ _ H H' E) as [A B]. destruct q, q'. cbn in *. congruence. Qed.
Lemma unfolded_onto q : fst q < length l -> exists q', fst q' < length l' /\ unfolded q' = q.
Proof. intros H. destruct (proj1 (proj2 HS) q H) as (j & t & Hj & E). exists (j, t). auto. Qed.
Lemma unfolded_apart q q' : fst q < length l' -> fst q' < length l' -> S_Periodic.apart L' l' q q' = S_Periodic.apart L l (unfolded q) (unfolded q').
Proof. intros H H'. unfold S_Periodic.apart. rewrite !unfolded_pos by assumption. cbn [vx vy vz]. f_equal; rring. Qed.
Lemma unfolded_shell f r q ks : fst q < length l' -> shell L' l' f r q ks -> shell L l f r (unfolded q) (map unfolded ks).
Proof.
  intros Hq [N I]. assert (B : forall p, In p ks -> fst p < length l') by (intros p Hp; now apply I in Hp). split.
  - clear I. induction ks as [|p ks IH]; [constructor|]. inversion N as [|? ? N1 N2]; subst. cbn [map]. constructor.
    + intros C. apply in_map_iff in C as (p' & E & Hp'). apply unfolded_inj in E; [|apply B; now right|apply B; now left]. now subst.
    + apply IH; [exact N2|]. intros p' Hp'. apply B. now right.
  - intros q'. split.
    + intros H. apply in_map_iff in H as (p & <- & Hp). apply I in Hp as (A & NE & D & Ty). split; [now apply unfolded_bound|].
      split; [intros E; apply NE; now apply unfolded_inj|]. unfold far in *. rewrite (unfolded_apart Hq A) in D. rewrite (unfolded_type Hq), (unfolded_type A) in Ty. auto.
    + intros (A & NE & D & Ty). destruct (unfolded_onto A) as (p & Bp & <-). apply in_map. apply I. split; [exact Bp|]. split; [congruence|].
      unfold far. rewrite (unfolded_apart Hq Bp), (unfolded_type Hq), (unfolded_type Bp). auto.
Qed.
End S.

(** What a list of up to 2300 atoms is stored as, padded or not. *)
Lemma embedded (inv : m3 Rnum -> option (m3 Rnum)) raw (s s1 s2 : sys Rnum) (x y z : R) (l : list (atom Rnum)) :
  s_tri s = false -> s_actual s = None -> (0 < x /\ 0 < y /\ 0 < z)%R ->
  box_set inv s (diag (N := Rnum) x y z) = Ok s1 -> all_real l -> 1 <= length l -> 
  atoms_set inv raw s1 l = Ok s2 ->
  exists K W, (0 <= K)%Z /\ length l <= length (s_atoms s2) /\
    stored s2 /\ s_real s2 = Z.of_nat (length l) /\ s_tri s2 = false /\
    s_len s2 = mkV (N := Rnum) (IZR (2 * K + 1) * x)%R (IZR (2 * K + 1) * y)%R (IZR (2 * K + 1) * z)%R /\
    (forall i, i < length l -> W i = origin i) /\
    (forall i a, nth_error (s_atoms s2) i = Some a ->
       key_ok K l (W i) /\ a_pos a = site_pos (mkV (N := Rnum) x y z) l (W i) /\ a_type a = site_type l (W i)) /\
    (forall i j, i < length (s_atoms s2) -> j < length (s_atoms s2) -> W i = W j -> i = j) /\
    (forall q, key_ok K l q -> exists i, i < length (s_atoms s2) /\ W i = q) /\
    ((forall a, In a l -> q_arrays a) -> forall a, In a (s_atoms s2) -> q_arrays a).
Proof.
  intros Ht Hac Hpos E1 Hreal Hl E2. destruct (Nat.lt_ge_cases (length l) 200) as [B|B].
  - destruct (padded Ht Hac Hpos E1 Hreal (conj Hl B) E2) as (K & W & K1 & Ln & St & Hr & T2 & L2 & W0 & HW & Hinj & Hall).
    exists K, W. split; [lia|]. split; [|split; [exact St|]; split; [exact Hr|]; split; [exact T2|]; split; [exact L2|]; split; [exact W0|]; split; [exact HW|]; split; [exact Hinj|]; split; [exact Hall|]].
    + assert (1 <= (2 * K + 1) ^ 3)%Z by nia. apply Nat2Z.inj_le. rewrite Ln. nia.
    + exact (set_arrays (conj Hl B) E2).
  - exists 0%Z, origin. rewrite box_set_diag in E1. injection E1 as <-.
    destruct (atoms_set_spec Hreal E2) as (gh & A1 & _ & _ & A4 & A5 & _).
    unfold atoms_set in E2. destruct (Z.ltb_spec (Z.of_nat (length l)) 200) as [C|_]; [lia|]. injection E2 as E2.
    assert (EA : s_atoms s2 = l) by (rewrite <- E2; reflexivity). rewrite EA.
    split; [lia|]. split; [lia|]. split; [exact A5|]. split; [exact A4|]. split; [rewrite <- E2; exact Ht|]. split; [|split; [|split; [|split; [|split]]]].
    + rewrite <- E2. change (sbox_len (diag (N := Rnum) x y z) = mkV (N := Rnum) (IZR (2 * 0 + 1) * x)%R (IZR (2 * 0 + 1) * y)%R (IZR (2 * 0 + 1) * z)%R).
      rewrite diag_len by lra. change (2 * 0 + 1)%Z with 1%Z. f_equal; rring.
    + auto.
    + intros i a Ha. assert (Hi : i < length l) by (apply nth_error_Some; congruence). unfold origin, key_ok, site_pos, site_type. cbn [fst]. rewrite Ha.
      split; [lia|]. split; [|reflexivity]. cbn [vx vy vz]. destruct (a_pos a) as [u v w]. cbn [vx vy vz]. f_equal; rring.
    + intros i j _ _ E. injection E; auto.
    + intros [i [[a b] c]] (Hi & Ba & Bb & Bc). exists i. split; [exact Hi|]. unfold origin. f_equal. f_equal; [f_equal|]; lia.
    + auto.
Qed.
