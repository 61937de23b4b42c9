(** Neighbours in a padded system are those of the periodic arrangement. *)
From Coq Require Import Reals ZArith List Lia Lra Permutation.
From Verif Require Import Base Num NumR Types M_Geometry M_Container M_Neighbors
  S_Geometry S_Container S_Neighbors S_Periodic Ex P_Geometry P_Box P_Container P_Neighbors P_QRun P_Same P_CrystalSys P_FindN.
Import ListNotations.
Set Implicit Arguments.
Unset Strict Implicit.
Close Scope R_scope. Close Scope Z_scope.
#[local] Open Scope nat_scope.

Section Wrap.
Local Open Scope R_scope.
Variables (L : R) (K : Z).
Hypothesis HL : 0 < L.
Hypothesis HK : (0 <= K)%Z.
Let P := (2 * K + 1)%Z.
Lemma P_pos : 1 <= IZR P. Proof. apply IZR_le. unfold P. lia. Qed.
Lemma wrap_site (p p' : R) (m m' : Z) : 0 <= p < L -> 0 <= p' < L -> (- K <= m <= K)%Z -> (- K <= m' <= K)%Z ->
  exists k, wrap1 (N := Rnum) (IZR P * L) ((p' + IZR m' * L) - (p + IZR m * L)) = (p' + IZR (m' + k * P) * L) - (p + IZR m * L) /\
    - (IZR P * L) / 2 <= (p' + IZR (m' + k * P) * L) - (p + IZR m * L) <= IZR P * L / 2.
Proof.
  intros Hp Hp' Hm Hm'. pose proof P_pos as HP.
  assert (B : - (IZR P * L) < (p' + IZR m' * L) - (p + IZR m * L) < IZR P * L).
  { assert (D : - IZR P + 1 <= IZR m' - IZR m <= IZR P - 1).
    { rewrite <- minus_IZR. assert (E1 : (- P + 1 <= m' - m)%Z) by (unfold P; lia). assert (E2 : (m' - m <= P - 1)%Z) by (unfold P; lia).
      apply IZR_le in E1, E2. rewrite plus_IZR, opp_IZR in E1. rewrite (minus_IZR P) in E2. lra. }
    nra. }
  set (d := (p' + IZR m' * L) - (p + IZR m * L)) in *.
  destruct (wrap1_cases (IZR P * L) d) as [[H [[H1 E]|[H1 E]]]|[H [[H1 E]|[H1 E]]]].
  - exfalso. lra.
  - exists (-1)%Z. rewrite E. rewrite plus_IZR, mult_IZR. unfold d in *. split; lra.
  - exists 1%Z. rewrite E. rewrite plus_IZR, mult_IZR. unfold d in *. split; lra.
  - exists 0%Z. rewrite E. rewrite plus_IZR, mult_IZR. unfold d in *. split; lra.
Qed.
(** Two representatives within half a period, one of them strictly. *)
Lemma one_image (x : R) (k k' : Z) : - (IZR P * L) / 2 < x + IZR (k * P) * L < IZR P * L / 2 ->
  - (IZR P * L) / 2 <= x + IZR (k' * P) * L <= IZR P * L / 2 -> k = k'.
Proof.
  intros A B. pose proof P_pos as HP. rewrite !mult_IZR in A, B.
  assert (0 < IZR P * L) by nra. set (T := IZR P * L) in *.
  assert (A' : - T / 2 < x + IZR k * T < T / 2) by (unfold T in *; lra).
  assert (B' : - T / 2 <= x + IZR k' * T <= T / 2) by (unfold T in *; lra).
  assert (C : -1 < IZR k - IZR k' < 1) by (split; nra). rewrite <- minus_IZR in C. destruct C as [C1 C2].
  apply lt_IZR in C1, C2. lia.
Qed.
End Wrap.
(** The remainder between -K and K. *)
Lemma centred (K m : Z) : (0 <= K)%Z -> exists k m0, (m = m0 + k * (2 * K + 1) /\ - K <= m0 <= K)%Z.
Proof.
  intros HK. exists ((m + K) / (2 * K + 1))%Z, ((m + K) mod (2 * K + 1) - K)%Z.
  pose proof (Z.div_mod (m + K) (2 * K + 1) ltac:(lia)). pose proof (Z.mod_pos_bound (m + K) (2 * K + 1) ltac:(lia)). lia.
Qed.
Lemma centred_one (K m m' k k' : Z) : (- K <= m <= K)%Z -> (- K <= m' <= K)%Z ->
  (m + k * (2 * K + 1) = m' + k' * (2 * K + 1))%Z -> m = m' /\ k = k'.
Proof. intros A B E. assert (k = k') by nia. subst. lia. Qed.

Section Torus.
Variables (s : sys Rnum) (x y z : R) (K : Z) (l : list (atom Rnum)) (W : nat -> site) (r : R) (f : filt).
Let n := length (s_atoms s).
Let L : v3 Rnum := mkV (N := Rnum) x y z.
Let P := (2 * K + 1)%Z.
Hypothesis Hpos : (0 < x /\ 0 < y /\ 0 < z)%R.
Hypothesis HK : (0 <= K)%Z.
Hypothesis Htri : s_tri s = false.
Hypothesis Hlen : s_len s = mkV (N := Rnum) (IZR P * x)%R (IZR P * y)%R (IZR P * z)%R.
Hypothesis Hin : forall a, In a l -> in_box L (a_pos a).
Definition key_ok (q : site) : Prop := let '(i, (a, b, c)) := q in
  i < length l /\ (- K <= a <= K)%Z /\ (- K <= b <= K)%Z /\ (- K <= c <= K)%Z.
Hypothesis HW : forall i a, nth_error (s_atoms s) i = Some a -> key_ok (W i) /\ a_pos a = site_pos L l (W i) /\ a_type a = site_type l (W i).
Hypothesis Hinj : forall i j, i < n -> j < n -> W i = W j -> i = j.
Hypothesis Hall : forall q, key_ok q -> exists i, i < n /\ W i = q.
Hypothesis Hr : (2 * r <= IZR P * x /\ 2 * r <= IZR P * y /\ 2 * r <= IZR P * z)%R.

(** The site [q] displaced by whole periods of the padded box. *)
Definition period (q : site) (t : Z * Z * Z) : site :=
  let '(i, (a, b, c)) := q in let '(k1, k2, k3) := t in (i, (a + k1 * P, b + k2 * P, c + k3 * P)%Z).

Lemma eucl_bound (u v w : R) : (eucl u v w < r -> - r < u < r /\ - r < v < r /\ - r < w < r)%R.
Proof.
  intros H. unfold eucl in H.
  assert (H0 : (0 <= len2 u v w)%R) by (unfold len2; nra).
  pose proof (sqrt_pos (len2 u v w)). assert (Hq : (len2 u v w < r * r)%R).
  { rewrite <- (sqrt_sqrt _ H0). nra. }
  unfold len2 in Hq. repeat split; nra.
Qed.
Lemma far_eq q q' : far L l q q' = norm (apart L l q q').
Proof. unfold far. now rewrite norm_eucl. Qed.

(** The vector the code finds is the one to some image of the other atom, within half a box. *)
Lemma vector_site q q' : key_ok q -> key_ok q' ->
  exists t, pbc_diff s (vsub (site_pos L l q') (site_pos L l q)) = apart L l q (period q' t) /\
    (let v := apart L l q (period q' t) in
     - (IZR P * x) / 2 <= vx v <= IZR P * x / 2 /\ - (IZR P * y) / 2 <= vy v <= IZR P * y / 2 /\ - (IZR P * z) / 2 <= vz v <= IZR P * z / 2)%R.
Proof.
  destruct q as [i [[a b] c]], q' as [j [[a' b'] c']]. intros (Hi & A & B & C) (Hj & A' & B' & C').
  destruct (@P_QRun.nth_error_some _ l i Hi) as [p Ep]. destruct (@P_QRun.nth_error_some _ l j Hj) as [p' Ep'].
  pose proof (Hin (nth_error_In _ _ Ep)) as (Ix & Iy & Iz). pose proof (Hin (nth_error_In _ _ Ep')) as (Jx & Jy & Jz).
  destruct Hpos as (X & Y & Z0). cbn [vx vy vz L] in Ix, Iy, Iz, Jx, Jy, Jz.
  destruct (wrap_site HK Ix Jx A A') as (k1 & E1 & B1). destruct (wrap_site HK Iy Jy B B') as (k2 & E2 & B2).
  destruct (wrap_site HK Iz Jz C C') as (k3 & E3 & B3).
  exists (k1, k2, k3). unfold apart, site_pos, period. rewrite Ep, Ep'. cbn [vx vy vz].
  split; [|split; [exact B1|split; [exact B2|exact B3]]].
  unfold pbc_diff. rewrite Htri, Hlen. unfold wrap, vsub. cbn [vx vy vz].
  f_equal; [exact E1|exact E2|exact E3].
Qed.
Lemma link_site i j : i < n -> j < n -> i <> j -> exists t,
  link s i j = Some (mkNbr j (far L l (W i) (period (W j) t) : Rnum) (1%R : Rnum) (apart L l (W i) (period (W j) t))) /\
  (let v := apart L l (W i) (period (W j) t) in
   - (IZR P * x) / 2 <= vx v <= IZR P * x / 2 /\ - (IZR P * y) / 2 <= vy v <= IZR P * y / 2 /\ - (IZR P * z) / 2 <= vz v <= IZR P * z / 2)%R.
Proof.
  intros Hi Hj Hij. destruct (@P_QRun.nth_error_some _ (s_atoms s) i Hi) as [a Ha]. destruct (@P_QRun.nth_error_some _ (s_atoms s) j Hj) as [b Hb].
  destruct (HW Ha) as (Ki & Pa & _). destruct (HW Hb) as (Kj & Pb & _).
  assert (NN : nonneg3 (s_len s)).
  { rewrite Hlen. assert (HP : (1 <= IZR P)%R) by (apply IZR_le; unfold P; lia). destruct Hpos as (X & Y & Z0). unfold nonneg3; cbn [vx vy vz]. repeat split; nra. }
  destruct (vector_site Ki Kj) as (t & E & B). exists t. split; [|exact B].
  rewrite (link_real NN Ha Hb Hij), Pa, Pb, E, far_eq. reflexivity.
Qed.
Lemma period_fst q t : fst (period q t) = fst q.
Proof. destruct q as [i [[a b] c]], t as [[k1 k2] k3]. reflexivity. Qed.
Lemma period_one q q' t t' : key_ok q -> key_ok q' -> period q t = period q' t' -> q = q' /\ t = t'.
Proof.
  destruct q as [i [[a b] c]], q' as [i' [[a' b'] c']], t as [[k1 k2] k3], t' as [[k1' k2'] k3'].
  intros (_ & A & B & C) (_ & A' & B' & C') E. injection E as -> E1 E2 E3.
  destruct (centred_one A A' E1) as [-> ->]. destruct (centred_one B B' E2) as [-> ->]. destruct (centred_one C C' E3) as [-> ->]. auto.
Qed.
Lemma period_0 q : period q (0, 0, 0)%Z = q.
Proof. destruct q as [i [[a b] c]]. unfold period. rewrite !Z.mul_0_l, !Z.add_0_r. reflexivity. Qed.
Lemma period_ex q : fst q < length l -> exists q0 t, key_ok q0 /\ q = period q0 t.
Proof.
  destruct q as [i [[a b] c]]. intros H. cbn in H.
  destruct (centred a HK) as (k1 & a0 & -> & A). destruct (centred b HK) as (k2 & b0 & -> & B). destruct (centred c HK) as (k3 & c0 & -> & C).
  exists (i, (a0, b0, c0)), (k1, k2, k3). split; [cbn; auto|reflexivity].
Qed.
Lemma site_type_period q t : site_type l (period q t) = site_type l q.
Proof. unfold site_type. now rewrite period_fst. Qed.
Lemma key_at i : i < n -> key_ok (W i).
Proof. intros Hi. destruct (@P_QRun.nth_error_some _ (s_atoms s) i Hi) as [a Ha]. apply (HW Ha). Qed.
Lemma type_site i : i < n -> type_at s i = site_type l (W i).
Proof. intros Hi. destruct (@P_QRun.nth_error_some _ (s_atoms s) i Hi) as [a Ha]. unfold type_at. rewrite Ha. apply (HW Ha). Qed.
(** Closer than half a box there is one image only. *)
Lemma close_one q q' t t' : key_ok q -> key_ok q' -> (far L l q (period q' t) < r)%R ->
  (let v := apart L l q (period q' t') in
   - (IZR P * x) / 2 <= vx v <= IZR P * x / 2 /\ - (IZR P * y) / 2 <= vy v <= IZR P * y / 2 /\ - (IZR P * z) / 2 <= vz v <= IZR P * z / 2)%R ->
  t = t'.
Proof.
  destruct q as [i [[a b] c]], q' as [j [[a' b'] c']], t as [[k1 k2] k3], t' as [[k1' k2'] k3'].
  intros (Hi & _) (Hj & _) Hf. apply eucl_bound in Hf. revert Hf.
  destruct (@P_QRun.nth_error_some _ l i Hi) as [p Ep]. destruct (@P_QRun.nth_error_some _ l j Hj) as [p' Ep'].
  unfold apart, site_pos, period. rewrite Ep, Ep'. cbn [vx vy vz L]. cbv zeta. intros (F1 & F2 & F3) (G1 & G2 & G3).
  destruct Hpos as (X & Y & Z0), Hr as (R1 & R2 & R3). rewrite !plus_IZR in F1, F2, F3, G1, G2, G3.
  assert (E1 : k1 = k1') by (apply (@one_image x K HK ((vx (a_pos p') + IZR a' * x) - (vx (a_pos p) + IZR a * x))%R); fold P; lra).
  assert (E2 : k2 = k2') by (apply (@one_image y K HK ((vy (a_pos p') + IZR b' * y) - (vy (a_pos p) + IZR b * y))%R); fold P; lra).
  assert (E3 : k3 = k3') by (apply (@one_image z K HK ((vz (a_pos p') + IZR c' * z) - (vz (a_pos p) + IZR c * z))%R); fold P; lra).
  now subst.
Qed.

Lemma list_choice {A B} (R : A -> B -> Prop) (la : list A) : (forall a, In a la -> exists b, R a b) -> exists lb, Forall2 R la lb.
Proof.
  induction la as [|a la IH]; intros H; [exists []; constructor|]. destruct (H a) as [b Hb]; [now left|].
  destruct IH as [lb F]; [intros; apply H; now right|]. exists (b :: lb). now constructor.
Qed.
Theorem torus_shell i : i < n -> exists ks, shell L l f r (W i) ks /\
  Forall2 (fun q' e => stands_for L l (W i) q' e /\ nb_idx e < n /\ fst (W (nb_idx e)) = fst q') ks (neighbors_within s r f i).
Proof.
  intros Hi. pose proof (key_at Hi) as Ki.
  destruct (@list_choice _ _ (fun e q' => (exists t, q' = period (W (nb_idx e)) t /\ (far L l (W i) q' < r)%R) /\ q' <> W i /\
      stands_for L l (W i) q' e /\ nb_idx e < n /\ allowed f (site_type l (W i)) (site_type l q') = true) (neighbors_within s r f i)) as [ks F].
  { intros e He. apply In_neighbors_within in He as (Lk & C & Al). destruct (link_idx Lk) as (_ & _ & NE & _ & Bj). fold n in Bj.
    destruct (link_site Hi Bj NE) as (t & E & _). rewrite Lk in E. exists (period (W (nb_idx e)) t).
    assert (E' : e = mkNbr (nb_idx e) (far L l (W i) (period (W (nb_idx e)) t) : Rnum) (1%R : Rnum) (apart L l (W i) (period (W (nb_idx e)) t))) by (injection E; auto).
    assert (E1 : nb_dist e = far L l (W i) (period (W (nb_idx e)) t)) by exact (f_equal (@nb_dist Rnum) E').
    assert (E2 : nb_vec e = apart L l (W i) (period (W (nb_idx e)) t)) by exact (f_equal (@nb_vec Rnum) E').
    assert (E3 : nb_weight e = 1%R) by exact (f_equal (@nb_weight Rnum) E').
    assert (D : (far L l (W i) (period (W (nb_idx e)) t) < r)%R).
    { rewrite E1 in C. now apply Rltb_true in C. }
    split; [exists t; auto|]. split.
    - intros K0. rewrite <- (period_0 (W i)) in K0. apply period_one in K0 as [K0 _]; [|apply key_at; exact Bj|exact Ki].
      apply NE. symmetry. apply Hinj; auto.
    - split; [|split; [exact Bj|]].
      + split; [exact E1|split; [exact E2|exact E3]].
      + rewrite site_type_period, <- !type_site by auto. exact Al. }
  exists ks. split; [split|].
  - (* each site once *)
    pose proof (NoDup_within s r f i) as ND. clear -F ND Ki HW Hinj.
    induction F as [|e q' es ks H F IH]; [constructor|]. cbn [map] in ND. inversion ND as [|? ? N1 N2]; subst. constructor; [|auto].
    intros Hq. destruct (Forall2_in_r F Hq) as (e' & He' & (t' & E' & _) & _ & _ & B' & _).
    destruct H as ((t & E & _) & _ & _ & B & _). rewrite E in E'. apply period_one in E' as [E' _]; [|apply key_at; auto..].
    apply N1. apply in_map_iff. exists e'. split; [|exact He']. symmetry. apply Hinj; auto.
  - intros q'. split.
    + intros Hq. destruct (Forall2_in_r F Hq) as (e & _ & (t & E & D) & NE & _ & B & Al).
      split; [|split; [exact NE|split; [exact D|exact Al]]]. rewrite E, period_fst. pose proof (key_at B) as KB.
      destruct (W (nb_idx e)) as [j [[a b] c]]. apply KB.
    + intros (B & NE & D & Al). destruct (period_ex B) as (q0 & t & K0 & E). destruct (Hall K0) as (j & Hj & Wj).
      assert (Hij : i <> j).
      { intros <-. apply NE. rewrite E, <- Wj. rewrite E, <- Wj in D.
        assert (t = (0, 0, 0)%Z) as ->; [|apply period_0].
        apply (@close_one (W i) (W i) t (0, 0, 0)%Z Ki Ki D). rewrite period_0. cbv zeta. unfold apart. cbn [vx vy vz].
        assert (HP : (1 <= IZR P)%R) by (apply IZR_le; unfold P; lia). destruct Hpos as (X & Y & Z0).
        repeat split; nra. }
      destruct (link_site Hi Hj Hij) as (t' & E' & Bd). rewrite Wj in Bd, E'. rewrite E in D.
      pose proof (close_one Ki K0 D Bd) as <-. rewrite <- E in *.
      set (e := mkNbr j _ _ _) in E'. assert (He : In e (neighbors_within s r f i)).
      { apply In_neighbors_within. split; [exact E'|]. split; [apply Rltb_true; exact D|]. cbn [nb_idx e].
        rewrite !type_site by auto. rewrite Wj. rewrite E, site_type_period in Al. exact Al. }
      destruct (Forall2_in_l F He) as (q1 & Hq1 & (t1 & E1 & D1) & _ & S1 & _).
      cbn [nb_idx e] in E1. rewrite Wj in E1. rewrite E1 in D1.
      assert (t1 = t). { apply (close_one Ki K0 D1). rewrite <- E. exact Bd. } subst t1. rewrite E, <- E1. exact Hq1.
  - clear -F. induction F as [|e q' es ks ((t & E & _) & _ & S & B & _) F IH]; constructor; auto.
    split; [exact S|]. split; [exact B|]. rewrite E. symmetry. apply period_fst.
Qed.
End Torus.

(** The lists a successful cutoff search leaves. *)
Lemma cutoff_lists (N : num) srt voro area_pow inv (s s' : sys N) (r t pad : N) (nl : Z) (f : filt) e :
  stored s -> (s_real s <= 2300)%Z -> neqb r n0 = false ->
  find_neighbors srt voro area_pow inv s (mkArgs (MCutoff (CutVal r)) f t pad nl) = Ok (s', e) ->
  forall i, i < length (s_atoms s) -> nbrs_at s' i = neighbors_within s r f i.
Proof.
  intros St Hs Hr. unfold find_neighbors. unfold reset_all_neighbors. rewrite (each_atom_stored _ St). cbn [bind]. cbv zeta.
  cbn [fa_method fa_filter fa_threshold]. rewrite Hr. unfold real_count.
  match goal with |- context [Z.ltb 2300 ?x] => change x with (s_real s) end.
  assert (E : Z.ltb 2300 (s_real s) = false) by (apply Z.ltb_ge; lia). rewrite E.
  pose proof (@normal_spec N s f r St) as H.
  destruct (get_all_neighbors_normal _) as [u|e']; cbn [bind]; [|discriminate].
  destruct H as [[HL H] U]. intros Q i Hi. injection Q as <- _.
  destruct (@P_QRun.nth_error_some _ _ _ Hi) as [a Ha]. destruct (H i a Ha) as (a' & H1 & _ & H3 & _).
  unfold nbrs_at. change (match nth_error (s_atoms u) i with Some a0 => a_nbrs a0 | None => [] end = neighbors_within s r f i).
  now rewrite H1.
Qed.

(** ** The atoms setter *)
Lemma padded (inv : m3 Rnum -> option (m3 Rnum)) raw (s s1 s2 : sys Rnum) (x y z : R) (l : list (atom Rnum)) :
  s_tri s = false -> s_actual s = None -> (0 < x /\ 0 < y /\ 0 < z)%R ->
  box_set inv s (diag (N := Rnum) x y z) = Ok s1 -> all_real l -> 1 <= length l < 200 ->
  atoms_set inv raw s1 l = Ok s2 ->
  exists K W, (1 <= K)%Z /\ Z.of_nat (length (s_atoms s2)) = ((2 * K + 1) ^ 3 * Z.of_nat (length l))%Z /\
    stored s2 /\ s_real s2 = Z.of_nat (length l) /\ s_tri s2 = false /\
    s_len s2 = mkV (N := Rnum) (IZR (2 * K + 1) * x)%R (IZR (2 * K + 1) * y)%R (IZR (2 * K + 1) * z)%R /\
    (forall i, i < length l -> W i = origin i) /\
    (forall i a, nth_error (s_atoms s2) i = Some a ->
       key_ok K l (W i) /\ a_pos a = site_pos (mkV (N := Rnum) x y z) l (W i) /\ a_type a = site_type l (W i)) /\
    (forall i j, i < length (s_atoms s2) -> j < length (s_atoms s2) -> W i = W j -> i = j) /\
    (forall q, key_ok K l q -> exists i, i < length (s_atoms s2) /\ W i = q).
Proof.
  intros Ht Hac (X & Y & Z0) E1 Hreal Hl E2. rewrite box_set_diag in E1. injection E1 as <-.
  destruct (atoms_set_spec Hreal E2) as (gh & A1 & _ & _ & A4 & A5 & _ & A7).
  destruct (Z.ltb_spec (Z.of_nat (length l)) 200) as [_|B]; [|lia]. cbv zeta in A7.
  destruct (@small_reps_enough (Z.of_nat (length l))) as [R1 _]; [lia|].
  assert (BG : box_get (sbox s (diag (N := Rnum) x y z)) = diag (N := Rnum) x y z) by (unfold box_get; cbn; rewrite Hac; reflexivity).
  rewrite BG in A7. set (K := small_reps (Z.of_nat (length l))) in *. destruct A7 as (A7 & keys & ND & Ik & F & _).
  pose proof (length_shifts (rx:=K) (ry:=K) (rz:=K) ltac:(lia) ltac:(lia) ltac:(lia)) as LS.
  assert (S2 : s_tri s2 = false /\ s_len s2 = mkV (N := Rnum) (IZR (2 * K + 1) * x)%R (IZR (2 * K + 1) * y)%R (IZR (2 * K + 1) * z)%R).
  { assert (HP : (1 <= IZR (2 * K + 1))%R) by (apply IZR_le; lia).
    unfold atoms_set in E2. destruct (Z.ltb_spec (Z.of_nat (length l)) 200) as [_|B]; [|lia].
    destruct (Z.eqb_spec (Z.of_nat (length l)) 0) as [B|_]; [lia|]. destruct (neqb _ _); [discriminate|].
    unfold repeat_cell in E2. cbn [bind] in E2. fold K in E2. rewrite BG, scale_diag, box_set_diag in E2. cbn [bind] in E2.
    injection E2 as <-. split; [exact Ht|].
    change (sbox_len (diag (N := Rnum) (IZR (2 * K + 1) * x)%R (IZR (2 * K + 1) * y)%R (IZR (2 * K + 1) * z)%R) =
      mkV (N := Rnum) (IZR (2 * K + 1) * x)%R (IZR (2 * K + 1) * y)%R (IZR (2 * K + 1) * z)%R).
    apply diag_len; nra. }
  set (n := length l) in *.
  set (W := fun i => if i <? n then origin i else match nth_error keys (i - n) with Some k => (snd k, fst k) | None => origin 0 end).
  assert (LK : length keys = length gh) by exact (Forall2_length' F).
  assert (W0 : forall i, i < n -> W i = origin i).
  { intros i Hi. unfold W. destruct (Nat.ltb_spec i n); [reflexivity|lia]. }
  assert (W1 : forall i k, nth_error keys i = Some k -> W (n + i) = (snd k, fst k)).
  { intros i k Hk. unfold W. destruct (Nat.ltb_spec (n + i) n); [lia|]. replace (n + i - n) with i by lia. now rewrite Hk. }
  assert (Cases : forall i, i < length (s_atoms s2) -> i < n \/ exists i', i = n + i' /\ i' < length gh).
  { intros i Hi. rewrite A1, app_length in Hi. fold n in Hi. destruct (Nat.lt_ge_cases i n); [auto|]. right. exists (i - n). lia. }
  assert (Key : forall k, In k keys -> key_ok K l (snd k, fst k) /\ fst k <> (0, 0, 0)%Z).
  { intros [[[a b] c] m] Hk. apply Ik in Hk. destruct Hk as (B1 & B2 & B3 & B4 & B5). cbn. auto. }
  exists K, W. split; [exact R1|]. split; [|split; [exact A5|split; [exact A4|split; [exact (proj1 S2)|split; [exact (proj2 S2)|split; [exact W0|split; [|split]]]]]]].
  - rewrite A1, app_length, A7. fold n. rewrite Nat2Z.inj_add, Nat2Z.inj_mul, LS. ring.
  - intros i a Ha. assert (Hi : i < length (s_atoms s2)) by (apply nth_error_Some; congruence).
    rewrite A1 in Ha. destruct (Cases i Hi) as [B|(i' & -> & B)].
    + rewrite nth_error_app1 in Ha by exact B. rewrite (W0 _ B). unfold origin, key_ok, site_pos, site_type. cbn [fst].
      rewrite Ha. split; [fold n; lia|]. split; [|reflexivity]. cbn [vx vy vz]. destruct (a_pos a) as [u v w]. cbn [vx vy vz].
      f_equal; rring.
    + rewrite nth_error_app2 in Ha by (fold n; lia). fold n in Ha. replace (n + i' - n) with i' in Ha by lia.
      destruct (nth_error keys i') as [k|] eqn:Ek; [|apply nth_error_None in Ek; lia]. rewrite (W1 _ _ Ek).
      split; [exact (proj1 (Key k (nth_error_In _ _ Ek)))|].
      assert (C : copy_rel (diag (N := Rnum) x y z) l 1 k a).
      { clear -F Ek Ha. revert i' Ek Ha. induction F as [|k0 g0 ks gs H F IH]; intros [|i'] Ek Ha; try discriminate.
        - injection Ek as <-. injection Ha as <-. exact H.
        - exact (IH i' Ek Ha). }
      destruct k as [[[p q] t] m]. destruct C as (a0 & E0 & D & T & _). cbn [fst snd]. unfold site_pos, site_type. cbn [fst]. rewrite E0.
      split; [|exact T]. apply diag_shift in D. destruct D as (D1 & D2 & D3). cbn [vx vy vz]. destruct (a_pos a) as [u v w]. cbn [vx vy vz] in *.
      f_equal; assumption.
  - intros i j Hi Hj E. destruct (Cases i Hi) as [B|(i' & -> & B)], (Cases j Hj) as [C|(j' & -> & C)].
    + rewrite (W0 _ B), (W0 _ C) in E. injection E; auto.
    + destruct (nth_error keys j') as [k|] eqn:Ek; [|apply nth_error_None in Ek; lia]. rewrite (W1 _ _ Ek), (W0 _ B) in E.
      destruct (Key k (nth_error_In _ _ Ek)) as [_ N0]. exfalso. apply N0. unfold origin in E. congruence.
    + destruct (nth_error keys i') as [k|] eqn:Ek; [|apply nth_error_None in Ek; lia]. rewrite (W1 _ _ Ek), (W0 _ C) in E.
      destruct (Key k (nth_error_In _ _ Ek)) as [_ N0]. exfalso. apply N0. unfold origin in E. congruence.
    + destruct (nth_error keys i') as [k|] eqn:Ek; [|apply nth_error_None in Ek; lia].
      destruct (nth_error keys j') as [k'|] eqn:Ek'; [|apply nth_error_None in Ek'; lia].
      rewrite (W1 _ _ Ek), (W1 _ _ Ek') in E. f_equal. rewrite NoDup_nth_error in ND. apply ND; [lia|]. rewrite Ek, Ek'. f_equal.
      destruct k, k'. cbn in E. congruence.
  - intros [m [[a b] c]] (Hm & Ba & Bb & Bc). rewrite A1, app_length. fold n.
    assert (D : (a, b, c) = (0, 0, 0)%Z \/ (a, b, c) <> (0, 0, 0)%Z).
    { destruct (Z.eq_dec a 0); [destruct (Z.eq_dec b 0); [destruct (Z.eq_dec c 0)|]|]; [left; subst; reflexivity|right; intros CC; injection CC; lia..]. }
    destruct D as [D|D].
    + rewrite D. exists m. split; [unfold n; lia|apply W0; exact Hm].
    + assert (I : In ((a, b, c), m) keys) by (apply Ik; repeat split; try lia; try assumption).
      apply In_nth_error in I as (i & Ei); exists (n + i); split; [assert (i < length keys) by (apply nth_error_Some; intros C0; discriminate (eq_trans (eq_sym C0) Ei)); lia|exact (W1 _ _ Ei)].
Qed.

(** ** Sites in another cell *)
Definition moved (t : Z * Z * Z) (q : site) : site :=
  let '(i, (a, b, c)) := q in let '(k1, k2, k3) := t in (i, (a + k1, b + k2, c + k3)%Z).
Lemma moved_fst t q : fst (moved t q) = fst q.
Proof. destruct q as [i [[a b] c]], t as [[k1 k2] k3]. reflexivity. Qed.
Lemma moved_apart L l t q q' : fst q < length l -> fst q' < length l -> apart L l (moved t q) (moved t q') = apart L l q q'.
Proof.
  destruct q as [i [[a b] c]], q' as [i' [[a' b'] c']], t as [[k1 k2] k3]. cbn [fst]. intros H H'.
  destruct (@P_QRun.nth_error_some _ l i H) as [p E]. destruct (@P_QRun.nth_error_some _ l i' H') as [p' E'].
  unfold apart, site_pos, moved. rewrite E, E'. cbn [vx vy vz]. rewrite !plus_IZR. f_equal; rring.
Qed.
Definition back (t : Z * Z * Z) : Z * Z * Z := let '(a, b, c) := t in (- a, - b, - c)%Z.
Lemma moved_back t q : moved t (moved (back t) q) = q.
Proof. destruct q as [i [[a b] c]], t as [[k1 k2] k3]. cbn. f_equal. f_equal; [f_equal|]; lia. Qed.
Lemma moved_inj t q q' : moved t q = moved t q' -> q = q'.
Proof.
  destruct q as [i [[a b] c]], q' as [i' [[a' b'] c']], t as [[k1 k2] k3]. cbn. intros E. injection E as -> E1 E2 E3.
  f_equal. f_equal; [f_equal|]; lia.
Qed.
Lemma shell_moved L l f r t q ks ks' : fst q < length l -> shell L l f r q ks -> shell L l f r (moved t q) ks' ->
  Permutation ks' (map (moved t) ks).
Proof.
  intros Hq [N1 I1] [N2 I2].
  apply NoDup_Permutation; [exact N2|apply FinFun.Injective_map_NoDup; [intros u v; apply moved_inj|exact N1]|].
  assert (T : forall u, site_type l (moved t u) = site_type l u) by (intros u; unfold site_type; now rewrite moved_fst).
  intros q'. rewrite I2, in_map_iff. split.
  - intros (H1 & H2 & H3 & H4). exists (moved (back t) q'). split; [apply moved_back|]. apply I1.
    rewrite <- (moved_back t q') in H1, H2, H3, H4. rewrite moved_fst in H1. rewrite !T in H4.
    split; [exact H1|]. split; [congruence|]. split; [|exact H4]. unfold far in *. now rewrite moved_apart in H3 by assumption.
  - intros (u & <- & Hu). apply I1 in Hu as (H1 & H2 & H3 & H4). rewrite moved_fst, !T. split; [exact H1|].
    split; [intros C; apply H2; now apply moved_inj in C|]. split; [|exact H4]. unfold far in *. now rewrite moved_apart by assumption.
Qed.
