(** Property C80: results do not depend on the order in which the atoms are
    listed, nor on the origin. *)
From Coq Require Import Reals Lra ZArith List Lia Permutation.
From Coq.Floats Require Import SpecFloat.
From Verif Require Import Base Num NumR NumF NumP Types Ex M_Geometry M_Container M_Neighbors M_Steinhardt
  S_Geometry S_Neighbors S_Steinhardt S_Double S_Number S_Same P_Geometry P_Box P_Neighbors P_QRun P_QSys P_Same C_Neighbors C_Number C_Steinhardt.
Import ListNotations.
Close Scope R_scope. Close Scope Z_scope.
#[local] Open Scope nat_scope.

(** Cutoff neighbours on the reals, in orthogonal and triclinic cells: atom i
    of one system and the same atom in the other have the same neighbours, with
    the same distances, weights and vectors. *)
Theorem C80_neighbours :
  forall srt voro area_pow inv (s s' : sys Rnum) (t : v3 Rnum) (p : nat -> nat) (r th pad : Rnum) (nl : Z) (f : filt),
  rearranged (fun v => vadd v t) p s s' -> nonneg3 (s_len s) ->
  stored s -> stored s' -> (s_real s <= 2300)%Z -> (s_real s' <= 2300)%Z -> neqb r n0 = false ->
  (forall i, i < length (s_atoms s) -> length (neighbors_within s r f i) <= 300) ->
  exists u u',
    find_neighbors srt voro area_pow inv s (mkArgs (MCutoff (CutVal r)) f th pad nl) = Ok (u, None) /\
    find_neighbors srt voro area_pow inv s' (mkArgs (MCutoff (CutVal r)) f th pad nl) = Ok (u', None) /\
    forall i, i < length (s_atoms s) ->
      Permutation (nbrs_at u' (p i)) (map (renamed p) (nbrs_at u i)).
Proof.
  intros srt voro area_pow inv s s' t p r th pad nl f HR HL St St' Hs Hs' Hr Hcap.
  pose (X := fun e : nbr Rnum => (nb_dist e, nb_weight e, nb_vec e)).
  assert (HX : forall e e', X e = X e' -> nb_dist e = nb_dist e') by (intros e e' E; injection E; auto).
  pose proof (within_seen (seen_as := X) r f HR HX (link_moved HL HR)) as W.
  assert (Hcap' : forall i, i < length (s_atoms s') -> length (neighbors_within s' r f i) <= 300).
  { intros i Hi. pose proof (proj1 HR) as EL. rewrite EL in Hi.
    destruct (onto (re_bound HR) (re_inj HR) Hi) as (k & Hk & <-).
    rewrite (within_count r f HR HX (link_moved HL HR) Hk). auto. }
  destruct (cutoff_run srt voro area_pow inv th pad nl St Hs Hr Hcap) as (u & E & _ & _ & _ & U).
  destruct (cutoff_run srt voro area_pow inv th pad nl St' Hs' Hr Hcap') as (u' & E' & _ & _ & _ & U').
  exists u, u'. split; [exact E|]. split; [exact E'|]. intros i Hi.
  destruct (P_QRun.nth_error_some Hi) as [a Ha]. destruct (U i a Ha) as (b & Hb & _ & Eb & _).
  destruct HR as (_ & _ & A & _). destruct (A i a Ha) as (a' & Ha' & _). destruct (U' _ a' Ha') as (b' & Hb' & _ & Eb' & _).
  unfold nbrs_at. rewrite Hb, Hb', Eb, Eb'. specialize (W i Hi).
  apply (Permutation_map (fun x => mkNbr (N := Rnum) (fst x) (fst (fst (snd x))) (snd (fst (snd x))) (snd (snd x)))) in W.
  rewrite !map_map in W. cbn [fst snd X] in W.
  rewrite (map_ext _ (fun e => e)), map_id in W by (intros []; reflexivity). exact W.
Qed.
Print Assumptions C80_neighbours.

(** Steinhardt's parameters of all orders, averaged or not, are those of the
    same atom. *)
Theorem C80_parameters :
  forall srt voro area_pow inv raw (s s' : sys Rnum) (t : v3 Rnum) (p : nat -> nat) (r th pad : Rnum) (nl : Z) (f : filt) qs (averaged : bool),
  rearranged (fun v => vadd v t) p s s' -> nonneg3 (s_len s) ->
  stored s -> stored s' -> (s_real s <= 2300)%Z -> (s_real s' <= 2300)%Z -> neqb r n0 = false ->
  (forall i, i < length (s_atoms s) -> length (neighbors_within s r f i) <= 300) ->
  (forall a, In a (s_atoms s) -> q_arrays a) -> (forall a, In a (s_atoms s') -> q_arrays a) ->
  (forall i j a b, i <> j -> nth_error (s_atoms s) i = Some a -> nth_error (s_atoms s) j = Some b ->
     nonzero (distance_vector s (a_pos a) (a_pos b))) ->
  Forall (fun q => 2 <= q <= 12)%Z qs ->
  exists u u' w w',
    find_neighbors srt voro area_pow inv s (mkArgs (MCutoff (CutVal r)) f th pad nl) = Ok (u, None) /\
    find_neighbors srt voro area_pow inv s' (mkArgs (MCutoff (CutVal r)) f th pad nl) = Ok (u', None) /\
    py_calculate_q inv raw u qs averaged false None false = Ok w /\
    py_calculate_q inv raw u' qs averaged false None false = Ok w' /\
    forall i, i < length (s_atoms s) -> exists a a', nth_error (s_atoms w) i = Some a /\ nth_error (s_atoms w') (p i) = Some a' /\
      forall q, In q qs -> exists v, atom_get_q a q false = Ok v /\ atom_get_q a' q false = Ok v /\
        (averaged = true -> exists v, atom_get_q a q true = Ok v /\ atom_get_q a' q true = Ok v).
Proof.
  intros srt voro area_pow inv raw s s' t p r th pad nl f qs averaged HR HL St St' Hs Hs' Hr Hcap Qa Qa' Hnz HF.
  destruct (C80_neighbours srt voro area_pow inv s s' t p r th pad nl f HR HL St St' Hs Hs' Hr Hcap) as (u & u' & E & E' & HP).
  assert (Hcap' : forall i, i < length (s_atoms s') -> length (neighbors_within s' r f i) <= 300).
  { intros i Hi. pose proof (proj1 HR) as EL. rewrite EL in Hi.
    destruct (onto (re_bound HR) (re_inj HR) Hi) as (k & Hk & <-).
    assert (HX : forall e e' : nbr Rnum, (nb_dist e, nb_weight e, nb_vec e) = (nb_dist e', nb_weight e', nb_vec e') -> nb_dist e = nb_dist e') by (intros e e' EE; injection EE; auto).
    rewrite (within_count r f HR HX (link_moved HL HR) Hk). auto. }
  destruct (cutoff_run srt voro area_pow inv th pad nl St Hs Hr Hcap) as (u0 & E0 & L & V & NP & U).
  destruct (cutoff_run srt voro area_pow inv th pad nl St' Hs' Hr Hcap') as (u0' & E0' & L' & V' & NP' & U').
  rewrite E in E0. injection E0 as <-. rewrite E' in E0'. injection E0' as <-.
  assert (RDY : forall (z y : sys Rnum), stored z -> length (s_atoms y) = length (s_atoms z) -> s_nop y = s_nop z ->
    (forall a, In a (s_atoms z) -> q_arrays a) ->
    (forall i a, nth_error (s_atoms z) i = Some a -> exists a', nth_error (s_atoms y) i = Some a' /\ same_atom a' a /\
        a_nbrs a' = neighbors_within z r f i /\ a_cond a' = 0%Z) ->
    forall i a', nth_error (s_atoms y) i = Some a' -> exists a, nth_error (s_atoms z) i = Some a /\ q_arrays a' /\
      a_nbrs a' = neighbors_within z r f i /\ a_cond a' = 0%Z).
  { intros z y Sz Ly Ny Qz Uz i a' Ha'.
    assert (Hi : i < length (s_atoms z)) by (rewrite <- Ly; apply nth_error_Some; congruence).
    destruct (P_QRun.nth_error_some Hi) as [a Ha]. exists a. split; [exact Ha|].
    destruct (Uz i a Ha) as (x & Ex & S & NB & C). rewrite Ha' in Ex. injection Ex as <-. split; [|auto].
    pose proof (Qz a (nth_error_In _ _ Ha)) as Q. unfold q_arrays in *.
    assert (S1 := f_equal (@a_q Rnum) S). assert (S2 := f_equal (@a_aq Rnum) S).
    assert (S3 := f_equal (@a_qc Rnum) S). assert (S4 := f_equal (@a_aqc Rnum) S).
    change (a_q a' = a_q a) in S1. change (a_aq a' = a_aq a) in S2. change (a_qc a' = a_qc a) in S3. change (a_aqc a' = a_aqc a) in S4.
    rewrite S1, S2, S3, S4. exact Q. }
  pose proof (RDY s u St L NP Qa U) as D. pose proof (RDY s' u' St' L' NP' Qa' U') as D'. clear RDY.
  assert (IDX : forall (z : sys Rnum) e i, In e (neighbors_within z r f i) -> nb_idx e < length (s_atoms z)).
  { intros z e i H. apply In_neighbors_within in H as (K & _). destruct (link_idx K) as (_ & _ & _ & _ & B). exact B. }
  assert (R1 : q_ready u).
  { split; [rewrite NP, L; exact St|]. intros a Ha. apply In_nth_error in Ha as (i & Ha). destruct (D i a Ha) as (a0 & H0 & Q & NB & _).
    split; [exact Q|]. intros e He. rewrite NB in He. rewrite L. exact (IDX s e i He). }
  assert (R2 : q_ready u').
  { split; [rewrite NP', L'; exact St'|]. intros a Ha. apply In_nth_error in Ha as (i & Ha). destruct (D' i a Ha) as (a0 & H0 & Q & NB & _).
    split; [exact Q|]. intros e He. rewrite NB in He. rewrite L'. exact (IDX s' e i He). }
  assert (K1 : forall a, In a (s_atoms u) -> a_cond a = 0%Z).
  { intros a Ha. apply In_nth_error in Ha as (i & Ha). now destruct (D i a Ha) as (? & _ & _ & _ & ?). }
  assert (K2 : forall a, In a (s_atoms u') -> a_cond a = 0%Z).
  { intros a Ha. apply In_nth_error in Ha as (i & Ha). now destruct (D' i a Ha) as (? & _ & _ & _ & ?). }
  assert (NZ : forall a e, In a (s_atoms u) -> In e (a_nbrs a) -> nonzero (nb_vec e)).
  { intros a e Ha He. apply In_nth_error in Ha as (i & Ha). destruct (D i a Ha) as (a0 & H0 & _ & NB & _). rewrite NB in He.
    apply In_neighbors_within in He as (K & _). destruct (link_idx K) as (_ & _ & NE & _ & B).
    destruct (P_QRun.nth_error_some B) as [b0 Hb0]. rewrite (link_real HL H0 Hb0 NE) in K. injection K as <-. cbn [nb_vec].
    apply (Hnz (nb_idx e) i b0 a0); auto. }
  assert (PP : forall i a, nth_error (s_atoms u) i = Some a -> exists a', nth_error (s_atoms u') (p i) = Some a' /\
     Permutation (a_nbrs a') (map (renamed p) (a_nbrs a))).
  { intros i a Ha. assert (Hi : i < length (s_atoms s)) by (rewrite <- L; apply nth_error_Some; congruence).
    pose proof (re_bound HR Hi) as Bi. rewrite <- (proj1 HR), <- L' in Bi. destruct (P_QRun.nth_error_some Bi) as [a' Ha'].
    exists a'. split; [exact Ha'|]. specialize (HP i Hi). unfold nbrs_at in HP. rewrite Ha, Ha' in HP. exact HP. }
  assert (SU : forall a', In a' (s_atoms u') -> exists i a, nth_error (s_atoms u) i = Some a /\ nth_error (s_atoms u') (p i) = Some a').
  { intros a' Ha'. apply In_nth_error in Ha' as (j & Ha').
    assert (Hj : j < length (s_atoms s)) by (rewrite <- (proj1 HR), <- L'; apply nth_error_Some; congruence).
    destruct (onto (re_bound HR) (re_inj HR) Hj) as (k & Hk & <-). rewrite <- L in Hk. destruct (P_QRun.nth_error_some Hk) as [a Ha]. eauto. }
  pose proof (same_q R1 R2 HF V V' K1 K2 NZ PP SU) as SQ.
  pose proof (same_aq R1 R2 HF V V' K1 K2 NZ PP SU) as SAQ.
  assert (FIN : forall b a a' q, nth_error (if b : bool then a_aq a' else a_q a') (Z.to_nat (q - 2)) = nth_error (if b then a_aq a else a_q a) (Z.to_nat (q - 2)) ->
     (2 <= q <= 12)%Z -> length (if b then a_aq (N := Rnum) a else a_q a) = 11 -> exists v, atom_get_q a q b = Ok v /\ atom_get_q a' q b = Ok v).
  { intros b a a' q EE RG LE. unfold atom_get_q, q_range, zget, get.
    replace (Z.ltb q 2) with false by (symmetry; apply Z.ltb_ge; lia). replace (Z.ltb 12 q) with false by (symmetry; apply Z.ltb_ge; lia).
    cbn [orb negb]. replace (Z.ltb (q - 2) 0) with false by (symmetry; apply Z.ltb_ge; lia). rewrite EE.
    destruct (nth_error (if b then a_aq a else a_q a) (Z.to_nat (q - 2))) eqn:EN; [eauto|]. apply nth_error_None in EN. lia. }
  rewrite Forall_forall in HF. pose proof HF as HF1. rewrite <- Forall_forall in HF.
  exists u, u'. rewrite (py_q_eq inv raw averaged R1 HF), (py_q_eq inv raw averaged R2 HF).
  do 2 eexists. split; [exact E|]. split; [exact E'|]. split; [reflexivity|]. split; [reflexivity|].
  intros i Hi. rewrite <- L in Hi. destruct (P_QRun.nth_error_some Hi) as [a Ha]. destruct (PP i a Ha) as (a' & Ha' & _).
  destruct (D i a Ha) as (_ & _ & QA & _).
  pose proof (q_arrays_all false (s_atoms u) HF QA) as QA1.
  destruct averaged.
  - unfold after_aq. cbn [s_atoms set]. cbn. rewrite V, V'. do 2 eexists. rewrite !nth_error_map, Ha, Ha'. split; [reflexivity|]. split; [reflexivity|].
    intros q Hq. pose proof (HF1 q Hq) as RG. rewrite <- (Z2Nat.id q) in Hq by lia.
    pose proof (SQ i a a' (Z.to_nat q) Ha Ha' Hq) as EQ. pose proof (SAQ i a a' (Z.to_nat q) Ha Ha' Hq) as EAQ.
    rewrite Z2Nat.id in EQ, EAQ by lia.
    pose proof (q_arrays_aall (map (q_all false (s_atoms u) qs) (s_atoms u)) HF QA1) as QA2.
    destruct (FIN false _ _ q (eq_trans (f_equal (fun l => nth_error l (Z.to_nat (q - 2))) (aq_all_a_q (map (q_all false (s_atoms u') qs) (s_atoms u')) qs (q_all false (s_atoms u') qs a')))
       (eq_trans EQ (eq_sym (f_equal (fun l => nth_error l (Z.to_nat (q - 2))) (aq_all_a_q (map (q_all false (s_atoms u) qs) (s_atoms u)) qs (q_all false (s_atoms u) qs a)))))) RG (proj1 QA2)) as (v & F1 & F2).
    exists v. split; [exact F1|]. split; [exact F2|]. intros _. exact (FIN true _ _ q EAQ RG (proj1 (proj2 QA2))).
  - unfold after_q. cbn. rewrite V, V'. do 2 eexists. rewrite !nth_error_map, Ha, Ha'. split; [reflexivity|]. split; [reflexivity|].
    intros q Hq. pose proof (HF1 q Hq) as RG. rewrite <- (Z2Nat.id q) in Hq by lia.
    pose proof (SQ i a a' (Z.to_nat q) Ha Ha' Hq) as EQ. rewrite Z2Nat.id in EQ by lia.
    destruct (FIN false _ _ q EQ RG (proj1 QA1)) as (v & F1 & F2). exists v. split; [exact F1|]. split; [exact F2|]. discriminate.
Qed.
Print Assumptions C80_parameters.

(** Doubles as computed: listing the atoms in another order changes neither
    the neighbours nor their distances (coordinates may be NaN or infinite). *)
Theorem C80_order_double :
  forall (lib : libm) srt voro area_pow inv (s s' : sys (SF64 lib)) (p : nat -> nat) (r th pad : SF64 lib) (nl : Z) (f : filt),
  rearranged (fun v => v) p s s' -> double_box s -> double_atoms s ->
  stored s -> stored s' -> (s_real s <= 2300)%Z -> (s_real s' <= 2300)%Z -> neqb r n0 = false ->
  (forall i, i < length (s_atoms s) -> length (neighbors_within s r f i) <= 300) ->
  exists u u',
    find_neighbors srt voro area_pow inv s (mkArgs (MCutoff (CutVal r)) f th pad nl) = Ok (u, None) /\
    find_neighbors srt voro area_pow inv s' (mkArgs (MCutoff (CutVal r)) f th pad nl) = Ok (u', None) /\
    forall i, i < length (s_atoms s) ->
      Permutation (map (fun e => (nb_idx e, nb_dist e)) (nbrs_at u' (p i)))
                  (map (fun e => (p (nb_idx e), nb_dist e)) (nbrs_at u i)).
Proof.
  intros lib srt voro area_pow inv s s' p r th pad nl f HR HB HA St St' Hs Hs' Hr Hcap.
  assert (HX : forall e e' : nbr (SF64 lib), nb_dist e = nb_dist e' -> nb_dist e = nb_dist e') by auto.
  assert (TW := two_way_double lib s HB HA).
  assert (HK : forall i j e, link s i j = Some e -> exists e', link s' (p i) (p j) = Some e' /\ nb_dist e' = nb_dist e).
  { intros i j e K. destruct (link_idx K) as (_ & _ & NE & Bi & Bj).
    destruct (P_QRun.nth_error_some Bi) as [a Ha]. destruct (P_QRun.nth_error_some Bj) as [b Hb].
    destruct HR as (_ & I & A & B1 & B2 & B3 & B4). destruct (A i a Ha) as (a' & Ha' & Pa & _). destruct (A j b Hb) as (b' & Hb' & Pb & _).
    assert (NE' : p i <> p j) by (intros C; apply NE; apply I; auto).
    assert (PB : forall v w, abs_distance_ij s' v w = abs_distance_ij s v w).
    { intros v w. unfold abs_distance_ij, pbc_diff. rewrite B1, B2, B3, B4. reflexivity. }
    assert (G : forall (z : sys (SF64 lib)) k m x y, nth_error (s_atoms z) k = Some x -> nth_error (s_atoms z) m = Some y -> k <> m ->
       fst (abs_distance_ij z (a_pos x) (a_pos y)) = fst (abs_distance_ij z (a_pos y) (a_pos x)) ->
       exists e, link z k m = Some e /\ nb_dist e = fst (abs_distance_ij z (a_pos x) (a_pos y))).
    { intros z k m x y Hx Hy KM SY. unfold link. rewrite Hx, Hy. destruct (Nat.ltb_spec k m).
      - destruct (abs_distance_ij z (a_pos x) (a_pos y)) as [d w]. eexists. split; [reflexivity|]. reflexivity.
      - destruct (Nat.ltb_spec m k); [|lia]. rewrite SY. destruct (abs_distance_ij z (a_pos y) (a_pos x)) as [d w]. eexists. split; [reflexivity|]. reflexivity. }
    pose proof (TW a b (nth_error_In _ _ Ha) (nth_error_In _ _ Hb)) as SY.
    destruct (G s i j a b Ha Hb NE SY) as (e0 & K0 & D0). rewrite K in K0. injection K0 as <-.
    destruct (G s' (p i) (p j) a' b' Ha' Hb' NE') as (e1 & K1 & D1). { rewrite Pa, Pb, !PB. exact SY. }
    exists e1. split; [exact K1|]. rewrite D1, D0, Pa, Pb, PB. reflexivity. }
  pose proof (within_seen (seen_as := @nb_dist (SF64 lib)) r f HR HX HK) as W.
  assert (Hcap' : forall i, i < length (s_atoms s') -> length (neighbors_within s' r f i) <= 300).
  { intros i Hi. pose proof (proj1 HR) as EL. rewrite EL in Hi.
    destruct (onto (re_bound HR) (re_inj HR) Hi) as (k & Hk & <-).
    rewrite (within_count r f HR HX HK Hk). auto. }
  destruct (cutoff_run srt voro area_pow inv th pad nl St Hs Hr Hcap) as (u & E & _ & _ & _ & U).
  destruct (cutoff_run srt voro area_pow inv th pad nl St' Hs' Hr Hcap') as (u' & E' & _ & _ & _ & U').
  exists u, u'. split; [exact E|]. split; [exact E'|]. intros i Hi.
  destruct (P_QRun.nth_error_some Hi) as [a Ha]. destruct (U i a Ha) as (b & Hb & _ & Eb & _).
  destruct HR as (_ & _ & A & _). destruct (A i a Ha) as (a' & Ha' & _). destruct (U' _ a' Ha') as (b' & Hb' & _ & Eb' & _).
  unfold nbrs_at. rewrite Hb, Hb', Eb, Eb'. exact (W i Hi).
Qed.
Print Assumptions C80_order_double.

(** Three atoms; then in the opposite order and moved by (2, 5, 18). *)
Definition three (N : num) (ps : list (Z * Z * Z)) : sys N :=
  set_atoms (sbox (sys_ctor (raw_sys N)) (diag (nofZ 20) (nofZ 20) (nofZ 20)))
    (map (fun q => let '(x, y, z) := q in atom_ctor (raw_atom N) (zv N x y z) 1 1) ps).
Definition three_a (N : num) : sys N := three N [(1, 0, 0); (3, 1, 0); (6, 0, 2)]%Z.
Definition three_b (N : num) : sys N := three N [(8, 5, 20); (5, 6, 18); (3, 5, 18)]%Z.
Definition three_c (N : num) : sys N := three N [(6, 0, 2); (3, 1, 0); (1, 0, 0)]%Z.
Lemma within_short (N : num) (s : sys N) r f i : length (neighbors_within s r f i) <= length (s_atoms s).
Proof.
  rewrite <- (map_length (@nb_idx N)), map_nb_idx_within. set (g := fun _ : nat => _).
  rewrite <- (seq_length (length (s_atoms s)) 0) at 2. generalize (seq 0 (length (s_atoms s))). intros l.
  induction l as [|x l IH]; [apply le_n|]. cbn [filter length]. destruct (g x); cbn [length]; lia.
Qed.
Lemma three_nth (N : num) ps i a : nth_error (s_atoms (three N ps)) i = Some a ->
  exists x y z, nth_error ps i = Some (x, y, z) /\ a_pos a = zv N x y z /\ a_type a = 1%Z /\ q_arrays a.
Proof.
  intros H. change (s_atoms (three N ps)) with (map (fun q : Z * Z * Z => let '(x, y, z) := q in atom_ctor (raw_atom N) (zv N x y z) 1 1) ps) in H.
  rewrite nth_error_map in H. destruct (nth_error ps i) as [[[x y] z]|]; [|discriminate]. injection H as <-.
  exists x, y, z. split; [reflexivity|]. split; [reflexivity|]. split; [reflexivity|]. repeat split; repeat constructor.
Qed.
Lemma three_some (N : num) ps i x y z : nth_error ps i = Some (x, y, z) ->
  exists a, nth_error (s_atoms (three N ps)) i = Some a.
Proof.
  intros H. change (s_atoms (three N ps)) with (map (fun q : Z * Z * Z => let '(x, y, z) := q in atom_ctor (raw_atom N) (zv N x y z) 1 1) ps).
  rewrite nth_error_map, H. eexists. reflexivity.
Qed.
Lemma three_arrays (N : num) ps a : In a (s_atoms (three N ps)) -> q_arrays a.
Proof. intros H. apply In_nth_error in H as (i & H). now destruct (three_nth N ps i a H) as (x & y & z & _ & _ & _ & Q). Qed.
Lemma three_length (N : num) ps : length (s_atoms (three N ps)) = length ps.
Proof. apply map_length. Qed.
Lemma three_stored (N : num) ps : stored (three N ps).
Proof. reflexivity. Qed.
Lemma three_len ps : s_len (three Rnum ps) = mkV (N := Rnum) 20%R 20%R 20%R.
Proof. change (s_len (three Rnum ps)) with (sbox_len (diag (N := Rnum) 20%R 20%R 20%R)). apply diag_len; lra. Qed.
Lemma three_pbc (N : num) ps v w : distance_vector (three N ps) v w = wrap (s_len (three N ps)) (vsub v w).
Proof. assert (T : s_tri (three N ps) = false) by reflexivity. unfold distance_vector, pbc_diff. rewrite T. reflexivity. Qed.
Lemma three_real (N : num) ps : s_real (three N ps) = Z.of_nat (length (filter (@is_real N) (s_atoms (three N ps)))).
Proof. reflexivity. Qed.
Lemma three_few (N : num) ps : length ps <= 3 -> (s_real (three N ps) <= 2300)%Z.
Proof.
  intros H. rewrite three_real. assert (G : forall l : list (atom N), length (filter (@is_real N) l) <= length l).
  { induction l as [|a l IH]; [apply le_n|]. cbn [filter]. destruct (is_real a); cbn [length]; lia. }
  specialize (G (s_atoms (three N ps))). rewrite three_length in G. lia.
Qed.
Lemma three_rearranged (N : num) move ps ps' p : length ps' = length ps ->
  (forall i j, i < length ps -> j < length ps -> p i = p j -> i = j) ->
  (forall i x y z, nth_error ps i = Some (x, y, z) -> exists x' y' z', nth_error ps' (p i) = Some (x', y', z') /\
     zv N x' y' z' = move (zv N x y z)) -> rearranged move p (three N ps) (three N ps').
Proof.
  intros L I M. split; [rewrite !three_length; exact L|]. split; [rewrite three_length; exact I|]. split; [|repeat split].
  intros i a Ha. destruct (three_nth N ps i a Ha) as (x & y & z & E & P & T & _).
  destruct (M i x y z E) as (x' & y' & z' & E' & V). destruct (three_some N ps' (p i) x' y' z' E') as (a' & Ha').
  exists a'. split; [exact Ha'|]. destruct (three_nth N ps' (p i) a' Ha') as (x2 & y2 & z2 & E2 & P2 & T2 & _).
  rewrite E' in E2. injection E2 as <- <- <-. rewrite P, P2, T, T2. auto.
Qed.
Example C80_hyp : rearranged (N := Rnum) (fun v => vadd v (zv Rnum 2 5 18)) (fun i => 2 - i) (three_a Rnum) (three_b Rnum) /\
  nonneg3 (s_len (three_a Rnum)) /\ stored (three_a Rnum) /\ stored (three_b Rnum) /\
  (s_real (three_a Rnum) <= 2300)%Z /\ (s_real (three_b Rnum) <= 2300)%Z /\
  (forall r f i, i < length (s_atoms (three_a Rnum)) -> length (neighbors_within (three_a Rnum) r f i) <= 300) /\
  (forall a, In a (s_atoms (three_a Rnum)) -> q_arrays a) /\ (forall a, In a (s_atoms (three_b Rnum)) -> q_arrays a) /\
  (forall i j a b, i <> j -> nth_error (s_atoms (three_a Rnum)) i = Some a -> nth_error (s_atoms (three_a Rnum)) j = Some b ->
     nonzero (distance_vector (three_a Rnum) (a_pos a) (a_pos b))).
Proof.
  unfold three_a, three_b.
  split; [|split; [|split; [|split; [|split; [|split; [|split; [|split; [|split]]]]]]]].
  - apply three_rearranged; [reflexivity|cbn [length]; lia|].
    assert (G : forall x y z : Z, vadd (zv Rnum x y z) (zv Rnum 2 5 18) = zv Rnum (x + 2) (y + 5) (z + 18)).
    { intros x y z. unfold vadd, zv. cbn [vx vy vz nofZ nadd Rnum]. f_equal; symmetry; apply plus_IZR. }
    intros i x y z E. destruct i as [|[|[|i]]]; [..|destruct i; discriminate]; injection E as <- <- <-;
      rewrite G; do 3 eexists; (split; [reflexivity|reflexivity]).
  - rewrite three_len. repeat split; cbn; lra.
  - apply three_stored.
  - apply three_stored.
  - apply three_few. cbn [length]. lia.
  - apply three_few. cbn [length]. lia.
  - intros r f i _. eapply Nat.le_trans; [apply within_short|]. rewrite three_length. cbn [length]. lia.
  - apply three_arrays.
  - apply three_arrays.
  - intros i j a b Hij Ha Hb (H & _). apply three_nth in Ha as (x & y & z & E & P & _). apply three_nth in Hb as (x' & y' & z' & E' & P' & _).
    rewrite P, P' in H. clear P P'.
    assert (W : wrap1 (N := Rnum) 20%R (IZR x - IZR x')%R = 0%R).
    { rewrite three_pbc, three_len in H. exact H. }
    assert (x <> x' /\ (-10 < x - x' < 10)%Z) as [NE B].
    { destruct i as [|[|[|i]]]; [..|destruct i; discriminate]; (destruct j as [|[|[|j]]]; [..|destruct j; discriminate]);
        try (now elim Hij); injection E as <- <- <-; injection E' as <- <- <-; lia. }
    assert (NR : (IZR x - IZR x' <> 0)%R) by (rewrite <- minus_IZR; apply not_0_IZR; lia).
    assert (BR : (-10 < IZR x - IZR x' < 10)%R) by (rewrite <- minus_IZR; split; apply IZR_lt; lia).
    destruct (wrap1_cases 20 (IZR x - IZR x')) as [[G [[G1 F]|[G1 F]]]|[G [[G1 F]|[G1 F]]]]; rewrite W in F; lra.
Qed.
Example C80_order_hyp : rearranged (N := F64) (fun v => v) (fun i => 2 - i) (three_a F64) (three_c F64) /\
  double_box (lib := libm_test) (three_a F64) /\ double_atoms (lib := libm_test) (three_a F64) /\
  stored (three_a F64) /\ stored (three_c F64).
Proof.
  split; [|split; [|split; [|split]]]; [|repeat split; vm_compute; reflexivity|..|reflexivity|reflexivity].
  - apply three_rearranged; [reflexivity|cbn [length]; lia|]. intros i x y z E.
    destruct i as [|[|[|i]]]; [..|destruct i; discriminate]; injection E as <- <- <-; do 3 eexists; (split; reflexivity).
  - intros a Ha. simpl in Ha. repeat destruct Ha as [<-|Ha]; [..|destruct Ha]; repeat split; vm_compute; reflexivity.
Qed.
(** The lists of the two orders with a cutoff of 3. *)
Example C80_runs :
  lists (run (three_a F64) (mkArgs (N := F64) (MCutoff (CutVal (N := F64) (nofZ 3))) FNone n2 n1 6)) = Some ([[1]; [0]; []], true, None) /\
  lists (run (three_c F64) (mkArgs (N := F64) (MCutoff (CutVal (N := F64) (nofZ 3))) FNone n2 n1 6)) = Some ([[]; [2]; [1]], true, None).
Proof. split; vm_compute; reflexivity. Qed.
