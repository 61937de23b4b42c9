(** C81: the copies a small system is padded with make the cutoff method find
    the neighbours of the infinite periodic arrangement. *)
From Coq Require Import Reals ZArith List Lia Lra Permutation.
From Verif Require Import Base Num NumR NumF NumP Types M_Geometry M_Container M_Neighbors
  S_Geometry S_Container S_Neighbors S_Periodic Ex P_Geometry P_Box P_Container P_Neighbors P_QRun P_Same P_FindN P_Periodic C_Neighbors.
Import ListNotations.
Close Scope R_scope. Close Scope Z_scope.
#[local] Open Scope nat_scope.

(** A list of 1 to 199 real atoms inside a box with sides x, y, z, assigned to
    a system with that box.  Any cutoff of at most half the padded box finds, for
    every stored atom, exactly the sites of the periodic arrangement closer than
    it, each once, with the distance and the vector to that site. *)
Theorem C81_images : forall (inv : m3 Rnum -> option (m3 Rnum)) raw (s s1 s2 : sys Rnum) (x y z : R) (l : list (atom Rnum)),
  s_tri s = false -> s_actual s = None -> (0 < x /\ 0 < y /\ 0 < z)%R ->
  box_set inv s (diag (N := Rnum) x y z) = Ok s1 ->
  all_real l -> (forall a, In a l -> in_box (mkV (N := Rnum) x y z) (a_pos a)) -> 1 <= length l < 200 ->
  atoms_set inv raw s1 l = Ok s2 ->
  exists K W, (1 <= K)%Z /\ Z.of_nat (length (s_atoms s2)) = ((2 * K + 1) ^ 3 * Z.of_nat (length l))%Z /\
    (forall i, i < length l -> W i = origin i) /\
    (forall i a, nth_error (s_atoms s2) i = Some a ->
       fst (W i) < length l /\ a_pos a = site_pos (mkV (N := Rnum) x y z) l (W i) /\ a_type a = site_type l (W i)) /\
    forall srt voro area_pow inv' s3 (r t pad : R) nl f e, r <> 0%R ->
      (2 * r <= IZR (2 * K + 1) * x /\ 2 * r <= IZR (2 * K + 1) * y /\ 2 * r <= IZR (2 * K + 1) * z)%R ->
      find_neighbors srt voro area_pow inv' s2 (mkArgs (N := Rnum) (MCutoff (CutVal (N := Rnum) r)) f t pad nl) = Ok (s3, e) ->
      forall i, i < length (s_atoms s2) -> exists ks,
        shell (mkV (N := Rnum) x y z) l f r (W i) ks /\
        Forall2 (fun q' e => stands_for (mkV (N := Rnum) x y z) l (W i) q' e /\
                   nb_idx e < length (s_atoms s2) /\ fst (W (nb_idx e)) = fst q') ks (nbrs_at s3 i).
Proof.
  intros inv raw s s1 s2 x y z l Ht Hac Hp E1 Hreal Hin Hl E2.
  destruct (padded Ht Hac Hp E1 Hreal Hl E2) as (K & W & K1 & Ln & St & Hr & T2 & L2 & W0 & HW & Hinj & Hall).
  exists K, W. split; [exact K1|]. split; [exact Ln|]. split; [exact W0|]. split.
  { intros i a Ha. destruct (HW i a Ha) as (Ko & Pa & Ta). split; [|auto]. destruct (W i) as [m [[p q] c]]. exact (proj1 Ko). }
  intros srt voro area_pow inv' s3 r t pad nl f e R0 R1 E3 i Hi.
  assert (Hr0 : neqb (n := Rnum) r n0 = false) by (apply Reqb_false; exact R0).
  assert (Hs : (s_real s2 <= 2300)%Z) by lia.
  rewrite (cutoff_lists St Hs Hr0 E3 Hi).
  assert (K0 : (0 <= K)%Z) by lia.
  exact (torus_shell f Hp K0 T2 L2 Hin HW Hinj Hall R1 Hi).
Qed.
Print Assumptions C81_images.

(** There is always room for one and a half box sides: K is at least one. *)
Lemma three_halves (K : Z) (x : R) : (1 <= K)%Z -> (0 < x)%R -> (3 * x <= IZR (2 * K + 1) * x)%R.
Proof. intros H Hx. assert (3 <= IZR (2 * K + 1))%R by (apply IZR_le; lia). nra. Qed.

(** A copy has the neighbours of its original: the same distances and vectors. *)
Theorem C81_copies : forall (inv : m3 Rnum -> option (m3 Rnum)) raw (s s1 s2 s3 : sys Rnum) (x y z : R) (l : list (atom Rnum))
    srt voro area_pow inv' (r t pad : R) nl f e,
  s_tri s = false -> s_actual s = None -> (0 < x /\ 0 < y /\ 0 < z)%R ->
  box_set inv s (diag (N := Rnum) x y z) = Ok s1 ->
  all_real l -> (forall a, In a l -> in_box (mkV (N := Rnum) x y z) (a_pos a)) -> 1 <= length l < 200 ->
  atoms_set inv raw s1 l = Ok s2 ->
  r <> 0%R -> (2 * r <= 3 * x /\ 2 * r <= 3 * y /\ 2 * r <= 3 * z)%R ->
  find_neighbors srt voro area_pow inv' s2 (mkArgs (N := Rnum) (MCutoff (CutVal (N := Rnum) r)) f t pad nl) = Ok (s3, e) ->
  forall i a, nth_error (s_atoms s2) i = Some a ->
  exists j cell, j < length l /\ a_pos a = site_pos (mkV (N := Rnum) x y z) l (j, cell) /\
    Permutation (map (fun e => (nb_dist e, nb_weight e, nb_vec e)) (nbrs_at s3 i))
                (map (fun e => (nb_dist e, nb_weight e, nb_vec e)) (nbrs_at s3 j)).
Proof.
  intros inv raw s s1 s2 s3 x y z l srt voro area_pow inv' r t pad nl f e Ht Hac Hp E1 Hreal Hin Hl E2 R0 R1 E3 i a Ha.
  destruct (C81_images inv raw s s1 s2 x y z l Ht Hac Hp E1 Hreal Hin Hl E2) as (K & W & K1 & Ln & W0 & HW & H).
  destruct (HW i a Ha) as (Bi & Pa & _). assert (Hi : i < length (s_atoms s2)) by (apply nth_error_Some; congruence).
  assert (R2 : (2 * r <= IZR (2 * K + 1) * x /\ 2 * r <= IZR (2 * K + 1) * y /\ 2 * r <= IZR (2 * K + 1) * z)%R).
  { destruct Hp as (X & Y & Z0), R1 as (A & B & C). pose proof (three_halves K x K1 X). pose proof (three_halves K y K1 Y). pose proof (three_halves K z K1 Z0). lra. }
  assert (Hj : fst (W i) < length (s_atoms s2)).
  { assert (1 <= (2 * K + 1) ^ 3)%Z by nia. apply Nat2Z.inj_lt. rewrite Ln. nia. }
  destruct (H srt voro area_pow inv' s3 r t pad nl f e R0 R2 E3 i Hi) as (ks & S1 & F1).
  destruct (H srt voro area_pow inv' s3 r t pad nl f e R0 R2 E3 (fst (W i)) Hj) as (ks' & S2 & F2).
  rewrite (W0 _ Bi) in S2, F2. exists (fst (W i)), (snd (W i)). split; [exact Bi|]. split; [rewrite <- surjective_pairing; exact Pa|].
  set (L := mkV (N := Rnum) x y z) in *.
  assert (M : W i = moved (snd (W i)) (origin (fst (W i)))).
  { destruct (W i) as [m [[p q] c]]. reflexivity. }
  assert (V : forall q ks es, Forall2 (fun q' e => stands_for L l q q' e /\ nb_idx e < length (s_atoms s2) /\ fst (W (nb_idx e)) = fst q') ks es ->
     map (fun e => (nb_dist e, nb_weight e, nb_vec e)) es = map (fun q' => (far L l q q' : Rnum, 1%R : Rnum, apart L l q q')) ks).
  { intros q ks0 es F. induction F as [|q' e0 ks0 es ((D & V & Wt) & _) F IH]; [reflexivity|]. cbn [map]. rewrite IH, D, V, Wt. reflexivity. }
  rewrite (V _ _ _ F1), (V _ _ _ F2). rewrite M in S1. pose proof (shell_moved (q := origin (fst (W i))) Bi S2 S1) as PP.
  rewrite (Permutation_map _ PP), map_map.
  assert (EQ : map (fun x0 => (far L l (W i) (moved (snd (W i)) x0) : Rnum, 1%R : Rnum, apart L l (W i) (moved (snd (W i)) x0))) ks' =
          map (fun q' => (far L l (origin (fst (W i))) q' : Rnum, 1%R : Rnum, apart L l (origin (fst (W i))) q')) ks').
  { apply map_ext_in. intros q' Hq'. apply S2 in Hq' as (B & _). 
    assert (AA : apart L l (W i) (moved (snd (W i)) q') = apart L l (origin (fst (W i))) q').
    { rewrite <- (moved_apart L (snd (W i)) (q := origin (fst (W i))) (q' := q') Bi B). exact (f_equal (fun w => apart L l w (moved (snd (W i)) q')) M). }
    unfold far. rewrite AA. reflexivity. }
  rewrite EQ. reflexivity.
Qed.
Print Assumptions C81_copies.

(** A larger cutoff finds no more than one image of each stored atom: nothing
    beyond half the padded box along any axis is ever listed. *)
Theorem C81_half_box : forall (inv : m3 Rnum -> option (m3 Rnum)) raw (s s1 s2 s3 : sys Rnum) (x y z : R) (l : list (atom Rnum))
    srt voro area_pow inv' (r t pad : R) nl f e,
  s_tri s = false -> s_actual s = None -> (0 < x /\ 0 < y /\ 0 < z)%R ->
  box_set inv s (diag (N := Rnum) x y z) = Ok s1 ->
  all_real l -> (forall a, In a l -> in_box (mkV (N := Rnum) x y z) (a_pos a)) -> 1 <= length l < 200 ->
  atoms_set inv raw s1 l = Ok s2 -> r <> 0%R ->
  find_neighbors srt voro area_pow inv' s2 (mkArgs (N := Rnum) (MCutoff (CutVal (N := Rnum) r)) f t pad nl) = Ok (s3, e) ->
  exists K, Z.of_nat (length (s_atoms s2)) = ((2 * K + 1) ^ 3 * Z.of_nat (length l))%Z /\ (1 <= K)%Z /\
    forall i e, i < length (s_atoms s2) -> In e (nbrs_at s3 i) ->
      (- (IZR (2 * K + 1) * x) / 2 <= vx (nb_vec e) <= IZR (2 * K + 1) * x / 2 /\
       - (IZR (2 * K + 1) * y) / 2 <= vy (nb_vec e) <= IZR (2 * K + 1) * y / 2 /\
       - (IZR (2 * K + 1) * z) / 2 <= vz (nb_vec e) <= IZR (2 * K + 1) * z / 2)%R.
Proof.
  intros inv raw s s1 s2 s3 x y z l srt voro area_pow inv' r t pad nl f e Ht Hac Hp E1 Hreal Hin Hl E2 R0 E3.
  destruct (padded Ht Hac Hp E1 Hreal Hl E2) as (K & W & K1 & Ln & St & Hr & T2 & L2 & W0 & HW & Hinj & Hall).
  exists K. split; [exact Ln|]. split; [exact K1|]. intros i e0 Hi He.
  assert (Hr0 : neqb (n := Rnum) r n0 = false) by (apply Reqb_false; exact R0).
  assert (Hs : (s_real s2 <= 2300)%Z) by lia.
  rewrite (cutoff_lists St Hs Hr0 E3 Hi) in He. apply In_neighbors_within in He as (Lk & _).
  destruct (link_idx Lk) as (_ & _ & NE & _ & Bj). assert (K0 : (0 <= K)%Z) by lia.
  destruct (link_site Hp K0 T2 L2 Hin HW Hi Bj NE) as (t0 & E & B). rewrite Lk in E.
  assert (EV : nb_vec e0 = apart (mkV (N := Rnum) x y z) l (W i) (period K (W (nb_idx e0)) t0)) by (injection E as E'; exact (f_equal (@nb_vec Rnum) E')).
  rewrite EV. exact B.
Qed.
Print Assumptions C81_half_box.

(** ** One atom in a box of 1 x 10 x 10 *)
Definition thin_box : m3 Rnum := diag (N := Rnum) 1%R 10%R 10%R.
Definition thin_atom : atom Rnum := atom_ctor (raw_atom Rnum) (mkV (N := Rnum) 0%R 0%R 0%R) 1 1.
Lemma thin_real : all_real [thin_atom].
Proof. intros a [<-|[]]. reflexivity. Qed.
Lemma thin_in a : In a [thin_atom] -> in_box (mkV (N := Rnum) 1%R 10%R 10%R) (a_pos a).
Proof. intros [<-|[]]. unfold in_box, thin_atom, atom_ctor. cbn. repeat split; lra. Qed.
Lemma thin_set inv raw (s : sys Rnum) : s_actual s = None ->
  exists s2, atoms_set inv raw (sbox s thin_box) [thin_atom] = Ok s2 /\ length (s_atoms s2) = 343.
Proof.
  intros Hac. assert (E : exists s2, atoms_set inv raw (sbox s thin_box) [thin_atom] = Ok s2).
  { assert (BG : box_get (sbox s thin_box) = thin_box) by (unfold box_get; cbn; rewrite Hac; reflexivity).
    unfold atoms_set. cbn [length Z.of_nat Pos.of_succ_nat Z.ltb Z.compare Pos.compare Pos.compare_cont Z.eqb]. rewrite BG.
    assert (B0 : neqb (box_sum thin_box) n0 = false).
    { unfold thin_box, box_sum, diag; cbn [r0 r1 r2 vx vy vz]; rnum. apply Reqb_false. lra. }
    rewrite B0. unfold repeat_cell. cbn [bind]. rewrite BG. unfold thin_box. rewrite P_CrystalSys.scale_diag, box_set_diag. cbn [bind]. eexists. reflexivity. }
  destruct E as [s2 E]. exists s2. split; [exact E|]. destruct (atoms_set_spec thin_real E) as (gh & A1 & _ & _ & _ & _ & _ & A7).
  cbn [length Z.of_nat Pos.of_succ_nat Z.ltb Z.compare Pos.compare Pos.compare_cont] in A7. destruct A7 as [A7 _].
  rewrite A1, app_length, A7. reflexivity.
Qed.
(** No atom of it has more than seven entries. *)
Lemma thin_few inv raw (s s2 : sys Rnum) (r : R) f : s_tri s = false -> s_actual s = None ->
  atoms_set inv raw (sbox s thin_box) [thin_atom] = Ok s2 -> (r <= 5)%R ->
  stored s2 /\ s_real s2 = 1%Z /\ forall i, i < length (s_atoms s2) -> length (neighbors_within s2 r f i) <= 49.
Proof.
  intros Ht Hac E2 Hr5. destruct (thin_set inv raw s Hac) as (s2' & E & L3). rewrite E2 in E. injection E as <-.
  destruct (@padded inv raw s (sbox s thin_box) s2 1%R 10%R 10%R [thin_atom] Ht Hac ltac:(lra) (box_set_diag _ _ _ _ _) thin_real ltac:(cbn; lia) E2)
    as (K & W & K1 & Ln & St & Hr & T2 & L2 & W0 & HW & Hinj & Hall).
  split; [exact St|]. split; [exact Hr|].
  assert (K = 3%Z) as ->.
  { rewrite L3 in Ln. change (Z.of_nat 343) with 343%Z in Ln. cbn [length Z.of_nat Pos.of_succ_nat] in Ln.
    assert (((2 * K + 1) * (2 * K + 1) * (2 * K + 1) = 343)%Z) by lia. nia. }
  intros i Hi.
  pose (code := fun q : site => let '(_, (a, _, _)) := q in a).
  assert (G : forall e, In e (neighbors_within s2 r f i) -> nb_idx e < length (s_atoms s2) /\
      exists a, (-3 <= a <= 3)%Z /\ W (nb_idx e) = (0, (a, snd (fst (snd (W i))), snd (snd (W i))))).
  { intros e He. apply In_neighbors_within in He as (Lk & C & _). destruct (link_idx Lk) as (_ & _ & NE & _ & Bj). split; [exact Bj|].
    destruct (@link_site s2 1%R 10%R 10%R 3%Z [thin_atom] W ltac:(lra) ltac:(lia) T2 L2 thin_in HW i (nb_idx e) Hi Bj NE) as (t & E & _).
    rewrite Lk in E. assert (D : nb_dist e = far (mkV (N := Rnum) 1%R 10%R 10%R) [thin_atom] (W i) (period 3 (W (nb_idx e)) t)) by (injection E as E'; exact (f_equal (@nb_dist Rnum) E')).
    rewrite D in C. apply Rltb_true in C. apply eucl_bound in C.
    destruct (@P_QRun.nth_error_some _ (s_atoms s2) i Hi) as [a0 Ha0]. destruct (@P_QRun.nth_error_some _ (s_atoms s2) _ Bj) as [b0 Hb0].
    destruct (HW _ _ Ha0) as (Ka & _). destruct (HW _ _ Hb0) as (Kb & _).
    destruct (W i) as [m [[a b] c]], (W (nb_idx e)) as [m' [[a' b'] c']], t as [[k1 k2] k3].
    destruct Ka as (Hm & A1 & A2 & A3), Kb as (Hm' & B1 & B2 & B3). cbn [length] in Hm, Hm'. assert (m = 0) as -> by lia. assert (m' = 0) as -> by lia.
    unfold apart, site_pos, period, thin_atom, atom_ctor in C. cbn [nth_error a_pos vx vy vz] in C. destruct C as (_ & C2 & C3).
    exists a'. split; [exact B1|]. cbn [fst snd].
    assert (X : forall u v : R, (- r < (0 + u * 10) - (0 + v * 10) < r -> -1 < u - v < 1)%R) by (intros; lra).
    apply X in C2, C3. rewrite <- minus_IZR in C2, C3. destruct C2 as [C2 C2'], C3 as [C3 C3']. apply lt_IZR in C2, C2', C3, C3'.
    assert (b' = b) as -> by lia. assert (c' = c) as -> by lia. reflexivity. }
  assert (Inc : length (neighbors_within s2 r f i) <= length [-3; -2; -1; 0; 1; 2; 3]%Z).
  { rewrite <- (map_length (fun e => code (W (nb_idx e)))). apply NoDup_incl_length.
    - pose proof (NoDup_within s2 r f i) as ND. revert ND G. generalize (neighbors_within s2 r f i) as es.
      induction es as [|e es IH]; intros ND G; [constructor|]. cbn [map] in *. inversion ND as [|? ? N1 N2]; subst. constructor.
      + intros C. apply in_map_iff in C as (e' & Ec & He'). destruct (G e (or_introl eq_refl)) as (Be & a & _ & Wa).
        destruct (G e' (or_intror He')) as (Be' & a' & _ & Wa'). rewrite Wa, Wa' in Ec. cbn in Ec. subst a'.
        apply N1. apply in_map_iff. exists e'. split; [|exact He']. apply Hinj; auto. congruence.
      + apply IH; [exact N2|]. intros e' He'. apply G. now right.
    - intros c Hc. apply in_map_iff in Hc as (e & <- & He). destruct (G e He) as (_ & a & Ba & ->). cbn [code]. cbn. lia. }
  cbn [length] in Inc. lia.
Qed.

(** With a cutoff beyond half the padded box the search succeeds and misses a
    neighbour: here the fourth image along the short side, at distance 4. *)
Theorem C81_large_cutoff_refuted : exists (x y z r : R) (l : list (atom Rnum)),
  (0 < x /\ 0 < y /\ 0 < z)%R /\ all_real l /\ (forall a, In a l -> in_box (mkV (N := Rnum) x y z) (a_pos a)) /\ 1 <= length l < 200 /\
  forall (inv : m3 Rnum -> option (m3 Rnum)) raw mem srt voro area_pow inv' t pad nl, exists s1 s2 s3,
    box_set inv (sys_ctor mem) (diag (N := Rnum) x y z) = Ok s1 /\ atoms_set inv raw s1 l = Ok s2 /\
    find_neighbors srt voro area_pow inv' s2 (mkArgs (N := Rnum) (MCutoff (CutVal (N := Rnum) r)) FNone t pad nl) = Ok (s3, None) /\
    exists q', fst q' < length l /\ q' <> origin 0 /\ (far (mkV (N := Rnum) x y z) l (origin 0) q' < r)%R /\
      forall e, In e (nbrs_at s3 0) -> ~ stands_for (mkV (N := Rnum) x y z) l (origin 0) q' e.
Proof.
  exists 1%R, 10%R, 10%R, 5%R, [thin_atom]. split; [lra|]. split; [exact thin_real|]. split; [exact thin_in|]. split; [cbn; lia|].
  intros. destruct (thin_set inv raw (sys_ctor mem) eq_refl) as (s2 & E2 & L3).
  destruct (thin_few inv raw (sys_ctor mem) s2 5%R FNone eq_refl eq_refl E2 ltac:(lra)) as (St & Hre & Few).
  assert (R0 : neqb (n := Rnum) (5%R : Rnum) n0 = false) by (apply Reqb_false; cbn; lra).
  destruct (@cutoff_run Rnum srt voro area_pow inv' s2 (5%R : Rnum) t pad nl FNone St ltac:(lia) R0) as (s3 & E3 & _).
  { intros i Hi. specialize (Few i Hi). lia. }
  exists (sbox (sys_ctor mem) thin_box), s2, s3. split; [apply box_set_diag|]. split; [exact E2|]. split; [exact E3|].
  exists (0, (4, 0, 0)%Z). split; [cbn; lia|]. split; [intros C; discriminate C|]. split.
  - unfold far, apart, site_pos, origin, thin_atom, atom_ctor. cbn [nth_error a_pos vx vy vz].
    match goal with |- (eucl ?a ?b ?c < 5)%R => replace (eucl a b c) with 4%R; [lra|] end.
    unfold eucl, len2. match goal with |- _ = sqrt ?u => replace u with (4 * 4)%R by ring end. rewrite sqrt_square; lra.
  - intros e He (_ & V & _).
    destruct (C81_half_box inv raw (sys_ctor mem) (sbox (sys_ctor mem) thin_box) s2 s3 1%R 10%R 10%R [thin_atom] srt voro area_pow inv' 5%R t pad nl FNone None
      eq_refl eq_refl ltac:(lra) (box_set_diag _ _ _ _ _) thin_real thin_in ltac:(cbn; lia) E2 ltac:(lra) E3) as (K & LK & K1 & H).
    rewrite L3 in LK. change (Z.of_nat 343) with 343%Z in LK. cbn [length Z.of_nat Pos.of_succ_nat] in LK.
    assert (K = 3%Z) as -> by (assert (((2 * K + 1) * (2 * K + 1) * (2 * K + 1) = 343)%Z) by lia; nia).
    destruct (H 0 e ltac:(lia) He) as (B & _). rewrite V in B. unfold apart, site_pos, origin, thin_atom, atom_ctor in B. cbn [nth_error a_pos vx vy vz] in B. change (2 * 3 + 1)%Z with 7%Z in B. lra.
Qed.
Print Assumptions C81_large_cutoff_refuted.

(** The hypotheses of the theorems met by runs that succeed: cutoffs up to 7/2
    are at most half the padded sides 7, 70 and 70, cutoffs up to 3/2 also at
    most one and a half of the sides 1, 10 and 10. *)
Example C81_hyp : forall (inv : m3 Rnum -> option (m3 Rnum)) raw mem srt voro area_pow inv' t pad nl (r : R), (0 < r <= 5)%R ->
  exists s1 s2 s3,
    s_tri (sys_ctor mem) = false /\ s_actual (sys_ctor mem) = None /\
    box_set inv (sys_ctor mem) thin_box = Ok s1 /\ atoms_set inv raw s1 [thin_atom] = Ok s2 /\
    find_neighbors srt voro area_pow inv' s2 (mkArgs (N := Rnum) (MCutoff (CutVal (N := Rnum) r)) FNone t pad nl) = Ok (s3, None).
Proof.
  intros. destruct (thin_set inv raw (sys_ctor mem) eq_refl) as (s2 & E2 & L3).
  destruct (thin_few inv raw (sys_ctor mem) s2 r FNone eq_refl eq_refl E2 ltac:(lra)) as (St & Hre & Few).
  assert (R0 : neqb (n := Rnum) (r : Rnum) n0 = false) by (apply Reqb_false; cbn; lra).
  destruct (@cutoff_run Rnum srt voro area_pow inv' s2 (r : Rnum) t pad nl FNone St ltac:(lia) R0) as (s3 & E3 & _).
  { intros i Hi. specialize (Few i Hi). lia. }
  exists (sbox (sys_ctor mem) thin_box), s2, s3. split; [reflexivity|]. split; [reflexivity|]. split; [apply box_set_diag|]. auto.
Qed.

(** The same atom on doubles: how many entries the atom and its last copy have
    with cutoff 5: the images at distance 1, 2 and 3; those at distance 4 are
    missing. *)
Definition thin_run (r : P64) : option (nat * nat) :=
  match box_set (fun _ => None) (sys_ctor (raw_sys P64)) (diag (N := P64) n1 (nofZ 10) (nofZ 10)) with
  | Ok s1 =>
    match atoms_set (fun _ => None) (fun _ => raw_atom P64) s1 [atom_ctor (raw_atom P64) (zv P64 0 0 0) 1 1] with
    | Ok s2 =>
      match find_neighbors (fun l => l) (fun _ => None) (fun a => a) (fun _ => None) s2
              (mkArgs (N := P64) (MCutoff (CutVal (N := P64) r)) FNone n2 n1 6) with
      | Ok (s3, _) => Some (length (nbrs_at s3 0), length (nbrs_at s3 342))
      | Err _ => None end
    | Err _ => None end
  | Err _ => None end.
Example C81_runs : thin_run (nofZ (n := P64) 5) = Some (6, 6).
Proof. vm_compute. reflexivity. Qed.
