(** Steinhardt's parameters of the copies in a padded system. *)
From Coq Require Import Reals ZArith List Lia Lra Permutation.
From Verif Require Import Base Num NumR Types M_Geometry M_Container M_Neighbors M_Steinhardt
  S_Geometry S_Container S_Neighbors S_Steinhardt S_Periodic S_Same Ex P_Geometry P_Box P_Container P_Neighbors P_QRun P_QInv P_QSys P_QHist P_Same P_FindN P_Periodic.
Import ListNotations.
Set Implicit Arguments.
Unset Strict Implicit.
Close Scope R_scope. Close Scope Z_scope.
#[local] Open Scope nat_scope.

Definition add3 (t u : Z * Z * Z) : Z * Z * Z := let '(a, b, c) := t in let '(d, e, f) := u in (a + d, b + e, c + f)%Z.
Definition mul3 (k : Z) (t : Z * Z * Z) : Z * Z * Z := let '(a, b, c) := t in (a * k, b * k, c * k)%Z.
Lemma moved_add t u q : moved t (moved u q) = moved (add3 u t) q.
Proof. destruct q as [i [[a b] c]], t as [[d e] f], u as [[g h] k]. cbn. f_equal. f_equal; [f_equal|]; lia. Qed.
Lemma period_moved K q t : period K q t = moved (mul3 (2 * K + 1) t) q.
Proof. destruct q as [i [[a b] c]], t as [[d e] f]. reflexivity. Qed.
(** The cell of a site, brought between -K and K. *)
Definition red (K m : Z) : Z := ((m + K) mod (2 * K + 1) - K)%Z.
Definition reduced (K : Z) (q : site) : site := let '(i, (a, b, c)) := q in (i, (red K a, red K b, red K c)).
Lemma red_ok K m : (0 <= K)%Z -> (- K <= red K m <= K /\ exists k, red K m = m + k * (2 * K + 1))%Z.
Proof.
  intros H. unfold red. pose proof (Z.mod_pos_bound (m + K) (2 * K + 1) ltac:(lia)). split; [lia|].
  exists (- ((m + K) / (2 * K + 1)))%Z. pose proof (Z.div_mod (m + K) (2 * K + 1) ltac:(lia)). lia.
Qed.
Lemma reduced_ok K l q : (0 <= K)%Z -> fst q < length l -> key_ok K l (reduced K q) /\ exists t, reduced K q = period K q t.
Proof.
  intros H. destruct q as [i [[a b] c]]. cbn [fst reduced key_ok]. intros Hi.
  destruct (red_ok a H) as (A & k1 & E1). destruct (red_ok b H) as (B & k2 & E2). destruct (red_ok c H) as (C & k3 & E3).
  split; [auto|]. exists (k1, k2, k3). cbn. now rewrite E1, E2, E3.
Qed.

Section Move.
Variables (s : sys Rnum) (x y z : R) (K : Z) (l : list (atom Rnum)) (W : nat -> site) (r : R) (f : filt).
Let n := length (s_atoms s).
Let L : v3 Rnum := mkV (N := Rnum) x y z.
Hypothesis Hpos : (0 < x /\ 0 < y /\ 0 < z)%R.
Hypothesis HK : (0 <= K)%Z.
Hypothesis Htri : s_tri s = false.
Hypothesis Hlen : s_len s = mkV (N := Rnum) (IZR (2 * K + 1) * x)%R (IZR (2 * K + 1) * y)%R (IZR (2 * K + 1) * z)%R.
Hypothesis Hin : forall a, In a l -> in_box L (a_pos a).
Hypothesis HW : forall i a, nth_error (s_atoms s) i = Some a -> key_ok K l (W i) /\ a_pos a = site_pos L l (W i) /\ a_type a = site_type l (W i).
Hypothesis Hinj : forall i j, i < n -> j < n -> W i = W j -> i = j.
Hypothesis Hall : forall q, key_ok K l q -> exists i, i < n /\ W i = q.
Hypothesis Hr : (2 * r <= IZR (2 * K + 1) * x /\ 2 * r <= IZR (2 * K + 1) * y /\ 2 * r <= IZR (2 * K + 1) * z)%R.

Lemma fst_W i : i < n -> fst (W i) < length l.
Proof. intros Hi. pose proof (key_at HW Hi) as H. destruct (W i) as [m [[a b] c]]. apply H. Qed.
(** The entries of an atom. *)
Lemma in_within i e : i < n ->
  In e (neighbors_within s r f i) <-> nb_idx e < n /\ nb_idx e <> i /\ exists t,
    e = mkNbr (nb_idx e) (far L l (W i) (period K (W (nb_idx e)) t) : Rnum) (1%R : Rnum) (apart L l (W i) (period K (W (nb_idx e)) t)) /\
    (far L l (W i) (period K (W (nb_idx e)) t) < r)%R /\ allowed f (site_type l (W i)) (site_type l (W (nb_idx e))) = true.
Proof.
  intros Hi. rewrite In_neighbors_within. split.
  - intros (Lk & C & Al). destruct (link_idx Lk) as (_ & _ & NE & _ & Bj). fold n in Bj. split; [exact Bj|]. split; [auto|].
    destruct (link_site Hpos HK Htri Hlen Hin HW Hi Bj NE) as (t & E & _). rewrite Lk in E. exists t.
    assert (E' : e = mkNbr (nb_idx e) (far L l (W i) (period K (W (nb_idx e)) t) : Rnum) (1%R : Rnum) (apart L l (W i) (period K (W (nb_idx e)) t))) by (injection E; auto).
    split; [exact E'|]. pose proof (f_equal (@nb_dist Rnum) E') as D. cbn [nb_dist] in D. rewrite D in C. apply Rltb_true in C. split; [exact C|].
    rewrite (type_site HW Hi), (type_site HW Bj) in Al. exact Al.
  - intros (Bj & NE & t & E & D & Al).
    destruct (link_site Hpos HK Htri Hlen Hin HW Hi Bj (not_eq_sym NE)) as (t' & E' & Bd).
    pose proof (close_one Hpos HK Hr (key_at HW Hi) (key_at HW Bj) D Bd) as <-. rewrite E'.
    split; [f_equal; symmetry; exact E|]. split.
    + rewrite (f_equal (@nb_dist Rnum) E). apply Rltb_true. exact D.
    + rewrite (type_site HW Hi), (type_site HW Bj). exact Al.
Qed.

Lemma site_dec (q q' : site) : {q = q'} + {q <> q'}.
Proof. repeat decide equality. Qed.
(** The number of the stored atom that stands where atom [i] comes to when
    everything is moved by [t] cells. *)
Definition to (t : Z * Z * Z) (i : nat) : nat :=
  match find (fun j => if site_dec (W j) (reduced K (moved t (W i))) then true else false) (seq 0 n) with Some j => j | None => 0 end.
Lemma to_spec t i : i < n -> to t i < n /\ exists u, W (to t i) = moved (add3 t (mul3 (2 * K + 1) u)) (W i).
Proof.
  intros Hi. destruct (@reduced_ok K l (moved t (W i)) HK) as (Ko & u & E); [rewrite moved_fst; now apply fst_W|].
  destruct (Hall Ko) as (j & Hj & Ej). unfold to.
  destruct (find _ (seq 0 n)) as [j'|] eqn:F.
  - apply find_some in F as (Ij & F). apply in_seq in Ij. split; [lia|]. destruct (site_dec _ _) as [Q|]; [|discriminate]. rewrite Q, E.
    exists u. rewrite period_moved, moved_add. reflexivity.
  - exfalso. pose proof (find_none _ _ F j ltac:(apply in_seq; lia)) as Q. cbn beta in Q. destruct (site_dec _ _); [discriminate|contradiction].
Qed.
Lemma moved_same u v q q' : fst q < length l -> fst q' < length l ->
  apart L l (moved u q) (moved (add3 v u) q') = apart L l q (moved v q').
Proof. intros A B. rewrite <- moved_add. apply moved_apart; [exact A|now rewrite moved_fst]. Qed.
Lemma type_moved t q : site_type l (moved t q) = site_type l q.
Proof. unfold site_type. now rewrite moved_fst. Qed.
Lemma to_inj t i j : i < n -> j < n -> to t i = to t j -> i = j.
Proof.
  intros Hi Hj E. destruct (to_spec t Hi) as (_ & u & Eu). destruct (to_spec t Hj) as (_ & v & Ev). rewrite E, Ev in Eu.
  apply Hinj; auto. pose proof (key_at HW Hi) as Ki. pose proof (key_at HW Hj) as Kj.
  destruct (W i) as [m [[a b] c]], (W j) as [m' [[a' b'] c']], t as [[t1 t2] t3], u as [[u1 u2] u3], v as [[v1 v2] v3].
  cbn [moved add3 mul3] in Eu. pose proof (f_equal (fun q : site => fst (fst (snd q))) Eu) as E1. pose proof (f_equal (fun q : site => snd (fst (snd q))) Eu) as E2.
  pose proof (f_equal (fun q : site => snd (snd q)) Eu) as E3. apply (f_equal (@fst nat _)) in Eu. cbn [fst snd] in Eu, E1, E2, E3. subst m'. destruct Ki as (_ & A & B & C), Kj as (_ & A' & B' & C').
  assert (E1' : (a' + v1 * (2 * K + 1) = a + u1 * (2 * K + 1))%Z) by lia. assert (E2' : (b' + v2 * (2 * K + 1) = b + u2 * (2 * K + 1))%Z) by lia.
  assert (E3' : (c' + v3 * (2 * K + 1) = c + u3 * (2 * K + 1))%Z) by lia.
  destruct (centred_one A' A E1') as [-> _]. destruct (centred_one B' B E2') as [-> _]. destruct (centred_one C' C E3') as [-> _]. reflexivity.
Qed.
Lemma moved_entry t i e : i < n -> In e (neighbors_within s r f i) -> In (renamed (to t) e) (neighbors_within s r f (to t i)).
Proof.
  intros Hi He. apply in_within in He as (Bj & NE & v & E & D & Al); [|exact Hi].
  destruct (to_spec t Hi) as (Bi' & u & Eu). destruct (to_spec t Bj) as (Bj' & w & Ew).
  apply in_within; [exact Bi'|]. cbn [renamed nb_idx]. split; [exact Bj'|]. split; [intros C; apply NE; eapply to_inj; eauto|].
  exists (add3 v (add3 u (mul3 (-1) w))).
  assert (S : period K (W (to t (nb_idx e))) (add3 v (add3 u (mul3 (-1) w))) = moved (add3 (mul3 (2 * K + 1) v) (add3 t (mul3 (2 * K + 1) u))) (W (nb_idx e))).
  { rewrite Ew, period_moved, moved_add. f_equal. destruct t as [[t1 t2] t3], u as [[u1 u2] u3], v as [[v1 v2] v3], w as [[w1 w2] w3]. cbn. f_equal; [f_equal|]; ring. }
  assert (A : apart L l (W (to t i)) (period K (W (to t (nb_idx e))) (add3 v (add3 u (mul3 (-1) w)))) = apart L l (W i) (period K (W (nb_idx e)) v)).
  { rewrite S, Eu, period_moved. apply moved_same; now apply fst_W. }
  assert (Fr : far L l (W (to t i)) (period K (W (to t (nb_idx e))) (add3 v (add3 u (mul3 (-1) w)))) = far L l (W i) (period K (W (nb_idx e)) v)).
  { unfold far. now rewrite A. }
  rewrite A, Fr. split; [|split; [exact D|]].
  - unfold renamed. rewrite (f_equal (@nb_dist Rnum) E), (f_equal (@nb_weight Rnum) E), (f_equal (@nb_vec Rnum) E). reflexivity.
  - rewrite Eu, Ew, !type_moved. exact Al.
Qed.
Lemma to_back t i : i < n -> to (back t) (to t i) = i.
Proof.
  intros Hi. destruct (to_spec t Hi) as (Bi & u & Eu). destruct (to_spec (back t) Bi) as (Bi' & v & Ev). apply Hinj; auto.
  rewrite Eu in Ev. pose proof (key_at HW Hi) as Ki. pose proof (key_at HW Bi') as Kb.
  destruct (W (to (back t) (to t i))) as [m' [[a' b'] c']], (W i) as [m [[a b] c]], t as [[t1 t2] t3], u as [[u1 u2] u3], v as [[v1 v2] v3].
  cbn [moved add3 mul3 back] in Ev. pose proof (f_equal (fun q : site => fst (fst (snd q))) Ev) as E1. pose proof (f_equal (fun q : site => snd (fst (snd q))) Ev) as E2.
  pose proof (f_equal (fun q : site => snd (snd q)) Ev) as E3. apply (f_equal (@fst nat _)) in Ev. cbn [fst snd] in Ev, E1, E2, E3. subst m'. destruct Ki as (_ & A & B & C), Kb as (_ & A' & B' & C').
  assert (E1' : (a' + 0 * (2 * K + 1) = a + (u1 + v1) * (2 * K + 1))%Z) by lia. assert (E2' : (b' + 0 * (2 * K + 1) = b + (u2 + v2) * (2 * K + 1))%Z) by lia.
  assert (E3' : (c' + 0 * (2 * K + 1) = c + (u3 + v3) * (2 * K + 1))%Z) by lia.
  destruct (centred_one A' A E1') as [-> _]. destruct (centred_one B' B E2') as [-> _]. destruct (centred_one C' C E3') as [-> _]. reflexivity.
Qed.
Lemma to_copy i j : i < n -> j < n -> W j = origin (fst (W i)) -> to (snd (W i)) j = i.
Proof.
  intros Hi Hj E. destruct (to_spec (snd (W i)) Hj) as (Bi & u & Eu). apply Hinj; auto. rewrite E in Eu.
  pose proof (key_at HW Hi) as Ki. pose proof (key_at HW Bi) as Kb. clear E.
  destruct (W (to (snd (W i)) j)) as [m' [[a' b'] c']], (W i) as [m [[a b] c]], u as [[u1 u2] u3]. unfold origin in Eu. cbn [fst snd moved add3 mul3] in Eu.
  pose proof (f_equal (fun q : site => fst (fst (snd q))) Eu) as E1. pose proof (f_equal (fun q : site => snd (fst (snd q))) Eu) as E2.
  pose proof (f_equal (fun q : site => snd (snd q)) Eu) as E3. apply (f_equal (@fst nat _)) in Eu. cbn [fst snd] in Eu, E1, E2, E3. subst m'.
  destruct Ki as (_ & A & B & C), Kb as (_ & A' & B' & C').
  assert (E1' : (a' + 0 * (2 * K + 1) = a + u1 * (2 * K + 1))%Z) by lia. assert (E2' : (b' + 0 * (2 * K + 1) = b + u2 * (2 * K + 1))%Z) by lia.
  assert (E3' : (c' + 0 * (2 * K + 1) = c + u3 * (2 * K + 1))%Z) by lia.
  destruct (centred_one A' A E1') as [-> _]. destruct (centred_one B' B E2') as [-> _]. destruct (centred_one C' C E3') as [-> _]. reflexivity.
Qed.
Lemma NoDup_renamed t i : i < n -> NoDup (map (renamed (to t)) (neighbors_within s r f i)).
Proof.
  intros Hi. pose proof (NoDup_within s r f i) as ND.
  assert (B : forall e, In e (neighbors_within s r f i) -> nb_idx e < n) by (intros e He; apply in_within in He; tauto).
  revert ND B. generalize (neighbors_within s r f i) as es. induction es as [|e es IH]; intros ND B; [constructor|]. cbn [map] in *.
  inversion ND as [|? ? N1 N2]; subst. constructor.
  - intros C. apply in_map_iff in C as (e' & E & He'). apply N1. apply in_map_iff. exists e'. split; [|exact He'].
    apply (f_equal (@nb_idx Rnum)) in E. cbn in E. apply to_inj in E; [exact E|apply B; now right|apply B; now left].
  - apply IH; [exact N2|]. intros e' He'. apply B. now right.
Qed.
Lemma within_le t i : i < n -> length (neighbors_within s r f i) <= length (neighbors_within s r f (to t i)).
Proof.
  intros Hi. rewrite <- (map_length (renamed (to t))). apply NoDup_incl_length; [now apply NoDup_renamed|].
  intros e He. apply in_map_iff in He as (e0 & <- & He0). now apply moved_entry.
Qed.
Lemma within_moved t i : i < n -> Permutation (neighbors_within s r f (to t i)) (map (renamed (to t)) (neighbors_within s r f i)).
Proof.
  intros Hi. symmetry. apply NoDup_Permutation_bis; [now apply NoDup_renamed| |].
  - rewrite map_length. destruct (to_spec t Hi) as (Bi & _). pose proof (within_le (back t) Bi) as H. rewrite to_back in H by exact Hi. exact H.
  - intros e He. apply in_map_iff in He as (e0 & <- & He0). now apply moved_entry.
Qed.
(** Entries of atoms in different places are not at distance zero. *)
Hypothesis Hdist : forall i j a b, nth_error l i = Some a -> nth_error l j = Some b -> a_pos a = a_pos b -> i = j.
Lemma cell_one (X p p' : R) (k : Z) : (0 <= p < X -> 0 <= p' < X -> p' + IZR k * X - p = 0 -> k = 0%Z /\ p = p')%R.
Proof.
  intros A B E. assert (k = 0%Z) as ->; [|split; [reflexivity|lra]].
  assert (-1 < IZR k < 1)%R as [C1 C2] by (split; nra). apply lt_IZR in C1, C2. lia.
Qed.
Lemma apart_nonzero q q' : fst q < length l -> fst q' < length l -> q <> q' -> nonzero (apart L l q q').
Proof.
  destruct q as [i [[a b] c]], q' as [j [[a' b'] c']]. cbn [fst]. intros Hi Hj NE Z0. apply NE.
  destruct (@P_QRun.nth_error_some _ l i Hi) as [p Ep]. destruct (@P_QRun.nth_error_some _ l j Hj) as [p' Ep'].
  pose proof (Hin (nth_error_In _ _ Ep)) as (Ix & Iy & Iz). pose proof (Hin (nth_error_In _ _ Ep')) as (Jx & Jy & Jz).
  unfold apart, site_pos in Z0. rewrite Ep, Ep' in Z0. cbn [vx vy vz L] in *.
  destruct Z0 as (Z1 & Z2 & Z3).
  destruct (@cell_one x (vx (a_pos p)) (vx (a_pos p')) (a' - a)%Z Ix Jx) as [E1 F1]; [rewrite minus_IZR; cbn in Z1; lra|].
  destruct (@cell_one y (vy (a_pos p)) (vy (a_pos p')) (b' - b)%Z Iy Jy) as [E2 F2]; [rewrite minus_IZR; cbn in Z2; lra|].
  destruct (@cell_one z (vz (a_pos p)) (vz (a_pos p')) (c' - c)%Z Iz Jz) as [E3 F3]; [rewrite minus_IZR; cbn in Z3; lra|].
  assert (i = j) as ->.
  { apply (Hdist Ep Ep'). destruct (a_pos p), (a_pos p'). cbn in *. now subst. }
  f_equal. f_equal; [f_equal|]; lia.
Qed.
Lemma within_nonzero i e : i < n -> In e (neighbors_within s r f i) -> nonzero (nb_vec e).
Proof.
  intros Hi He. apply in_within in He as (Bj & NE & t & E & _); [|exact Hi]. rewrite (f_equal (@nb_vec Rnum) E). cbn [nb_vec].
  apply apart_nonzero; [now apply fst_W|rewrite period_fst; now apply fst_W|].
  intros C. rewrite <- (period_0 K (W i)) in C. apply period_one with (l := l) in C as [C _]; [|now apply (key_at HW)..]. apply NE. symmetry. now apply Hinj.
Qed.
End Move.

(** What a successful cutoff search leaves. *)
Lemma cutoff_done (N : num) srt voro area_pow inv (s u : sys N) (r t pad : N) (nl : Z) (f : filt) er :
  stored s -> (s_real s <= 2300)%Z -> neqb r n0 = false ->
  find_neighbors srt voro area_pow inv s (mkArgs (MCutoff (CutVal r)) f t pad nl) = Ok (u, er) ->
    length (s_atoms u) = length (s_atoms s) /\ s_vorused u = false /\ s_nop u = s_nop s /\
    forall i a, nth_error (s_atoms s) i = Some a ->
      exists a', nth_error (s_atoms u) i = Some a' /\ same_atom a' a /\
        a_nbrs a' = neighbors_within s r f i /\ a_cond a' = 0%Z.
Proof.
  intros St Hs Hr.
  unfold find_neighbors. unfold reset_all_neighbors. rewrite (each_atom_stored _ St). cbn [bind]. cbv zeta.
  cbn [fa_method fa_filter fa_threshold]. rewrite Hr. unfold real_count.
  match goal with |- context [Z.ltb 2300 ?x] => change x with (s_real s) end.
  assert (E : Z.ltb 2300 (s_real s) = false) by (apply Z.ltb_ge; lia). rewrite E.
  pose proof (@normal_spec N s f r St) as H.
  assert (C : match get_all_neighbors_normal (s <| s_atoms := map (@reset_atom_all N) (s_atoms s) |>
          <| s_filter := filter_code f |> <| s_nd := r |>) with
     | Ok u => forall i a', nth_error (s_atoms u) i = Some a' -> a_cond a' = 0%Z | Err _ => True end).
  { unfold get_all_neighbors_normal. change (_ <| s_vorused := false |>) with (prep s f r).
    assert (Hn : Z.to_nat (s_nop (prep s f r)) = length (s_atoms (prep s f r))).
    { simpl. rewrite map_length, St. apply Nat2Z.id. }
    rewrite Hn. pose proof (@fold_add_pair N (prep s f r) _ (s_atoms (prep s f r)) (@pairs_ok _)) as F.
    destruct (foldM _ _ _) as [l'|e]; cbn [bind]; [|exact I]. destruct F as [FL F]. intros i a' Ha'.
    change (nth_error l' i = Some a') in Ha'.
    assert (Hi : i < length (s_atoms (prep s f r))). { rewrite <- FL. apply nth_error_Some. congruence. }
    destruct (@P_QRun.nth_error_some _ _ _ Hi) as [a Ha]. destruct (F i a Ha) as (a2 & E2 & S2 & _). rewrite Ha' in E2. injection E2 as <-.
    simpl in Ha. rewrite nth_error_map in Ha. destruct (nth_error (s_atoms s) i) as [a0|]; [|discriminate]. injection Ha as <-.
    exact (f_equal (@a_cond N) S2). }
  destruct (get_all_neighbors_normal _) as [w|e]; cbn [bind]; [|discriminate].
  destruct H as [[HL H] U]. intros Q. injection Q as <- _. split; [exact HL|]. split; [exact (f_equal (@s_vorused N) U)|]. split; [exact (f_equal (@s_nop N) U)|].
  intros i a Ha. destruct (H i a Ha) as (a' & H1 & H2 & H3 & _). exists a'. split; [exact H1|]. split; [exact H2|]. split; [exact H3|]. exact (C i a' H1).
Qed.

(** The copies of the padding are new atoms: their arrays have full length. *)
Lemma number_arrays (N : num) raw (b : m3 N) g id l a : In a (number_from raw b g id l) -> q_arrays a.
Proof.
  revert id. induction l as [|[t0 a0] l IH]; intros id; [intros []|]. cbn [number_from]. intros [<-|H]; [|eauto].
  unfold copy_atom, q_arrays. destruct g; cbn; repeat split; auto; repeat constructor.
Qed.
Lemma set_arrays (N : num) (inv : m3 N -> option (m3 N)) raw (s1 s2 : sys N) l : 1 <= length l < 200 ->
  atoms_set inv raw s1 l = Ok s2 -> (forall a, In a l -> q_arrays a) -> forall a, In a (s_atoms s2) -> q_arrays a.
Proof.
  intros Hl E Hq a Ha. unfold atoms_set in E. destruct (Z.ltb_spec (Z.of_nat (length l)) 200) as [_|B]; [|lia].
  destruct (Z.eqb_spec (Z.of_nat (length l)) 0) as [B|_]; [lia|]. destruct (neqb _ _); [discriminate|].
  unfold repeat_cell in E. cbn [bind] in E. destruct (box_set _ _ _) as [s3|]; cbn [bind] in E; [|discriminate]. injection E as <-.
  change (In a (l ++ copies raw (box_get s1) true (small_reps (Z.of_nat (length l)), small_reps (Z.of_nat (length l)), small_reps (Z.of_nat (length l))) l)) in Ha.
  apply in_app_or in Ha as [Ha|Ha]; [auto|]. exact (number_arrays Ha).
Qed.

(** ** Shells of all sites *)
Lemma finite_choice (A : Type) (P : nat -> A -> Prop) (d : A) n : (forall i, i < n -> exists x, P i x) -> exists g, forall i, i < n -> P i (g i).
Proof.
  induction n as [|n IH]; intros H; [exists (fun _ => d); lia|].
  destruct IH as [g Hg]; [intros i Hi; apply H; lia|]. destruct (H n ltac:(lia)) as [x Hx].
  exists (fun i => if Nat.eqb i n then x else g i). intros i Hi. destruct (Nat.eqb_spec i n) as [->|NE]; [exact Hx|apply Hg; lia].
Qed.
Lemma moved_cancel t q : moved (back t) (moved t q) = q.
Proof. destruct q as [i [[a b] c]], t as [[d e] g]. cbn. f_equal. f_equal; [f_equal|]; lia. Qed.
Lemma moved_cancel' t q : moved t (moved (back t) q) = q.
Proof. destruct q as [i [[a b] c]], t as [[d e] g]. cbn. f_equal. f_equal; [f_equal|]; lia. Qed.
Lemma shell_shift L l f r t q ks : fst q < length l -> shell L l f r q ks -> shell L l f r (moved t q) (map (moved t) ks).
Proof.
  intros Hq [N1 I1]. split.
  - apply FinFun.Injective_map_NoDup; [|exact N1]. intros u v E. apply (f_equal (moved (back t))) in E. now rewrite !moved_cancel in E.
  - assert (TY : forall q, site_type l (moved t q) = site_type l q) by (intros q0; unfold site_type; now rewrite moved_fst).
    intros q'. split.
    + intros H. apply in_map_iff in H as (q0 & <- & H). apply I1 in H as (A & B & C & D).
      rewrite moved_fst. split; [exact A|]. split; [intros E; apply B; apply (f_equal (moved (back t))) in E; now rewrite !moved_cancel in E|].
      unfold far. rewrite moved_apart by assumption. rewrite !TY. auto.
    + intros (A & B & C & D). apply in_map_iff. exists (moved (back t) q'). split; [apply moved_cancel'|]. apply I1.
      rewrite <- (moved_cancel' t q') in A, B, C, D. rewrite moved_fst in A. rewrite !TY in D. unfold far in C. rewrite moved_apart in C by assumption.
      split; [exact A|]. split; [congruence|]. auto.
Qed.
Lemma all_shells L l f r : (forall i, i < length l -> exists ks, shell L l f r (origin i) ks) ->
  exists sh, forall q, fst q < length l -> shell L l f r q (sh q).
Proof.
  intros H. destruct (finite_choice nil H) as [g Hg]. exists (fun q => map (moved (snd q)) (g (fst q))). intros q Hq.
  pose proof (shell_shift (snd q) (q := origin (fst q)) Hq (Hg _ Hq)) as S.
  replace (moved (snd q) (origin (fst q))) with q in S; [exact S|]. destruct q as [i [[a b] c]]. reflexivity.
Qed.
(** Sites of the same atom see the same directions. *)
Lemma dirs_site L l f r q q' ks ks' : fst q < length l -> fst q' = fst q -> shell L l f r q ks -> shell L l f r q' ks' ->
  Permutation (map (S_Periodic.apart L l q') ks') (map (S_Periodic.apart L l q) ks).
Proof.
  intros Hq E S S'. assert (exists t, q' = moved t q) as (t & ->).
  { destruct q as [i [[a b] c]], q' as [j [[a' b'] c']]. cbn in E. subst j. exists (a' - a, b' - b, c' - c)%Z. cbn. f_equal. f_equal; [f_equal|]; lia. }
  rewrite (Permutation_map _ (shell_moved Hq S S')), map_map. apply Permutation_refl'. apply map_ext_in. intros p Hp. apply S in Hp as (B & _).
  now apply moved_apart.
Qed.
