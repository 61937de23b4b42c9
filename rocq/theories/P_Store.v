(** Storing the atoms of a system back into it. *)
From Coq Require Import ZArith List Lia Bool.
From Verif Require Import Base Num Types M_Geometry M_Container M_Neighbors M_Steinhardt S_Container S_Neighbors S_Store
  P_Container P_History.
Import ListNotations.
Set Implicit Arguments.
Unset Strict Implicit.

Lemma Forall2_length {A B} (R : A -> B -> Prop) l m : Forall2 R l m -> length l = length m.
Proof. induction 1; cbn; congruence. Qed.
Lemma filter_every {A} (f : A -> bool) l : (forall x, In x l -> f x = true) -> filter f l = l.
Proof. induction l as [|a l IH]; intros H; auto. cbn. rewrite H by (now left). f_equal. apply IH. intros; apply H; now right. Qed.

Section P.
Variable N : num.
Variable inv : m3 N -> option (m3 N).

Notation reps l := (small_reps (Z.of_nat (length l))).
Lemma atoms_set_small raw (s : sys N) l : 1 <= length l < 200 ->
  atoms_set inv raw s l =
  if neqb (box_sum (box_get s)) n0 then Err ValueError
  else (s2 <- box_set inv (s <| s_actual := Some (box_get s) |>) (scale_box (box_get s) (reps l, reps l, reps l)) ;;
        Ok (set_atoms (s2 <| s_ghosts_created := true |>) (l ++ copies raw (box_get s) true (reps l, reps l, reps l) l))).
Proof.
  intros L. unfold atoms_set.
  destruct (Z.ltb_spec (Z.of_nat (length l)) 200); [|lia].
  destruct (Z.eqb_spec (Z.of_nat (length l)) 0); [lia|].
  destruct (neqb _ _); [reflexivity|]. unfold repeat_cell. cbn [bind].
  destruct (box_set _ _ _); reflexivity.
Qed.

Lemma same_place_refl (a : atom N) : same_place a a.
Proof. repeat split. Qed.
Lemma only_computed_refl (s : sys N) : only_computed s s.
Proof. split; [|reflexivity]. induction (s_atoms s); constructor; auto using same_place_refl. Qed.
Lemma only_computed_trans (s t u : sys N) : only_computed s t -> only_computed t u -> only_computed s u.
Proof.
  intros [A B] [C D]. split; [|congruence]. clear B D. revert C. generalize (s_atoms u).
  induction A as [|a b l m P A IH]; intros k C; inversion C; subst; constructor; auto.
  unfold same_place in *. intuition congruence.
Qed.

Lemma number_from_place raw raw' b gh (l l' : list ((Z * Z * Z) * atom N)) : forall id,
  Forall2 (fun p p' => fst p = fst p' /\ same_place (snd p) (snd p')) l l' ->
  Forall2 (@same_place N) (number_from raw b gh id l) (number_from raw' b gh id l').
Proof.
  intros id H. revert id. induction H as [|[t a] [t' a'] l l' [E P] H IH]; intros id; cbn [number_from]; constructor; auto.
  cbn [fst snd] in *. subst t'. destruct P as (P1 & P2 & _). unfold copy_atom, same_place. rewrite <- P1, <- P2.
  destruct gh; cbn; auto.
Qed.
Lemma copies_place raw raw' b gh r (l l' : list (atom N)) :
  Forall2 (@same_place N) l l' -> Forall2 (@same_place N) (copies raw b gh r l) (copies raw' b gh r l').
Proof.
  destruct r as [[rx ry] rz]. intros H. unfold copies. rewrite (Forall2_length H). apply number_from_place.
  induction (shifts rx ry rz) as [|t ts IH]; cbn [flat_map]; [constructor|].
  apply Forall2_app; [|exact IH]. clear IH. induction H; cbn [map]; constructor; auto.
Qed.
Lemma copies_ghost raw b r (l : list (atom N)) g : In g (copies raw b true r l) -> a_ghost g = 1%Z /\ blank (raw (a_id g)) g.
Proof.
  destruct r as [[rx ry] rz]. unfold copies. generalize (Z.of_nat (length l) + 1)%Z. intros id.
  revert id. induction (flat_map _ _) as [|[t a] k IH]; intros id; cbn [number_from]; [contradiction|].
  intros [<-|H]; [|eauto]. unfold copy_atom, atom_ctor, blank. cbn. repeat split.
Qed.

Lemma Forall2_app_split {A B} (R : A -> B -> Prop) l1 l2 m : Forall2 R (l1 ++ l2) m ->
  exists m1 m2, m = m1 ++ m2 /\ Forall2 R l1 m1 /\ Forall2 R l2 m2.
Proof. intros H. apply Forall2_app_inv_l in H as (m1 & m2 & A1 & A2 & ->). eauto. Qed.

Lemma count_real_place (l l' : list (atom N)) : Forall2 (@same_place N) l l' -> count_real l = count_real l'.
Proof.
  unfold count_real. intros H. f_equal. induction H as [|a b l l' (_ & _ & _ & G) H IH]; [reflexivity|].
  cbn [filter]. assert (E : is_real a = is_real b) by (unfold is_real; now rewrite G).
  rewrite E. destruct (is_real b); cbn [length negb]; congruence.
Qed.
Lemma count_ghost_place (l l' : list (atom N)) : Forall2 (@same_place N) l l' -> count_ghost l = count_ghost l'.
Proof.
  unfold count_ghost. intros H. f_equal. induction H as [|a b l l' (_ & _ & _ & G) H IH]; [reflexivity|].
  cbn [filter]. assert (E : is_real a = is_real b) by (unfold is_real; now rewrite G).
  rewrite E. destruct (is_real b); cbn [length negb]; congruence.
Qed.

Lemma get_atoms_app (s : sys N) l g : s_atoms s = l ++ g -> s_real s = Z.of_nat (length l) -> get_atoms s = Ok l.
Proof.
  intros E R. unfold get_atoms. rewrite E, R, Nat2Z.id. clear.
  assert (H : forall p, mapM (fun i => get (p ++ l ++ g) i) (seq (length p) (length l)) = Ok l).
  { induction l as [|a l IH]; intros p; [reflexivity|]. cbn [length seq mapM].
    unfold get at 1. rewrite nth_error_app2, Nat.sub_diag by lia. cbn [nth_error app bind].
    specialize (IH (p ++ [a])). rewrite app_length in IH. cbn in IH. rewrite Nat.add_1_r in IH.
    rewrite <- app_assoc in IH. cbn in IH. rewrite IH. reflexivity. }
  exact (H []).
Qed.

(** The box members do not depend on the results. *)
Lemma settled_computed (s t : sys N) : box_settled inv s -> results_off s = results_off t -> box_settled inv t.
Proof.
  unfold box_settled. intros H K.
  assert (Eb : s_box t = s_box s) by (apply (f_equal (@s_box N)) in K; now cbn in K).
  rewrite Eb. unfold box_set in *. destruct (nltb _ _).
  - destruct (inv _) as [ri|]; [|discriminate].
    assert (H' := f_equal (fun r => match r with Ok x => x | Err _ => s end) H). cbn beta iota in H'.
    assert (K1 : results_off (sbox (assign_triclinic_params s (mtrans (s_box s)) ri) (s_box s)) = results_off s)
      by now rewrite H'. rewrite K in K1.
    destruct s, t. cbn in *. injection K1. injection K. intros. subst. reflexivity.
  - assert (H' := f_equal (fun r => match r with Ok x => x | Err _ => s end) H). cbn beta iota in H'.
    assert (K1 : results_off (sbox s (s_box s)) = results_off s) by now rewrite H'. rewrite K in K1.
    destruct s, t. cbn in *. injection K1. injection K. intros. subst. reflexivity.
Qed.

Lemma set_atoms_same (t : sys N) l : s_nop t = Z.of_nat (length l) -> s_ghost t = count_ghost l -> s_real t = count_real l ->
  set_atoms t l = t <| s_atoms := l |>.
Proof. intros E1 E2 E3. unfold set_atoms. rewrite <- E1, <- E2, <- E3. destruct t. reflexivity. Qed.

Theorem store_small raw raw' (s0 s t : sys N) l :
  all_real l -> 1 <= length l < 200 -> atoms_set inv raw s0 l = Ok s -> only_computed s t ->
  exists l' old new, s_atoms t = l' ++ old /\ get_atoms t = Ok l' /\ length l' = length l /\
    atoms_set inv raw' t l' = Ok (t <| s_atoms := l' ++ new |>) /\
    Forall2 (@same_place N) old new /\
    (forall g, In g new -> a_ghost g = 1%Z /\ blank (raw' (a_id g)) g) /\ 200 <= length (l' ++ new).
Proof.
  intros Al L H [F K]. rewrite atoms_set_small in H by exact L.
  set (b := box_get s0) in *. set (r := (reps l, reps l, reps l)) in *.
  destruct (neqb (box_sum b) n0) eqn:Eb; [discriminate|].
  destruct (box_set inv (s0 <| s_actual := Some b |>) (scale_box b r)) as [s2|] eqn:E2; cbn [bind] in H; [|discriminate].
  assert (Bs : box_settled inv s2) by (eapply box_set_settled; exact E2).
  assert (Ac : s_actual s2 = Some b).
  { unfold box_set in E2. destruct (nltb _ _); [destruct (inv _); [|discriminate]|]; injection E2 as <-; reflexivity. }
  assert (Bx : s_box s2 = scale_box b r).
  { unfold box_set in E2. destruct (nltb _ _); [destruct (inv _); [|discriminate]|]; injection E2 as <-; reflexivity. }
  clear E2. set (s3 := s2 <| s_ghosts_created := true |>) in *.
  assert (Es : set_atoms s3 (l ++ copies raw b true r l) = s) by congruence. clear H.
  assert (Bs3 : box_settled inv s3).
  { unfold box_settled, box_set in *. change (s_box s3) with (s_box s2). destruct (nltb _ _).
    - destruct (inv _) as [ri|]; [|discriminate].
      assert (H' := f_equal (fun r => match r with Ok x => x | Err _ => s2 end) Bs). cbn beta iota in H'.
      apply (f_equal (fun x => x <| s_ghosts_created := true |>)) in H'. f_equal. exact H'.
    - assert (H' := f_equal (fun r => match r with Ok x => x | Err _ => s2 end) Bs). cbn beta iota in H'.
      apply (f_equal (fun x => x <| s_ghosts_created := true |>)) in H'. f_equal. exact H'. }
  assert (Bt : box_settled inv t).
  { apply (@settled_computed s t); [|exact K]. rewrite <- Es. apply set_atoms_settled. exact Bs3. }
  assert (M : s_box t = scale_box b r /\ s_actual t = Some b /\ s_ghosts_created t = true /\
     s_nop t = Z.of_nat (length (s_atoms s)) /\ s_ghost t = count_ghost (s_atoms s) /\ s_real t = count_real (s_atoms s)).
  { rewrite <- Es in K. pose proof (f_equal (@s_box N) K) as K1. pose proof (f_equal (@s_actual N) K) as K2.
    pose proof (f_equal (@s_ghosts_created N) K) as K3. pose proof (f_equal (@s_nop N) K) as K4.
    pose proof (f_equal (@s_ghost N) K) as K5. pose proof (f_equal (@s_real N) K) as K6.
    rewrite <- Es. clear Es. unfold results_off in *. cbn in *. intuition congruence. }
  destruct M as (M1 & M2 & M3 & M4 & M5 & M6).
  assert (Ea : s_atoms s = l ++ copies raw b true r l) by now rewrite <- Es.
  rewrite Ea in F. apply Forall2_app_split in F as (l' & old & Et & F1 & F2).
  assert (L' : length l' = length l) by (symmetry; eapply Forall2_length; exact F1).
  assert (Sp : Forall2 (@same_place N) (copies raw b true r l) (copies raw' b true r l')) by now apply copies_place.
  assert (Er : reps l' = reps l) by now rewrite L'.
  assert (Cr : count_real (s_atoms s) = Z.of_nat (length l)).
  { rewrite Ea. unfold count_real. rewrite filter_app. f_equal. f_equal.
    rewrite (filter_none (A := atom N) (f := @is_real N) (l := copies raw b true r l)).
    - rewrite app_nil_r. apply filter_every. intros a Ha. unfold is_real. now rewrite (Al a Ha).
    - intros a Ha. apply copies_ghost in Ha as (G & _). unfold is_real. now rewrite G. }
  exists l', old, (copies raw' b true r l'). split; [exact Et|].
  split; [apply (get_atoms_app (g := old)); [exact Et|rewrite M6, Cr, L'; reflexivity]|].
  split; [exact L'|].
  assert (FF : Forall2 (@same_place N) (s_atoms s) (l' ++ copies raw' b true r l')).
  { rewrite Ea. apply Forall2_app; assumption. }
  split.
  { rewrite atoms_set_small by lia. rewrite Er. fold r.
    assert (Bg : box_get t = b) by (unfold box_get; now rewrite M2). rewrite Bg, Eb, <- M1.
    assert (T : t <| s_actual := Some b |> = t) by (rewrite <- M2; destruct t; reflexivity).
    rewrite T, Bt. cbn [bind].
    assert (T3 : t <| s_ghosts_created := true |> = t) by (rewrite <- M3; destruct t; reflexivity).
    rewrite T3. rewrite set_atoms_same; [reflexivity| | |].
    - rewrite M4, (Forall2_length FF). reflexivity.
    - rewrite M5. now apply count_ghost_place.
    - rewrite M6. now apply count_real_place. }
  split.
  { clear -F2 Sp. revert Sp. generalize (copies raw' b true r l'). induction F2 as [|x y k m P F2 IH]; intros j J; inversion J; subst; constructor; auto.
    unfold same_place in *. intuition congruence. }
  split; [intros g Hg; eapply copies_ghost; exact Hg|].
  rewrite app_length. pose proof (proj2 (copies_spec raw' inv b true (reps l) (reps l) (reps l) l')) as Ln.
  unfold r. rewrite Ln, L'.
  destruct (@small_reps_enough (Z.of_nat (length l))) as [R1 R2]; [lia|].
  set (k := reps l) in *.
  pose proof (length_shifts (rx:=k) (ry:=k) (rz:=k) ltac:(lia) ltac:(lia) ltac:(lia)) as LS. nia.
Qed.

(** Large systems without ghosts. *)
Theorem store_large raw (s : sys N) :
  all_real (s_atoms s) -> 200 <= length (s_atoms s) ->
  s_nop s = Z.of_nat (length (s_atoms s)) -> s_real s = Z.of_nat (length (s_atoms s)) -> s_ghost s = 0%Z ->
  get_atoms s = Ok (s_atoms s) /\ atoms_set inv raw s (s_atoms s) = Ok s.
Proof.
  intros Al L E1 E2 E3. split; [apply (get_atoms_app (g := [])); [now rewrite app_nil_r|exact E2]|].
  unfold atoms_set. destruct (Z.ltb_spec (Z.of_nat (length (s_atoms s))) 200); [lia|].
  assert (C : count_real (s_atoms s) = Z.of_nat (length (s_atoms s))).
  { unfold count_real. f_equal. f_equal. apply filter_every. intros a Ha. unfold is_real. now rewrite (Al a Ha). }
  assert (G : count_ghost (s_atoms s) = 0%Z).
  { unfold count_ghost. rewrite (filter_none (A := atom N) (l := s_atoms s)); [reflexivity|].
    intros a Ha. unfold is_real. now rewrite (Al a Ha). }
  rewrite set_atoms_same; [destruct s; reflexivity|exact E1|congruence|congruence].
Qed.

(** Large systems with ghosts lose them. *)
Theorem store_drops raw (s : sys N) l :
  counters_ok s -> get_atoms s = Ok l -> 200 <= length l ->
  exists s', atoms_set inv raw s l = Ok s' /\ s_atoms s' = l /\ s_nop s' = Z.of_nat (length l) /\
    s_ghosts_created s' = s_ghosts_created s /\ s_box s' = s_box s /\ s_tri s' = s_tri s.
Proof.
  intros _ _ L. unfold atoms_set. destruct (Z.ltb_spec (Z.of_nat (length l)) 200); [lia|].
  eexists. split; [reflexivity|]. repeat split.
Qed.

(** Searches that do not embed the cell only compute. *)
Lemma same_atom_place (a b : atom N) : same_atom a b -> same_place a b.
Proof.
  unfold same_atom, same_place. intros H.
  pose proof (f_equal (@a_pos N) H) as H1. pose proof (f_equal (@a_type N) H) as H2.
  pose proof (f_equal (@a_id N) H) as H3. pose proof (f_equal (@a_ghost N) H) as H4. cbn in *. auto.
Qed.
Lemma physics_computed (s t : sys N) : same_physics s t -> only_computed s t.
Proof.
  intros [A B]. split.
  - clear B. induction A; constructor; auto using same_atom_place.
  - apply (f_equal (fun x => x <| s_maxclus := 0%Z |>)) in B. exact B.
Qed.

(** A neighbour outside the stored atoms makes the Steinhardt calculation read
    outside the array. *)
Definition I0 (l0 l : list (atom N)) : Prop := map (@a_nbrs N) l = map (@a_nbrs N) l0.
Lemma foldM_reach {S X} (I : S -> Prop) (f : S -> X -> res S) xs :
  (forall s x s', I s -> f s x = Ok s' -> I s') -> forall s s', I s -> foldM f xs s = Ok s' ->
  I s' /\ forall x, In x xs -> exists s1 s2, I s1 /\ f s1 x = Ok s2.
Proof.
  intros K. induction xs as [|x xs IH]; cbn [foldM]; intros s s' Is H.
  - injection H as <-. split; [exact Is|intros x []].
  - destruct (f s x) as [s1|] eqn:E; cbn [bind] in H; [|discriminate].
    assert (I1 : I s1) by (eapply K; eauto). destruct (IH s1 s' I1 H) as (A & B). split; [exact A|].
    intros y [<-|Hy]; [eauto|auto].
Qed.
Lemma map_nbrs_upd (l : list (atom N)) i f : (forall a, a_nbrs (f a) = a_nbrs a) -> map (@a_nbrs N) (upd i f l) = map (@a_nbrs N) l.
Proof. intros H. revert i. induction l as [|a l IH]; intros [|i]; cbn; rewrite ?H, ?IH; reflexivity. Qed.
Lemma qlm_reads vor l (a : atom N) q mi v e : qlm_atom vor l a q mi = Ok v -> In e (a_nbrs a) -> nb_idx e < length l.
Proof.
  unfold qlm_atom. intros H He. destruct (foldM (qlm_step l a q mi) (a_nbrs a) _) as [acc|] eqn:E; cbn [bind] in H; [|discriminate].
  destruct (@foldM_reach _ _ (fun _ => True) _ _ (fun _ _ _ _ _ => I) _ _ I E) as (_ & R).
  destruct (R e He) as (s1 & s2 & _ & Q). unfold qlm_step in Q. unfold get in Q at 1.
  destruct (nth_error l (nb_idx e)) eqn:En; [|discriminate]. apply nth_error_Some. congruence.
Qed.
Lemma q_atom_reads vor ti l q l' : q_atom vor ti l q = Ok l' -> (2 <= q)%Z -> I0 l l' /\
  forall a e, nth_error l ti = Some a -> In e (a_nbrs a) -> nb_idx e < length l.
Proof.
  unfold q_atom. intros H Hq.
  match type of H with bind (foldM ?F ?xs ?st) _ = _ => set (f := F) in H; set (ms := xs) in H; destruct (foldM f ms st) as [[l1 sm]|] eqn:E end;
    cbn [bind] in H; [|discriminate].
  assert (K : forall (st : list (atom N) * N) x st', I0 l (fst st) -> f st x = Ok st' -> I0 l (fst st')).
  { intros [m sm0] x [m' sm'] Im F. unfold f in F. cbn [fst] in *.
    destruct (get m ti) as [a|]; cbn [bind] in F; [|discriminate].
    destruct (qlm_atom vor m a q x) as [[re im]|]; cbn [bind] in F; [|discriminate].
    destruct (put2 _ _ _ _) as [qc|]; cbn [bind] in F; [|discriminate].
    injection F as <- _. unfold I0 in *. rewrite map_nbrs_upd by reflexivity. exact Im. }
  destruct (@foldM_reach _ _ (fun st => I0 l (fst st)) f ms K _ _ (eq_refl : I0 l (fst (l, nofZ 0))) E) as (I1 & R). cbn [fst] in I1.
  split.
  - destruct (get l1 ti) as [a|]; cbn [bind] in H; [|discriminate].
    destruct (zput _ _ _) as [qs|]; cbn [bind] in H; [|discriminate]. injection H as <-.
    unfold I0 in *. rewrite map_nbrs_upd by reflexivity. exact I1.
  - intros a e Ha He. destruct (R (- q)%Z) as ([m sm0] & st2 & Im & F).
    { unfold ms. apply In_zrange. lia. }
    unfold f in F. cbn [fst] in Im. unfold get at 1 in F. destruct (nth_error m ti) as [b|] eqn:Eb; cbn [bind] in F; [|discriminate].
    destruct (qlm_atom vor m b q (- q)) as [v|] eqn:Ev; cbn [bind] in F; [|discriminate].
    assert (Nb : a_nbrs b = a_nbrs a).
    { pose proof (f_equal (fun x => nth_error x ti) Im) as Z. cbn beta in Z. rewrite !nth_error_map, Ha, Eb in Z. cbn in Z. congruence. }
    rewrite <- Nb in He. pose proof (qlm_reads Ev He) as L.
    apply (f_equal (@length _)) in Im. rewrite !map_length in Im. lia.
Qed.
Theorem q_reads inv' raw (s t : sys N) qs q averaged clear i a e :
  In q qs -> nth_error (s_atoms s) i = Some a -> (i < Z.to_nat (s_nop s)) -> In e (a_nbrs a) -> length (s_atoms s) <= nb_idx e ->
  (clear = false) -> py_calculate_q inv' raw s qs averaged false None clear <> Ok t.
Proof.
  intros Hq Ha Hi He L -> H. unfold py_calculate_q in H.
  destruct (forallb q_ok qs) eqn:Eq; [|discriminate]. cbn [bind] in H.
  assert (Q2 : forall q, In q qs -> (2 <= q)%Z).
  { intros q' Hq'. rewrite forallb_forall in Eq. specialize (Eq _ Hq'). unfold q_ok in Eq. lia. }
  destruct (calculate_q s qs) as [s1|] eqn:E; cbn [bind] in H; [|discriminate]. clear H. unfold calculate_q in E.
  destruct (foldM _ _ _) as [l1|] eqn:E1 in E; cbn [bind] in E; [|discriminate]. clear E.
  assert (KI : forall ti l x l', In x qs -> I0 (s_atoms s) l -> q_atom (s_vorused s) ti l x = Ok l' -> I0 (s_atoms s) l').
  { intros ti l x l' Hx Il F. apply q_atom_reads in F as (F & _); [unfold I0 in *; congruence|auto]. }
  assert (KQ : forall ti xs, incl xs qs -> forall l l', I0 (s_atoms s) l -> foldM (q_atom (s_vorused s) ti) xs l = Ok l' ->
     I0 (s_atoms s) l' /\ forall x, In x xs -> exists l1 l2, I0 (s_atoms s) l1 /\ q_atom (s_vorused s) ti l1 x = Ok l2).
  { intros ti xs. induction xs as [|x xs IH]; cbn [foldM]; intros Hx l l' Il F.
    - injection F as <-. split; [exact Il|intros x []].
    - destruct (q_atom _ _ _ _) as [l2|] eqn:F2 in F; cbn [bind] in F; [|discriminate].
      assert (I2 : I0 (s_atoms s) l2) by (eapply KI; [apply Hx; now left|exact Il|exact F2]).
      destruct (IH (fun y Hy => Hx y (or_intror Hy)) l2 l' I2 F) as (A & B). split; [exact A|].
      intros y [<-|Hy]; [eauto|auto]. }
  destruct (@foldM_reach _ _ (I0 (s_atoms s)) (fun l ti => foldM (q_atom (s_vorused s) ti) qs l) (seq 0 (Z.to_nat (s_nop s)))
    (fun l x l' Il F => proj1 (KQ x qs (incl_refl _) l l' Il F)) _ _ eq_refl E1) as (_ & R).
  destruct (R i) as (l2 & l3 & I2 & F2); [apply in_seq; lia|].
  destruct (proj2 (KQ i qs (incl_refl _) l2 l3 I2 F2) q Hq) as (l4 & l5 & I4 & F4).
  apply q_atom_reads in F4 as (_ & F4); [|auto].
  pose proof (f_equal (fun x => nth_error x i) I4) as Z. cbn beta in Z. rewrite !nth_error_map, Ha in Z. cbn in Z.
  destruct (nth_error l4 i) as [b|] eqn:Eb; [|discriminate]. cbn in Z. injection Z as Z.
  rewrite <- Z in He. specialize (F4 b e eq_refl He).
  apply (f_equal (@length _)) in I4. rewrite !map_length in I4. lia.
Qed.
End P.
