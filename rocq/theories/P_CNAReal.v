(** Proofs about common neighbour analysis: histories, and the labels over the
    real numbers. *)
From Coq Require Import Lia Permutation Reals Lra Sorted.
From Verif Require Import Base Num NumR Types M_Geometry S_Geometry P_Geometry M_Container P_Box M_Neighbors M_Steinhardt M_CNA
  S_Neighbors S_CNA P_Neighbors P_Temp P_Graph P_QRun P_Search P_FindN P_History P_CNA P_CNARun.
Close Scope R_scope.
Set Implicit Arguments.
Unset Strict Implicit.
#[local] Opaque abs_distance_ij.

Section H.
Variable N : num.
Variable srt : list (datom N) -> list (datom N).
Hypothesis Hsrt : forall l, Permutation (srt l) l.

Theorem cna_same (s s' : sys N) lc : same_geometry s s' -> stored s -> (0 <= s_real s <= s_nop s)%Z ->
  s_usecells s = false -> s_usecells s' = false -> no_candidates s -> no_candidates s' ->
  match calculate_cna srt s lc, calculate_cna srt s' lc with
  | Ok (t, r), Ok (t', r') => r = r' /\ map (@a_struct N) (s_atoms t) = map (@a_struct N) (s_atoms t')
  | Err e, Err e' => e = e'
  | _, _ => False
  end.
Proof.
  intros HG Hs Hr Hu Hu' Hc Hc'. pose proof (geo_stored HG Hs) as Hs'.
  assert (Hr' : (0 <= s_real s' <= s_nop s')%Z) by now rewrite <- (ce_real (proj1 HG)), <- (ce_nop (proj1 HG)).
  assert (Hdec : (lc <> None -> forall i, i < length (s_atoms s) -> 14 <= length (cna_cands s i)) \/
    exists c, lc = Some c /\ exists i, i < length (s_atoms s) /\ length (cna_cands s i) < 14).
  { destruct lc as [c|]; [|left; congruence].
    destruct (forallb (fun i => 14 <=? length (cna_cands s i)) (seq 0 (length (s_atoms s)))) eqn:E.
    - left. intros _ i Hi. rewrite forallb_forall in E. apply Nat.leb_le, E, in_seq. lia.
    - right. exists c. split; auto.
      assert (Q : forall xs, forallb (fun i => 14 <=? length (cna_cands s i)) xs = false -> exists i, In i xs /\ length (cna_cands s i) < 14).
      { induction xs as [|x xs IH]; cbn [forallb]; [discriminate|]. destruct (Nat.leb_spec 14 (length (cna_cands s x))); simpl.
        - intros H'. destruct (IH H') as (i & ? & ?). exists i. simpl; auto.
        - intros _. exists x. simpl; auto. }
      destruct (Q _ E) as (i & Hi & Hl). apply in_seq in Hi. exists i. split; auto. lia. }
  destruct Hdec as [Hen|(c & -> & i & Hi & Hl)].
  - destruct (@cna_full N srt Hsrt s lc Hs Hu Hc Hr Hen) as (t & r & E & G & _ & HL).
    destruct (@cna_full N srt Hsrt s' lc Hs' Hu' Hc' Hr') as (t' & r' & E' & G' & _ & HL').
    { intros Hl i Hi. rewrite (geo_length HG) in Hi. rewrite <- (cna_cands_geo i HG). auto. }
    rewrite E, E'.
    assert (Hm : map (@a_struct N) (s_atoms t) = map (@a_struct N) (s_atoms t')).
    { apply list_by_nth.
      - rewrite !map_length, (geo_length G), (geo_length G'), (geo_length HG). reflexivity.
      - intros k v Hv. rewrite nth_error_map in *. destruct (nth_error (s_atoms t') k) as [a'|] eqn:Ea'; [|discriminate].
        simpl in Hv. apply Some_inj in Hv. subst v.
        assert (Hk : k < length (s_atoms t)).
        { rewrite (geo_length G), <- (geo_length HG), <- (geo_length G'). apply nth_error_Some. congruence. }
        destruct (nth_error_some Hk) as [a Ea]. rewrite Ea. simpl. f_equal.
        rewrite (HL k a Ea), (HL' k a' Ea'), (cna_temp_geo srt k HG). now apply cna_label_geo. }
    split; auto. eapply counted_eq; [eapply cna_counts, E|eapply cna_counts, E'| |exact Hm].
    now rewrite <- (ce_real (proj1 G)), <- (ce_real (proj1 G')), (ce_real (proj1 HG)).
  - rewrite (@cna_UB N srt Hsrt s c Hs Hu Hc) by eauto.
    rewrite (@cna_UB N srt Hsrt s' c Hs' Hu' Hc'); auto.
    exists i. rewrite (geo_length HG), <- (cna_cands_geo i HG). auto.
Qed.

Theorem cna_again (s t u : sys N) lc r : stored s -> (0 <= s_real s <= s_nop s)%Z ->
  s_usecells s = false -> no_candidates s ->
  calculate_cna srt s lc = Ok (t, r) -> reset_neighbors t = Ok u ->
  exists t', calculate_cna srt u lc = Ok (t', r) /\ map (@a_struct N) (s_atoms t') = map (@a_struct N) (s_atoms t).
Proof.
  intros Hs Hr Hu Hc E Eu.
  assert (Hen : lc <> None -> forall i, i < length (s_atoms s) -> 14 <= length (cna_cands s i)).
  { intros Hl i Hi. destruct (Nat.le_gt_cases 14 (length (cna_cands s i))); auto. destruct lc as [c|]; [|congruence].
    rewrite (@cna_UB N srt Hsrt s c Hs Hu Hc) in E; [discriminate|]. eauto. }
  destruct (@cna_full N srt Hsrt s lc Hs Hu Hc Hr Hen) as (t0 & r0 & E0 & G & U & _).
  rewrite E in E0. injection E0 as <- <-.
  unfold reset_neighbors in Eu. rewrite reset_stored in Eu by (eapply geo_stored; eauto). cbn [bind] in Eu.
  injection Eu as <-. match goal with |- context[calculate_cna srt ?x lc] => set (u := x) end.
  assert (Gu : same_geometry s u).
  { eapply geo_trans; [exact G|]. split; [reflexivity|]. cbn. now rewrite map_map. }
  pose proof (@cna_same s u lc Gu Hs Hr Hu U Hc) as H. rewrite E in H.
  destruct (calculate_cna srt u lc) as [[t' r']|].
  - exists t'. destruct H as [<- H]; auto. intros a Ha. cbn in Ha. apply in_map_iff in Ha as (a0 & <- & _). reflexivity.
  - exfalso. apply H. intros a Ha. cbn in Ha. apply in_map_iff in Ha as (a0 & <- & _). reflexivity.
Qed.
End H.

(** ** Labels over the real numbers *)
Lemma nsum_R (l : list R) : nsum (N := Rnum) l = fold_right Rplus 0%R l.
Proof.
  unfold nsum. change (nofZ (n := Rnum) 0) with 0%R.
  assert (Q : forall l (x : R), fold_left (nadd (n := Rnum)) l x = (x + fold_right Rplus 0 l)%R).
  { clear. induction l as [|y l IH]; intros x; cbn [fold_left fold_right]; [lra|]. rewrite IH. cbn. lra. }
  rewrite Q. lra.
Qed.
Lemma sum_dist_map near : sum_dist near = fold_right Rplus 0%R (map (@nb_dist Rnum) near).
Proof. unfold sum_dist. induction near; simpl; auto. now rewrite IHnear. Qed.
Lemma sum_app (l l' : list R) : fold_right Rplus 0%R (l ++ l') = (fold_right Rplus 0 l + fold_right Rplus 0 l')%R.
Proof. induction l; simpl; lra. Qed.
Lemma sum_scale c (l : list R) : fold_right Rplus 0%R (map (fun d => c * d)%R l) = (c * fold_right Rplus 0 l)%R.
Proof. induction l; simpl; lra. Qed.

Lemma radius12_eq lc near (T : list (datom Rnum)) : map (@nb_dist Rnum) near = map (@d_dist Rnum) (firstn 14 T) ->
  match lc with Some c => (nlit 854 1000 * c)%num | None => acna_cutoff false (map (@d_dist Rnum) T) end = radius12 lc (firstn 12 near).
Proof.
  intros H. destruct lc as [c|]; [reflexivity|]. unfold acna_cutoff, radius12. rewrite sum_dist_map, nsum_R, <- firstn_map, H, <- firstn_map, firstn_firstn.
  change (Nat.min 12 14) with 12. cbn [nmul ndiv nlit nofZ Rnum].
  set (x := fold_right Rplus 0%R _). change (nlit (n := Rnum) 1207 1000) with (1207 / 1000)%R. change (nofZ (n := Rnum) 12) with 12%R.
  cbn. field.
Qed.
Lemma radius14_eq lc near (T : list (datom Rnum)) : map (@nb_dist Rnum) near = map (@d_dist Rnum) (firstn 14 T) ->
  match lc with Some c => (nlit 1207 1000 * c)%num | None => acna_cutoff true (map (@d_dist Rnum) T) end = radius14 lc near.
Proof.
  intros H. destruct lc as [c|]; [reflexivity|]. unfold acna_cutoff, radius14.
  assert (E8 : sum_dist (firstn 8 near) = fold_right Rplus 0%R (firstn 8 (map (@d_dist Rnum) T))).
  { rewrite sum_dist_map, <- firstn_map, H, <- firstn_map, firstn_firstn. reflexivity. }
  assert (E6 : sum_dist (skipn 8 near) = fold_right Rplus 0%R (firstn 6 (skipn 8 (map (@d_dist Rnum) T)))).
  { rewrite sum_dist_map, <- skipn_map, H, <- firstn_map, skipn_firstn_comm. reflexivity. }
  rewrite E8, E6.
  assert (Q : nsum (N := Rnum) (map (fun d : Rnum => nmul (nlit 11547 10000) d) (firstn 8 (map (@d_dist Rnum) T)) ++ firstn 6 (skipn 8 (map (@d_dist Rnum) T)))
     = (11547 / 10000 * fold_right Rplus 0%R (firstn 8 (map (@d_dist Rnum) T)) + fold_right Rplus 0%R (firstn 6 (skipn 8 (map (@d_dist Rnum) T))))%R).
  { rewrite nsum_R, sum_app. f_equal. apply (sum_scale (11547 / 10000)). }
  etransitivity; [exact (f_equal (fun z : R => (1207 / 1000 * z / 14)%R) Q)|].
  match goal with |- @eq _ ?a ?b => change (@eq R a b) end. field.
Qed.

Lemma cell_sym (s : sys Rnum) : nonneg3 (s_len s) -> forall p q, fst (abs_distance_ij s p q) = fst (abs_distance_ij s q p).
Proof. intros H p q. rewrite (ij_sym p q H). now destruct (abs_distance_ij s p q). Qed.

Lemma sget_sigs (s : sys Rnum) c ns : nonneg3 (s_len s) -> (forall n, In n ns -> n < length (s_atoms s)) ->
  sget s c ns = sigs (within s c) ns.
Proof.
  intros HL Hn. unfold sget. rewrite (@signatures_spec Rnum s (s_atoms s) c (cell_sym HL) ns Hn). reflexivity.
Qed.
Lemma within_sym (s : sys Rnum) c x y : nonneg3 (s_len s) -> within s c x y = within s c y x.
Proof. intros HL. apply (@near_sym Rnum s (s_atoms s) c). now apply cell_sym. Qed.

Lemma cna_label_rule (s : sys Rnum) cmp r0 lc i a T l (srt : list (datom Rnum) -> list (datom Rnum)) : sorts srt ->
  nonneg3 (s_len s) -> cmp_ok cmp -> nth_error (s_atoms s) i = Some a ->
  T = srt l -> Permutation l (cands (N := Rnum) cmp s r0 i) -> 14 <= length l ->
  cna_rule s lc i (cna_label s lc T).
Proof.
  intros Hs HL Hc Ha HT Hp Hlen. destruct (Hs l) as [P1 S1]. rewrite <- HT in P1, S1.
  assert (PT : Permutation T (cands (N := Rnum) cmp s r0 i)) by (etransitivity; eauto).
  assert (L14 : 14 <= length T) by now rewrite (Permutation_length P1).
  set (near := arrows s (s_atoms s) a (map (@d_idx Rnum) (firstn 14 T))).
  assert (HN : nearest s i 14 near) by (eapply nearest_cands; eauto).
  assert (Hin : forall d, In d (firstn 14 T) -> In d (cands (N := Rnum) cmp s r0 i)).
  { intros d Hd. eapply Permutation_in; [exact PT|]. eapply firstn_In; eauto. }
  pose proof (@arrows_cands s cmp r0 i a (firstn 14 T) HL Ha Hin) as F. cbv zeta in F. fold near in F.
  assert (Eidx : map (@nb_idx Rnum) near = map (@d_idx Rnum) (firstn 14 T)).
  { eapply Forall2_map_eq; [exact F|]. simpl. intros; tauto. }
  assert (Edist : map (@nb_dist Rnum) near = map (@d_dist Rnum) (firstn 14 T)).
  { eapply Forall2_map_eq; [exact F|]. simpl. intros; tauto. }
  exists near. split; auto. cbv zeta. rewrite Eidx.
  assert (Hr : forall n, In n (map (@d_idx Rnum) (firstn 14 T)) -> n < length (s_atoms s)).
  { intros n Hn. apply in_map_iff in Hn as (d & <- & Hd). eapply cands_range. apply Hin, Hd. }
  assert (E12 : firstn 12 (map (@d_idx Rnum) (firstn 14 T)) = map (@d_idx Rnum) (firstn 12 T)).
  { rewrite <- firstn_map, firstn_firstn. now rewrite <- firstn_map. }
  assert (Hr12 : forall n, In n (map (@d_idx Rnum) (firstn 12 T)) -> n < length (s_atoms s)).
  { intros n Hn. apply Hr. rewrite <- E12 in Hn. eapply firstn_In; eauto. }
  set (n12 := map (@d_idx Rnum) (firstn 12 T)) in *. set (n14 := map (@d_idx Rnum) (firstn 14 T)) in *.
  assert (Len12 : length n12 = 12) by (unfold n12; rewrite map_length; apply firstn_length_le; lia).
  assert (Len14 : length n14 = 14) by (unfold n14; rewrite map_length; apply firstn_length_le; lia).
  assert (Lab12 : shell_lab s lc false T = label12 (sigs (within s (radius12 lc (firstn 12 near))) n12)).
  { rewrite <- (radius12_eq lc Edist). unfold shell_lab. cbn [shell_size]. fold n12.
    destruct lc; [now rewrite sget_sigs|].
    assert (12 - 1 <? length T = true) as -> by (apply Nat.ltb_lt; lia). now rewrite sget_sigs. }
  assert (Lab14 : shell_lab s lc true T = label14 (sigs (within s (radius14 lc near)) n14)).
  { rewrite <- (radius14_eq lc Edist). unfold shell_lab. cbn [shell_size]. fold n14.
    destruct lc; [now rewrite sget_sigs|].
    assert (14 - 1 <? length T = true) as -> by (apply Nat.ltb_lt; lia). now rewrite sget_sigs. }
  rewrite E12.
  assert (Sy : forall c x y, within s c x y = within s c y x) by (intros; now apply within_sym).
  destruct (@label12_spec (within s (radius12 lc (firstn 12 near))) (Sy _) n12 Len12) as (A1 & A2 & A4 & A).
  destruct (@label14_spec (within s (radius14 lc near)) (Sy _) n14 Len14) as (B3 & B).
  rewrite <- A1, <- A2, <- A4, <- B3. unfold cna_label. rewrite Lab12, Lab14.
  generalize dependent (label12 (sigs (within s (radius12 lc (firstn 12 near))) n12)). intros v _ _ _ _ A.
  generalize dependent (label14 (sigs (within s (radius14 lc near)) n14)). intros w _ _ B.
  cbn in A, B. destruct (Z.eqb_spec v 0); repeat split; try lia; simpl; lia.
Qed.

Theorem cna_real (srt : list (datom Rnum) -> list (datom Rnum)) (s : sys Rnum) lc : sorts srt -> stored s -> nonneg3 (s_len s) ->
  (0 <= s_real s <= s_nop s)%Z -> no_candidates s ->
  (s_usecells s = true -> cells_ok s (guess_distance s (nofZ 3))) ->
  (forall i, i < length (s_atoms s) -> 14 <= length (cands (N := Rnum) (temp_cmp (s_usecells s)) s (guess_distance s (nofZ 3)) i)) ->
  exists t r, calculate_cna srt s lc = Ok (t, r) /\ counted_structs 5 t r /\ same_geometry s t /\
    forall i a, nth_error (s_atoms t) i = Some a -> cna_rule s lc i (a_struct a).
Proof.
  intros Hsrt Hs HL Hr Hc Hcells Hen.
  assert (Hg : exists s2, get_temp_neighbors (prepared s) = Ok s2 /\ temps_ok (N := Rnum) (temp_cmp (s_usecells s)) (prepared s) s2).
  { destruct (s_usecells s) eqn:Hu.
    - apply get_temp_cells; auto; [now apply (geo_stored (prepared_geo s))|].
      destruct (Hcells eq_refl) as [H1 H2]. split; [exact H1|].
      intros a Ha. cbn in Ha. apply in_map_iff in Ha as (a0 & <- & Ha0). now apply (H2 a0).
    - now apply cna_brute_stage. }
  destruct Hg as (s2 & E2 & T2).
  destruct (@cna_search_all Rnum srt (temp_cmp (s_usecells s)) s s2 Hs Hc E2 T2 Hen) as (t0 & T & E0 & S0 & Z0 & HT).
  assert (Hp : forall l, Permutation (srt l) l) by (intros; apply Hsrt).
  assert (Hperm : forall i, i < length (s_atoms s) -> Permutation (T i) (cands (N := Rnum) (temp_cmp (s_usecells s)) s (guess_distance s (nofZ 3)) i)).
  { intros i Hi. destruct (HT i Hi) as (l & -> & Hl). etransitivity; [apply Hp|exact Hl]. }
  set (T' := fun i => if i <? length (s_atoms s) then T i else []).
  assert (S0' : stage s t0 T').
  { destruct S0 as [G0 H0]. split; auto. intros i a Ha. unfold T'.
    assert (Hi : i < length (s_atoms s)) by (rewrite <- (geo_length G0); apply nth_error_Some; congruence).
    apply Nat.ltb_lt in Hi. rewrite Hi. auto. }
  assert (HR : in_range s T').
  { intros i d. unfold T'. destruct (Nat.ltb_spec i (length (s_atoms s))) as [Hi|]; [|intros []].
    intros Hd. eapply cands_range. eapply Permutation_in; [apply (Hperm i Hi)|exact Hd]. }
  destruct (@cna_after Rnum srt s lc t0 true T' Hs Hr HR E0 S0' Z0) as (t & r & E & G & _ & HLab).
  { intros _ i Hi. unfold T'. apply Nat.ltb_lt in Hi as Hi'. rewrite Hi', (Permutation_length (Hperm i Hi)). auto. }
  exists t, r. split; auto. split; [eapply cna_counts; eauto|]. split; auto.
  intros i a Ha. rewrite (HLab i a Ha).
  assert (Hi : i < length (s_atoms s)) by (rewrite <- (geo_length G); apply nth_error_Some; congruence).
  destruct (nth_error_some Hi) as [a0 Ea0]. destruct (HT i Hi) as (l & El & Hl).
  unfold T'. apply Nat.ltb_lt in Hi as Hi'. rewrite Hi'.
  eapply cna_label_rule; eauto using temp_cmp_ok. rewrite (Permutation_length Hl). auto.
Qed.
