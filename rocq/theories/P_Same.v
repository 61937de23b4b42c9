(** Neighbours and Steinhardt's parameters of a rearranged system. *)
From Coq Require Import Reals ZArith List Lia Lra Permutation.
From Verif Require Import Base Num NumR NumF Types M_Geometry M_Container M_Neighbors M_Steinhardt
  S_Neighbors S_Steinhardt S_Geometry S_Same P_Geometry P_Neighbors P_QRun P_QInv P_QSys P_QHist.
Import ListNotations.
Set Implicit Arguments.
Unset Strict Implicit.
Close Scope R_scope. Close Scope Z_scope.
#[local] Open Scope nat_scope.

(** An injection of the first n numbers into themselves reaches all of them. *)
Lemma onto n (p : nat -> nat) : (forall i, i < n -> p i < n) ->
  (forall i j, i < n -> j < n -> p i = p j -> i = j) -> forall k, k < n -> exists i, i < n /\ p i = k.
Proof.
  intros B I k Hk.
  assert (ND : NoDup (map p (seq 0 n))).
  { assert (G : forall l, NoDup l -> (forall i, In i l -> i < n) -> NoDup (map p l)).
    { induction l as [|x l IH]; intros D H; [constructor|]. inversion D; subst. cbn [map]. constructor.
      - intros C. apply in_map_iff in C as (y & E & Hy). apply I in E; [subst; auto|apply H; simpl; auto..].
      - apply IH; auto. intros i Hi. apply H. simpl; auto. }
    apply G; [apply seq_NoDup|]. intros i Hi. apply in_seq in Hi. lia. }
  assert (P : incl (seq 0 n) (map p (seq 0 n))).
  { apply NoDup_length_incl; auto.
    - rewrite map_length. lia.
    - intros x Hx. apply in_map_iff in Hx as (i & <- & Hi). apply in_seq in Hi. apply in_seq. specialize (B i). lia. }
  assert (Hin : In k (map p (seq 0 n))). { apply P, in_seq. lia. }
  apply in_map_iff in Hin as (i & E & Hi). apply in_seq in Hi. exists i. split; [lia|auto].
Qed.

Section Any.
Variable N : num.
Variable X : Type.
(** What is compared of a neighbour, besides its number; it includes the distance. *)
Variable seen_as : nbr N -> X.
Variables (move : v3 N -> v3 N) (p : nat -> nat) (s s' : sys N) (r : N) (f : filt).
Hypothesis HR : rearranged move p s s'.
Hypothesis Hseen : forall e e', seen_as e = seen_as e' -> nb_dist e = nb_dist e'.
Hypothesis Hlink : forall i j e, link s i j = Some e ->
  exists e', link s' (p i) (p j) = Some e' /\ seen_as e' = seen_as e.
Let n := length (s_atoms s).

Lemma re_bound i : i < n -> p i < n.
Proof.
  intros H. destruct HR as (L & _ & A & _). apply nth_error_Some in H. destruct (nth_error (s_atoms s) i) as [a|] eqn:E; [|congruence].
  destruct (A i a E) as (a' & E' & _). unfold n. rewrite <- L. apply nth_error_Some. congruence.
Qed.
Lemma re_inj i j : i < n -> j < n -> p i = p j -> i = j.
Proof. exact (proj1 (proj2 HR) i j). Qed.
Lemma re_type i : i < n -> type_at s' (p i) = type_at s i.
Proof.
  intros H. destruct HR as (_ & _ & A & _). apply nth_error_Some in H. unfold type_at. destruct (nth_error (s_atoms s) i) as [a|] eqn:E; [|congruence].
  destruct (A i a E) as (a' & -> & _ & T). exact T.
Qed.
Lemma within_idx e i : In e (neighbors_within s r f i) -> nb_idx e < n /\ i < n.
Proof. intros H. apply In_neighbors_within in H as (E & _). destruct (link_idx E) as (_ & _ & _ & A & B). auto. Qed.

Lemma within_seen i : i < n ->
  Permutation (map (fun e => (nb_idx e, seen_as e)) (neighbors_within s' r f (p i)))
              (map (fun e => (p (nb_idx e), seen_as e)) (neighbors_within s r f i)).
Proof.
  intros Hi.
  assert (D : forall A (g : nbr N -> nat) (h : nbr N -> nat * A) l, (forall e, fst (h e) = g e) -> NoDup (map g l) -> NoDup (map h l)).
  { intros A g h l E H. apply (NoDup_map_inv fst). rewrite map_map. replace (map (fun x => fst (h x)) l) with (map g l); [exact H|]. apply map_ext. intros e. now rewrite E. }
  apply NoDup_Permutation.
  - apply (D _ (@nb_idx N)); [reflexivity|apply NoDup_within].
  - apply (D _ (fun e => p (nb_idx e))); [reflexivity|].
    assert (G : forall l, NoDup (map (@nb_idx N) l) -> (forall e, In e l -> nb_idx e < n) -> NoDup (map (fun e => p (nb_idx e)) l)).
    { induction l as [|e l IH]; intros H B; [constructor|]. cbn [map] in *. inversion H as [|x y H1 H2]; subst. constructor.
      - intros C. apply in_map_iff in C as (e' & E & He'). apply H1. apply re_inj in E; [|apply B; simpl; auto..].
        apply in_map_iff. exists e'. auto.
      - apply IH; auto. intros e' He'. apply B. simpl; auto. }
    apply G; [apply NoDup_within|]. intros e He. now apply (within_idx He).
  - intros [j x]. split; intros H; apply in_map_iff in H as (e & E & He).
    + injection E as <- <-. apply In_neighbors_within in He as (L & C & Al).
      destruct (link_idx L) as (_ & _ & NE & _ & B). assert (Hl : length (s_atoms s') = n) by exact (proj1 HR). rewrite Hl in B.
      destruct (onto re_bound re_inj B) as (k & Hk & Ek).
      assert (exists a b, nth_error (s_atoms s) i = Some a /\ nth_error (s_atoms s) k = Some b) as (a & b & Ha & Hb).
      { destruct (@P_QRun.nth_error_some _ (s_atoms s) i Hi) as [a Ha]. destruct (@P_QRun.nth_error_some _ (s_atoms s) k Hk) as [b Hb]. eauto. }
      assert (exists e0, link s i k = Some e0) as (e0 & E0).
      { unfold link. rewrite Ha, Hb. destruct (Nat.ltb_spec i k).
        - destruct (abs_distance_ij s (a_pos a) (a_pos b)); eauto.
        - destruct (Nat.ltb_spec k i).
          + destruct (abs_distance_ij s (a_pos b) (a_pos a)); eauto.
          + exfalso. apply NE. rewrite <- Ek. f_equal. lia. }
      destruct (Hlink E0) as (e1 & E1 & S1). rewrite Ek, L in E1. injection E1 as <-.
      apply in_map_iff. exists e0. destruct (link_idx E0) as (I0 & _). rewrite I0, Ek, S1. split; [reflexivity|].
      apply In_neighbors_within. rewrite I0. split; [exact E0|]. rewrite <- (Hseen S1). split; [exact C|].
      rewrite <- Ek, !re_type in Al by auto. exact Al.
    + injection E as <- <-. destruct (within_idx He) as [Bj _]. apply In_neighbors_within in He as (L & C & Al).
      destruct (Hlink L) as (e1 & E1 & S1). destruct (link_idx E1) as (I1 & _).
      apply in_map_iff. exists e1. rewrite I1, S1. split; [reflexivity|].
      apply In_neighbors_within. rewrite I1. split; [exact E1|]. rewrite (Hseen S1), !re_type by auto. auto.
Qed.
Lemma within_count i : i < n -> length (neighbors_within s' r f (p i)) = length (neighbors_within s r f i).
Proof. intros Hi. pose proof (Permutation_length (within_seen Hi)) as H. now rewrite !map_length in H. Qed.
End Any.

(** The cutoff search, with all that matters afterwards. *)
Lemma cutoff_run (N : num) srt voro area_pow inv (s : sys N) (r t pad : N) (nl : Z) (f : filt) :
  stored s -> (s_real s <= 2300)%Z -> neqb r n0 = false ->
  (forall i, i < length (s_atoms s) -> length (neighbors_within s r f i) <= 300) ->
  exists u, find_neighbors srt voro area_pow inv s (mkArgs (MCutoff (CutVal r)) f t pad nl) = Ok (u, None) /\
    length (s_atoms u) = length (s_atoms s) /\ s_vorused u = false /\ s_nop u = s_nop s /\
    forall i a, nth_error (s_atoms s) i = Some a ->
      exists a', nth_error (s_atoms u) i = Some a' /\ same_atom a' a /\
        a_nbrs a' = neighbors_within s r f i /\ a_cond a' = 0%Z.
Proof.
  intros St Hs Hr Hf.
  unfold find_neighbors. unfold reset_all_neighbors. rewrite (each_atom_stored _ St). cbn [bind]. cbv zeta.
  cbn [fa_method fa_filter fa_threshold]. rewrite Hr. unfold real_count.
  match goal with |- context [Z.ltb 2300 ?x] => change x with (s_real s) end.
  assert (E : Z.ltb 2300 (s_real s) = false) by (apply Z.ltb_ge; lia). rewrite E.
  pose proof (@normal_spec N s f r St) as H.
  assert (C : match get_all_neighbors_normal (s <| s_atoms := map (@reset_atom_all N) (s_atoms s) |>
          <| s_filter := filter_code f |> <| s_nd := r |>) with
     | Ok u => forall i a', nth_error (s_atoms u) i = Some a' -> a_cond a' = 0%Z | Err _ => True end).
  { unfold get_all_neighbors_normal. change (_ <| s_vorused := false |>) with (prep s f r).
    assert (Hn : Z.to_nat (s_nop (prep s f r)) = length (s_atoms (prep s f r))).
    { simpl. rewrite map_length, St. apply Nat2Z.id. }
    rewrite Hn. pose proof (@fold_add_pair N (prep s f r) _ (s_atoms (prep s f r)) (@pairs_ok _)) as F.
    destruct (foldM _ _ _) as [l'|e]; cbn [bind]; [|exact I]. destruct F as [FL F]. intros i a' Ha'.
    change (nth_error l' i = Some a') in Ha'.
    assert (Hi : i < length (s_atoms (prep s f r))). { rewrite <- FL. apply nth_error_Some. congruence. }
    destruct (@P_QRun.nth_error_some _ _ _ Hi) as [a Ha]. destruct (F i a Ha) as (a2 & E2 & S2 & _). rewrite Ha' in E2. injection E2 as <-.
    simpl in Ha. rewrite nth_error_map in Ha. destruct (nth_error (s_atoms s) i) as [a0|]; [|discriminate]. injection Ha as <-.
    exact (f_equal (@a_cond N) S2). }
  destruct (get_all_neighbors_normal _) as [u|e]; cbn [bind].
  - destruct H as [[HL H] U]. eexists. split; [reflexivity|]. split; [exact HL|]. split; [|split].
    + exact (f_equal (@s_vorused N) U).
    + exact (f_equal (@s_nop N) U).
    + intros i a Ha. destruct (H i a Ha) as (a' & H1 & H2 & H3 & _). exists a'. split; [exact H1|]. split; [exact H2|]. split; [exact H3|].
      exact (C i a' H1).
  - destruct H as (_ & i & Hi & H). specialize (Hf i Hi). unfold max_nbrs in H. lia.
Qed.

(** On the reals the vector between two atoms is odd, and a common shift cancels. *)
Lemma link_real (s : sys Rnum) i j a b : nonneg3 (s_len s) ->
  nth_error (s_atoms s) i = Some a -> nth_error (s_atoms s) j = Some b -> i <> j ->
  link s i j = Some (mkNbr j (norm (pbc_diff s (vsub (a_pos b) (a_pos a)))) n1 (pbc_diff s (vsub (a_pos b) (a_pos a)))).
Proof.
  intros HL Ha Hb Hij. unfold link. rewrite Ha, Hb. destruct (Nat.ltb_spec i j); [reflexivity|].
  destruct (Nat.ltb_spec j i); [|lia]. unfold abs_distance_ij.
  rewrite (vsub_opp (a_pos b) (a_pos a)), (pbc_diff_opp s (vsub (a_pos a) (a_pos b)) HL), norm_vopp. reflexivity.
Qed.
Lemma link_moved (t : v3 Rnum) p (s s' : sys Rnum) : nonneg3 (s_len s) -> rearranged (fun v => vadd v t) p s s' ->
  forall i j e, link s i j = Some e ->
  exists e', link s' (p i) (p j) = Some e' /\ (nb_dist e', nb_weight e', nb_vec e') = (nb_dist e, nb_weight e, nb_vec e).
Proof.
  intros HL (L & I & A & B1 & B2 & B3 & B4) i j e E. destruct (link_idx E) as (_ & _ & NE & Bi & Bj).
  destruct (@P_QRun.nth_error_some _ _ _ Bi) as [a Ha]. destruct (@P_QRun.nth_error_some _ _ _ Bj) as [b Hb].
  destruct (A i a Ha) as (a' & Ha' & Pa & _). destruct (A j b Hb) as (b' & Hb' & Pb & _).
  rewrite (link_real HL Ha Hb NE) in E. injection E as <-.
  assert (HL' : nonneg3 (s_len s')) by (rewrite B1; exact HL).
  assert (NE' : p i <> p j) by (intros C; apply NE; apply I; auto).
  rewrite (link_real HL' Ha' Hb' NE'). eexists. split; [reflexivity|]. cbn [nb_dist nb_weight nb_vec].
  assert (V : vsub (a_pos b') (a_pos a') = vsub (a_pos b) (a_pos a)).
  { rewrite Pa, Pb. unfold vsub, vadd. cbn. f_equal; ring. }
  assert (PB : forall d, pbc_diff s' d = pbc_diff s d).
  { intros d. unfold pbc_diff. rewrite B1, B2, B3, B4. reflexivity. }
  rewrite V, PB. reflexivity.
Qed.

(** ** Parameters *)
Local Open Scope R_scope.
Lemma Rsum_perm l l' : Permutation l l' -> Rsum l = Rsum l'.
Proof. unfold Rsum. induction 1; cbn; lra. Qed.
Lemma wsum_perm V V' : Permutation V V' -> wsum V = wsum V'.
Proof. intros H. apply Rsum_perm, Permutation_map, H. Qed.
Lemma resc_perm vor (n : R) V V' : Permutation V V' ->
  Permutation (rescV (nfac vor V / n) V) (rescV (nfac vor V' / n) V').
Proof. intros H. unfold nfac. rewrite (wsum_perm H). apply Permutation_map, H. Qed.
Close Scope R_scope.

Section Parameters.
Variables (p : nat -> nat) (u u' : sys Rnum) (qs : list Z).
Hypothesis Hr : q_ready u.
Hypothesis Hr' : q_ready u'.
Hypothesis HF : Forall (fun q => 2 <= q <= 12)%Z qs.
Hypothesis Hv : s_vorused u = false.
Hypothesis Hv' : s_vorused u' = false.
Hypothesis Hc : forall a, In a (s_atoms u) -> a_cond a = 0%Z.
Hypothesis Hc' : forall a, In a (s_atoms u') -> a_cond a = 0%Z.
Hypothesis Hnz : forall a e, In a (s_atoms u) -> In e (a_nbrs a) -> nonzero (nb_vec e).
Hypothesis Hp : forall i a, nth_error (s_atoms u) i = Some a -> exists a', nth_error (s_atoms u') (p i) = Some a' /\
  Permutation (a_nbrs a') (map (renamed p) (a_nbrs a)).
Hypothesis Hsur : forall a', In a' (s_atoms u') -> exists i a, nth_error (s_atoms u) i = Some a /\ nth_error (s_atoms u') (p i) = Some a'.
Let l := s_atoms u.
Let l' := s_atoms u'.

Lemma counted_all0 a : In a l -> counted l a = a_nbrs a.
Proof. intros Ha. apply counted_same_cond; auto. intros e He. now apply (proj2 Hr a Ha). Qed.
Lemma counted_all0' a : In a l' -> counted l' a = a_nbrs a.
Proof. intros Ha. apply counted_same_cond; auto. intros e He. now apply (proj2 Hr' a Ha). Qed.
Lemma apart_l : apart l.
Proof. intros a e Ha He. rewrite (counted_all0 Ha) in He. eauto. Qed.
Lemma Vof_perm i a a' : nth_error l i = Some a -> nth_error l' (p i) = Some a' -> Permutation (Vof l' a') (Vof l a).
Proof.
  intros Ha Ha'. destruct (Hp Ha) as (x & Ex & P). fold l' in Ex. rewrite Ha' in Ex. injection Ex as <-.
  unfold Vof. rewrite (counted_all0 (nth_error_In _ _ Ha)), (counted_all0' (nth_error_In _ _ Ha')).
  unfold of_nbrs. apply (Permutation_map (fun e => (nb_weight e : R, nb_vec e))) in P. rewrite map_map in P. exact P.
Qed.
Lemma apart_l' : apart l'.
Proof.
  intros a' e Ha' He. destruct (Hsur Ha') as (i & a & Ea & Ea'). rewrite (counted_all0' Ha') in He.
  destruct (Hp Ea) as (x & Ex & P). rewrite Ea' in Ex. injection Ex as <-.
  apply (Permutation_in _ P) in He. apply in_map_iff in He as (e0 & <- & He0). exact (Hnz (nth_error_In _ _ Ea) He0).
Qed.
Lemma same_q i a a' k : nth_error l i = Some a -> nth_error l' (p i) = Some a' -> In (Z.of_nat k) qs ->
  nth_error (a_q (q_all false l' qs a')) (Z.to_nat (Z.of_nat k - 2)) = nth_error (a_q (q_all false l qs a)) (Z.to_nat (Z.of_nat k - 2)).
Proof.
  intros Ha Ha' Hk. rewrite <- Hv' at 1. rewrite <- Hv.
  unfold l, l'. rewrite (stored_q Hr' HF apart_l' (nth_error_In _ _ Ha') Hk), (stored_q Hr HF apart_l (nth_error_In _ _ Ha) Hk).
  f_equal. f_equal. fold l l'. rewrite Hv, Hv'. apply gram_perm.
  pose proof (resc_perm false 1 (Vof_perm Ha Ha')) as H. unfold Rdiv in H. rewrite !Rinv_1, !Rmult_1_r in H. exact H.
Qed.
Lemma nb_perm i a a' : nth_error l i = Some a -> nth_error l' (p i) = Some a' ->
  exists bs, Permutation (nb_atoms l' (counted l' a')) bs /\
    Forall2 (fun b b' => exists j, nth_error l j = Some b /\ nth_error l' (p j) = Some b') (nb_atoms l (counted l a)) bs.
Proof.
  intros Ha Ha'. rewrite (counted_all0 (nth_error_In _ _ Ha)), (counted_all0' (nth_error_In _ _ Ha')).
  destruct (Hp Ha) as (x & Ex & P). fold l' in Ex. rewrite Ha' in Ex. injection Ex as <-.
  exists (nb_atoms l' (map (renamed p) (a_nbrs a))). split; [now apply Permutation_flat_map|].
  assert (B : forall e, In e (a_nbrs a) -> nb_idx e < length l) by (intros e He; now apply (proj2 Hr a (nth_error_In _ _ Ha))).
  clear P. induction (a_nbrs a) as [|e es IH]; [constructor|]. unfold nb_atoms. cbn [map flat_map].
  destruct (@P_QRun.nth_error_some _ l (nb_idx e)) as [b Eb]; [apply B; simpl; auto|].
  destruct (Hp Eb) as (b' & Eb' & _). cbn [renamed nb_idx]. fold l' in Eb'. rewrite Eb, Eb'. constructor; [eauto|].
  apply IH. intros x Hx. apply B. simpl; auto.
Qed.
Lemma same_aq i a a' k : nth_error l i = Some a -> nth_error l' (p i) = Some a' -> In (Z.of_nat k) qs ->
  nth_error (a_aq (aq_all (map (q_all false l' qs) l') qs (q_all false l' qs a'))) (Z.to_nat (Z.of_nat k - 2)) =
  nth_error (a_aq (aq_all (map (q_all false l qs) l) qs (q_all false l qs a))) (Z.to_nat (Z.of_nat k - 2)).
Proof.
  intros Ha Ha' Hk. rewrite <- Hv' at 1 2. rewrite <- Hv.
  unfold l, l'. rewrite (stored_aq Hr' HF apart_l' (nth_error_In _ _ Ha') Hk), (stored_aq Hr HF apart_l (nth_error_In _ _ Ha) Hk).
  f_equal. f_equal. fold l l'. rewrite Hv, Hv'. apply gram_perm.
  destruct (nb_perm Ha Ha') as (bs & P & F). unfold avgV.
  assert (EL : length (nb_atoms l' (counted l' a')) = length (nb_atoms l (counted l a))).
  { rewrite (Permutation_length P). clear -F. induction F; simpl; auto. }
  rewrite !map_length, EL. set (n := INR _). clearbody n.
  transitivity (concat (map (fun V => rescV (nfac false V / n) V) (Vof l' a' :: map (Vof l') bs))).
  { apply Permutation_concat, Permutation_map, perm_skip, Permutation_map. exact P. }
  cbn [map concat]. apply Permutation_app; [apply resc_perm, (Vof_perm Ha Ha')|].
  clear P EL. induction F as [|b b' bs1 bs2 (j & Hj & Hj') _ IH]; cbn [map concat]; [constructor|].
  apply Permutation_app; [apply resc_perm, (Vof_perm Hj Hj')|exact IH].
Qed.
End Parameters.
