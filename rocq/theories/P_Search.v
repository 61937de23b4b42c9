(** Proofs about the searches built on candidate lists. *)
From Coq Require Import Reals Lia Permutation Sorted.
From Verif Require Import Base Num NumR Types M_Geometry S_Geometry P_Geometry M_Container
  M_Neighbors P_Container S_Neighbors P_Neighbors P_Temp P_Cells.
Close Scope R_scope.
Set Implicit Arguments.
Unset Strict Implicit.
#[local] Opaque abs_distance_ij.
#[local] Arguments max_nbrs : simpl never.

(** ** Reordering the pairs *)
Lemma flat_map_filter {A B} (F : A -> list B) (keep : A -> bool) l :
  (forall p, keep p = false -> F p = []) -> flat_map F l = flat_map F (filter keep l).
Proof.
  intros H. induction l as [|p l IH]; simpl; auto. destruct (keep p) eqn:E; simpl; rewrite IH; auto.
  now rewrite (H p E).
Qed.

Lemma flat_map_same {A B} (F : A -> list B) (keep : A -> bool) l1 l2 :
  (forall p, keep p = false -> F p = []) -> NoDup l1 -> NoDup l2 ->
  (forall p, keep p = true -> (In p l1 <-> In p l2)) ->
  Permutation (flat_map F l1) (flat_map F l2).
Proof.
  intros HF N1 N2 H. rewrite (flat_map_filter l1 HF), (flat_map_filter l2 HF).
  apply Permutation_flat_map. apply NoDup_Permutation; try now apply NoDup_filter.
  intros p. rewrite !filter_In. destruct (keep p) eqn:E; [|intuition discriminate].
  rewrite (H p E). tauto.
Qed.

Lemma filter_length_le {A} (f : A -> bool) l : length (filter f l) <= length l.
Proof. induction l; simpl; auto. destruct (f a); simpl; lia. Qed.

Lemma NoDup_pairs n : NoDup (pairs n).
Proof.
  unfold pairs. apply NoDup_flat_map; [apply seq_NoDup| |].
  - intros i _. unfold pairs_from. apply FinFun.Injective_map_NoDup; [|apply seq_NoDup].
    intros a b E. congruence.
  - intros i i' x _ _ H1 H2. unfold pairs_from in *. apply in_map_iff in H1, H2.
    destruct H1 as (? & <- & _), H2 as (? & E & _). congruence.
Qed.

Lemma foldM_map {S X Y} (f : S -> Y -> res S) (g : X -> Y) l (s : S) :
  foldM f (map g l) s = foldM (fun s x => f s (g x)) l s.
Proof. revert s; induction l; intros s; simpl; auto. destruct (f s (g a)); simpl; auto. Qed.

Section G.
Variable N : num.
Implicit Types (s : sys N).

(** ** Candidates *)
Definition temps_ok (cmp : N -> N -> bool) s (s2 : sys N) : Prop :=
  s2 = s <| s_atoms := s_atoms s2 |> /\
  length (s_atoms s2) = length (s_atoms s) /\
  forall i a, nth_error (s_atoms s) i = Some a -> exists a2, nth_error (s_atoms s2) i = Some a2 /\
    statT a2 = statT a /\ Permutation (a_temp a2) (a_temp a ++ cands cmp s (s_nd s) i).

Lemma get_temp_brute s : stored s -> s_usecells s = false ->
  exists s2, get_temp_neighbors s = Ok s2 /\ temps_ok nleb s s2.
Proof.
  intros Hst Hu. unfold get_temp_neighbors. rewrite Hu.
  assert (Hn : Z.to_nat (s_nop s) = length (s_atoms s)) by (rewrite Hst; apply Nat2Z.id).
  rewrite Hn.
  destruct (@fold_add_temp N nleb s (pairs (length (s_atoms s))) (s_atoms s)) as (l' & -> & HL & H).
  { intros p Hp. now apply pairs_ok. }
  cbn [bind]. eexists. split; [reflexivity|]. split; [reflexivity|]. split; [exact HL|].
  intros i a Ha. destruct (H i a Ha) as (a' & Ha' & S' & T'). exists a'. split; [exact Ha'|].
  split; auto. rewrite T', tevs_pairs; [reflexivity|]. apply nth_error_Some; congruence.
Qed.

(** ** One atom of the number method *)
Variable srt : list (datom N) -> list (datom N).
(** std::sort need only work on the lists it is given. *)
Variable good : list (datom N) -> Prop.
Hypothesis Hsrt : forall l, good l -> Permutation (srt l) l /\
  StronglySorted (fun x y => nltb (d_dist y) (d_dist x) = false) (srt l).

Lemma firstn_In {A} (l : list A) n x : In x (firstn n l) -> In x l.
Proof. revert n; induction l; intros [|n]; simpl; try tauto. intros [H|H]; eauto. Qed.

Lemma cands_range cmp s r i d : In d (cands cmp s r i) -> d_idx d < length (s_atoms s).
Proof. intros H. apply In_cands in H. destruct H as (e & H & _). apply link_idx in H. tauto. Qed.

Definition bynumber_post s (cmp : N -> N -> bool) (nns : Z) (ti : nat) (a' : atom N) : Prop :=
  exists a c, nth_error (s_atoms s) ti = Some a /\ erase a' = erase a /\
    Permutation c (cands cmp s (s_nd s) ti) /\
    StronglySorted (fun x y => nltb (d_dist y) (d_dist x) = false) c /\
    (0 <= nns)%Z /\ (nns <= Z.of_nat (length c))%Z /\ a_temp a' = c /\
    a_nbrs a' = arrows s (s_atoms s) a (map (@d_idx N) (firstn (Z.to_nat nns) c)).
Definition bynumber_fail s (cmp : N -> N -> bool) (nns : Z) (ti : nat) : Prop :=
  ti < length (s_atoms s) /\
  (nns < 0 \/ Z.of_nat (length (cands cmp s (s_nd s) ti)) < nns)%Z.

Lemma size_lt_false k n : size_lt k n = false <-> (0 <= n <= Z.of_nat k)%Z.
Proof. unfold size_lt. rewrite Bool.orb_false_iff, !Z.ltb_ge. tauto. Qed.
Lemma size_lt_true k n : size_lt k n = true <-> (n < 0 \/ Z.of_nat k < n)%Z.
Proof. unfold size_lt. rewrite Bool.orb_true_iff, !Z.ltb_lt. tauto. Qed.

Lemma bynumber_loop_good s s2 cmp nns :
  temps_ok cmp s s2 ->
  (forall i l, Permutation l (cands cmp s (s_nd s) i) -> good l) ->
  (forall a, In a (s_atoms s) -> a_nbrs a = [] /\ a_temp a = []) ->
  match loop_atoms (bynumber_atom srt s2 nns true) (seq 0 (length (s_atoms s))) (s_atoms s2) with
  | Ok (l', true) => length l' = length (s_atoms s) /\
      forall ti, ti < length (s_atoms s) -> exists a', nth_error l' ti = Some a' /\ bynumber_post s cmp nns ti a'
  | Ok (l', false) => exists ti, bynumber_fail s cmp nns ti
  | Err e => e = UB /\ (300 < nns)%Z
  end.
Proof.
  intros (Es2 & HL2 & HT) Hgood Hreset.
  assert (Eabs : forall p q, abs_distance_ij s2 p q = abs_distance_ij s p q) by (intros; now rewrite Es2).
  assert (EE2 : erase_eq (s_atoms s2) (s_atoms s)).
  { intros k. destruct (nth_error (s_atoms s) k) as [a|] eqn:Ea.
    - destruct (HT k a Ea) as (a2 & -> & S2 & _). simpl. f_equal. exact (f_equal (@erase N) S2).
    - apply nth_error_None in Ea. rewrite <- HL2 in Ea. apply nth_error_None in Ea. now rewrite Ea. }
  pose proof (@loop_atoms_spec N (bynumber_atom srt s2 nns true) (bynumber_post s cmp nns)
    (bynumber_fail s cmp nns) (fun _ => (300 < nns)%Z) (s_atoms s2) (seq 0 (length (s_atoms s)))
    (seq_NoDup _ _)) as L.
  match type of L with ?P -> _ => assert (HP : P) end.
  { intros ti l Hti Hat HLl Hst. apply in_seq in Hti.
    destruct (nth_error (s_atoms s) ti) as [a|] eqn:Ea; [|apply nth_error_None in Ea; lia].
    destruct (HT ti a Ea) as (a2 & Ha2 & S2 & P2). destruct (Hreset a (nth_error_In _ _ Ea)) as [Hn0 Ht0].
    rewrite Ht0 in P2. simpl in P2. rewrite Ha2 in Hat.
    unfold bynumber_atom. rewrite (get_Ok Hat). cbn [bind].
    destruct (size_lt (length (a_temp a2)) nns) eqn:Esz.
    { apply size_lt_true in Esz. rewrite (Permutation_length P2) in Esz.
      repeat split; auto. lia. }
    apply size_lt_false in Esz. rewrite (Permutation_length P2) in Esz.
    set (c := srt (a_temp a2)). destruct (Hsrt (Hgood _ _ P2)) as [Hperm Hsorted]. fold c in Hperm, Hsorted.
    assert (Hl1 : nth_error (sort_temp srt l ti) ti = Some (a2 <| a_temp := c |>)).
    { unfold sort_temp. rewrite nth_error_upd, Nat.eqb_refl, Hat. reflexivity. }
    rewrite (get_Ok Hl1). cbn [bind]. cbn [a_temp].
    assert (Hsl : a_temp (a2 <| a_temp := c |>) = c) by reflexivity. rewrite Hsl.
    rewrite <- (@foldM_map _ _ _ (fun l j => process_neighbor s2 l ti j) (@d_idx N)).
    assert (Hnb : a_nbrs (a2 <| a_temp := c |>) = []).
    { apply (f_equal (@a_nbrs N)) in S2. simpl in S2 |- *. congruence. }
    assert (Hrange : forall j, In j (map (@d_idx N) (firstn (Z.to_nat nns) c)) -> j < length (sort_temp srt l ti)).
    { intros j Hj. apply in_map_iff in Hj. destruct Hj as (d & <- & Hd). apply firstn_In in Hd.
      unfold sort_temp. rewrite length_upd, HLl, HL2.
      apply (Permutation_in _ Hperm), (Permutation_in _ P2) in Hd. eapply cands_range; eauto. }
    rewrite (fold_process s2 Hl1); auto; [|rewrite Hnb; simpl; unfold max_nbrs; lia].
    rewrite Hnb. simpl length at 1. rewrite Nat.add_0_l, map_length.
    assert (Hlc : length c = length (cands cmp s (s_nd s) ti)).
    { rewrite (Permutation_length Hperm). apply Permutation_length, P2. }
    rewrite firstn_length_le by lia.
    destruct (Nat.leb_spec (Z.to_nat nns) max_nbrs) as [Hcap|Hcap].
    2:{ cbn [bind]. split; auto. unfold max_nbrs in Hcap. lia. }
    cbn [bind]. split; [|split; [|split]].
    - unfold sort_temp. now rewrite !length_upd.
    - intros k Hk. apply Nat.eqb_neq in Hk. unfold sort_temp. now rewrite !nth_error_upd, Hk.
    - rewrite nth_error_upd, Nat.eqb_refl, Hl1, Hat. simpl. reflexivity.
    - rewrite nth_error_upd, Nat.eqb_refl, Hl1. cbn [option_map]. eexists. split; [reflexivity|].
      exists a, c. split; [exact Ea|]. split.
      { exact (f_equal (@erase N) S2). }
      split; [transitivity (a_temp a2); auto|]. split; auto. split; [lia|]. split; [lia|].
      split; [reflexivity|]. simpl.
      assert (Harr : forall js, arrows s2 (sort_temp srt l ti) (a2 <| a_temp := c |>) js = arrows s (s_atoms s) a js).
      { intros js. apply flat_map_ext_in. intros j _. unfold arrow.
        assert (EQ : option_map (@a_pos N) (nth_error (sort_temp srt l ti) j) = option_map (@a_pos N) (nth_error (s_atoms s) j)).
        { assert (Q : forall l1 l2, erase_eq l1 l2 -> option_map (@a_pos N) (nth_error l1 j) = option_map (@a_pos N) (nth_error l2 j)).
          { intros l1 l2 H. specialize (H j). destruct (nth_error l1 j), (nth_error l2 j); simpl in *; try discriminate; auto.
            apply Some_inj in H. now rewrite (erase_pos H). }
          rewrite (Q _ l); [|apply erase_upd; now intros []].
          rewrite (Q l (s_atoms s2)) by exact Hst. now apply Q. }
        assert (EP : a_pos (a2 <| a_temp := c |>) = a_pos a).
        { apply (f_equal (@a_pos N)) in S2. exact S2. }
        rewrite EP. destruct (nth_error (sort_temp srt l ti) j), (nth_error (s_atoms s) j); simpl in EQ; try discriminate; auto.
        apply Some_inj in EQ. now rewrite EQ, Eabs. }
      rewrite Harr. reflexivity. }
  specialize (L HP (s_atoms s2) eq_refl (fun _ _ => eq_refl) (fun _ => eq_refl)).
  destruct (loop_atoms _ _ _) as [[l' ok]|e].
  - destruct L as (HL' & _ & _ & L). destruct ok.
    + split; [congruence|]. intros ti Hti. apply L. apply in_seq. lia.
    + destruct L as (ti & _ & H). eauto.
  - destruct L as (-> & ti & _ & H). auto.
Qed.

(** ** One atom of the adaptive method *)
Definition ad_body s ti (dcut : N) (l : list (atom N)) (d : datom N) : res (list (atom N)) :=
  if nltb (d_dist d) dcut then
    a <- get l ti ;; b <- get l (d_idx d) ;;
    if filtered (s_filter s) (a_type a) (a_type b) then Ok l
    else
      l' <- process_neighbor s l ti (d_idx d) ;;
      Ok (set_cutoff l' ti dcut)
  else Ok l.

Definition ltype (l : list (atom N)) (i : nat) : Z :=
  match nth_error l i with Some a => a_type a | None => 0%Z end.
Definition ad_keep s (l : list (atom N)) (a : atom N) (dcut : N) (d : datom N) : bool :=
  nltb (d_dist d) dcut && negb (filtered (s_filter s) (a_type a) (ltype l (d_idx d))).

Lemma ltype_erase l l' i : erase_eq l l' -> ltype l i = ltype l' i.
Proof.
  intros H. unfold ltype. specialize (H i).
  destruct (nth_error l i), (nth_error l' i); simpl in H; try discriminate; auto.
  apply Some_inj in H. now rewrite (erase_type H).
Qed.

Lemma fold_adaptive s ti dcut ds : forall l a, nth_error l ti = Some a ->
  length (a_nbrs a) <= max_nbrs ->
  (forall d, In d ds -> d_idx d < length l) ->
  let js := map (@d_idx N) (filter (ad_keep s l a dcut) ds) in
  match foldM (ad_body s ti dcut) ds l with
  | Ok l' => length l' = length l /\ (forall k, k <> ti -> nth_error l' k = nth_error l k) /\
      exists a', nth_error l' ti = Some a' /\ erase a' = erase a /\ a_temp a' = a_temp a /\
        a_nbrs a' = a_nbrs a ++ arrows s l a js /\
        a_cutoff a' = match js with [] => a_cutoff a | _ => dcut end
  | Err e => e = UB /\ max_nbrs < length (a_nbrs a) + length js
  end.
Proof.
  induction ds as [|d ds IH]; intros l a Ha Hcap Hds; cbn [foldM].
  - cbn. repeat split; auto. exists a. rewrite app_nil_r. auto.
  - assert (Hd : d_idx d < length l) by (apply Hds; now left).
    assert (Hds' : forall x, In x ds -> d_idx x < length l) by (intros; apply Hds; now right).
    destruct (nth_error l (d_idx d)) as [b|] eqn:Eb; [|apply nth_error_None in Eb; lia].
    assert (Hlt : ltype l (d_idx d) = a_type b) by (unfold ltype; now rewrite Eb).
    cbn [filter]. unfold ad_body at 1.
    assert (Hk : ad_keep s l a dcut d = nltb (d_dist d) dcut && negb (filtered (s_filter s) (a_type a) (a_type b))).
    { unfold ad_keep. now rewrite Hlt. }
    rewrite Hk. destruct (nltb (d_dist d) dcut); cbn [andb].
    2:{ cbn [bind]. exact (IH l a Ha Hcap Hds'). }
    rewrite (get_Ok Ha), (get_Ok Eb). cbn [bind].
    destruct (filtered _ _ _); cbn [negb].
    { cbn [bind]. exact (IH l a Ha Hcap Hds'). }
    unfold process_neighbor. rewrite (get_Ok Ha), (get_Ok Eb). cbn [bind].
    assert (EA : arrow s l a (d_idx d) = let '(d', v) := abs_distance_ij s (a_pos a) (a_pos b) in Some (mkNbr (d_idx d) d' n1 v)).
    { unfold arrow. now rewrite Eb. }
    destruct (abs_distance_ij s (a_pos a) (a_pos b)) as [d' v].
    unfold push_nbr. rewrite (get_Ok Ha). cbn [bind].
    destruct (Nat.ltb_spec (length (a_nbrs a)) max_nbrs) as [Hlt'|Hge].
    2:{ cbn [bind map length]. split; auto. lia. }
    cbn [bind]. set (e := mkNbr (d_idx d) d' n1 v) in *.
    set (a1 := a <| a_nbrs := a_nbrs a ++ [e] |> <| a_cutoff := dcut |>).
    set (l1 := set_cutoff _ ti dcut).
    assert (Ha1 : nth_error l1 ti = Some a1).
    { unfold l1, set_cutoff. rewrite !nth_error_upd, Nat.eqb_refl, Ha. reflexivity. }
    assert (HL1 : length l1 = length l) by (unfold l1, set_cutoff; now rewrite !length_upd).
    assert (EE : erase_eq l1 l).
    { unfold l1, set_cutoff. rewrite upd_upd. apply erase_upd. now intros []. }
    assert (Ho : forall k, k <> ti -> nth_error l1 k = nth_error l k).
    { intros k Hk'. apply Nat.eqb_neq in Hk'. unfold l1, set_cutoff. rewrite upd_upd, nth_error_upd. now rewrite Hk'. }
    specialize (IH l1 a1 Ha1). rewrite HL1 in IH.
    assert (Hc1 : length (a_nbrs a1) <= max_nbrs) by (unfold a1; simpl; rewrite app_length; simpl; lia).
    specialize (IH Hc1 Hds').
    assert (Ef : filter (ad_keep s l1 a1 dcut) ds = filter (ad_keep s l a dcut) ds).
    { apply filter_ext. intros x. unfold ad_keep. now rewrite (ltype_erase (d_idx x) EE). }
    rewrite Ef in IH. cbv zeta in IH.
    destruct (foldM _ ds l1) as [l'|er].
    + destruct IH as (HL' & Ho' & a' & Ha' & Er & Et & En & Ec). split; [congruence|]. split.
      { intros k Hk'. rewrite Ho', Ho; auto. }
      exists a'. split; auto. split; [rewrite Er; reflexivity|]. split; [rewrite Et; reflexivity|]. split.
      * rewrite En. rewrite (@arrows_erase N s l1 l a1 a _ EE eq_refl). unfold a1. simpl.
        unfold arrows at 2. cbn [flat_map]. rewrite EA. now rewrite <- app_assoc.
      * rewrite Ec. cbn [map]. now destruct (map _ _).
    + destruct IH as [-> HH]. split; auto. unfold a1 in HH. simpl in HH. rewrite app_length in HH. simpl in HH |- *. lia.
Qed.

Definition ad_cut (nlimit : Z) (padding : N) (c : list (datom N)) : N :=
  nmul (nmul padding (ndiv n1 (nofZ nlimit))) (nsum (map (@d_dist N) (firstn (Z.to_nat nlimit) c))).

Definition adaptive_post s (cmp : N -> N -> bool) (nlimit : Z) (padding : N) (ti : nat) (a' : atom N) : Prop :=
  exists a c, nth_error (s_atoms s) ti = Some a /\ erase a' = erase a /\
    Permutation c (cands cmp s (s_nd s) ti) /\
    StronglySorted (fun x y => nltb (d_dist y) (d_dist x) = false) c /\
    (0 <= nlimit)%Z /\ (nlimit <= Z.of_nat (length c))%Z /\ a_temp a' = c /\
    let js := map (@d_idx N) (filter (ad_keep s (s_atoms s) a (ad_cut nlimit padding c)) c) in
    a_nbrs a' = arrows s (s_atoms s) a js /\ (js <> [] -> a_cutoff a' = ad_cut nlimit padding c).

Lemma adaptive_loop_good s s2 cmp nlimit padding :
  temps_ok cmp s s2 ->
  (forall i l, Permutation l (cands cmp s (s_nd s) i) -> good l) ->
  (forall a, In a (s_atoms s) -> a_nbrs a = [] /\ a_temp a = []) ->
  match loop_atoms (adaptive_atom srt s2 nlimit padding) (seq 0 (length (s_atoms s))) (s_atoms s2) with
  | Ok (l', true) => length l' = length (s_atoms s) /\
      forall ti, ti < length (s_atoms s) -> exists a', nth_error l' ti = Some a' /\ adaptive_post s cmp nlimit padding ti a'
  | Ok (l', false) => exists ti, bynumber_fail s cmp nlimit ti
  | Err e => e = UB /\ exists ti, max_nbrs < length (cands cmp s (s_nd s) ti)
  end.
Proof.
  intros (Es2 & HL2 & HT) Hgood Hreset.
  assert (Eabs : forall p q, abs_distance_ij s2 p q = abs_distance_ij s p q) by (intros; now rewrite Es2).
  assert (Efil : s_filter s2 = s_filter s) by (now rewrite Es2).
  assert (EE2 : erase_eq (s_atoms s2) (s_atoms s)).
  { intros k. destruct (nth_error (s_atoms s) k) as [a|] eqn:Ea.
    - destruct (HT k a Ea) as (a2 & -> & S2 & _). simpl. f_equal. exact (f_equal (@erase N) S2).
    - apply nth_error_None in Ea. rewrite <- HL2 in Ea. apply nth_error_None in Ea. now rewrite Ea. }
  pose proof (@loop_atoms_spec N (adaptive_atom srt s2 nlimit padding) (adaptive_post s cmp nlimit padding)
    (bynumber_fail s cmp nlimit) (fun ti => max_nbrs < length (cands cmp s (s_nd s) ti)) (s_atoms s2) (seq 0 (length (s_atoms s)))
    (seq_NoDup _ _)) as L.
  match type of L with ?P -> _ => assert (HP : P) end.
  { intros ti l Hti Hat HLl Hst. apply in_seq in Hti.
    destruct (nth_error (s_atoms s) ti) as [a|] eqn:Ea; [|apply nth_error_None in Ea; lia].
    destruct (HT ti a Ea) as (a2 & Ha2 & S2 & P2). destruct (Hreset a (nth_error_In _ _ Ea)) as [Hn0 Ht0].
    rewrite Ht0 in P2. simpl in P2. rewrite Ha2 in Hat.
    unfold adaptive_atom. rewrite (get_Ok Hat). cbn [bind].
    destruct (size_lt (length (a_temp a2)) nlimit) eqn:Esz.
    { apply size_lt_true in Esz. rewrite (Permutation_length P2) in Esz.
      repeat split; auto. lia. }
    apply size_lt_false in Esz. rewrite (Permutation_length P2) in Esz.
    set (c := srt (a_temp a2)). destruct (Hsrt (Hgood _ _ P2)) as [Hperm Hsorted]. fold c in Hperm, Hsorted.
    pose (a2c := a2 <| a_temp := c |>).
    assert (Hl1 : nth_error (sort_temp srt l ti) ti = Some a2c).
    { unfold sort_temp. rewrite nth_error_upd, Nat.eqb_refl, Hat. reflexivity. }
    rewrite (get_Ok Hl1). cbn [bind]. cbv zeta.
    assert (Hsl : a_temp a2c = c) by reflexivity. rewrite Hsl.
    fold (ad_cut nlimit padding c). set (dcut := ad_cut nlimit padding c).
    assert (Hnb : a_nbrs a2c = []).
    { apply (f_equal (@a_nbrs N)) in S2. simpl in S2 |- *. congruence. }
    assert (EEl : erase_eq (sort_temp srt l ti) (s_atoms s)).
    { intros k. transitivity (option_map (@erase N) (nth_error l k)).
      - apply erase_upd. now intros [].
      - now rewrite Hst. }
    assert (Hlc : length c = length (cands cmp s (s_nd s) ti)).
    { rewrite (Permutation_length Hperm). apply Permutation_length, P2. }
    assert (Hrange : forall d, In d c -> d_idx d < length (sort_temp srt l ti)).
    { intros d Hd. unfold sort_temp. rewrite length_upd, HLl, HL2.
      apply (Permutation_in _ Hperm), (Permutation_in _ P2) in Hd. eapply cands_range; eauto. }
    assert (Hcap0 : length (a_nbrs a2c) <= max_nbrs) by (rewrite Hnb; simpl; unfold max_nbrs; lia).
    pose proof (@fold_adaptive s2 ti dcut c _ _ Hl1 Hcap0 Hrange) as F.
    assert (EF : filter (ad_keep s2 (sort_temp srt l ti) a2c dcut) c
                 = filter (ad_keep s (s_atoms s) a dcut) c).
    { apply filter_ext. intros x. unfold ad_keep. rewrite Efil, (ltype_erase (d_idx x) EEl).
      assert (ET : a_type a2c = a_type a) by (apply (f_equal (@a_type N)) in S2; exact S2).
      now rewrite ET. }
    cbv zeta in F. rewrite EF, Hnb in F.
    change (fun (l0 : list (atom N)) (d : datom N) => _) with (ad_body s2 ti dcut).
    assert (Harr : forall js, arrows s2 (sort_temp srt l ti) a2c js = arrows s (s_atoms s) a js).
    { intros js. apply flat_map_ext_in. intros j _. unfold arrow.
      assert (EQ : option_map (@a_pos N) (nth_error (sort_temp srt l ti) j) = option_map (@a_pos N) (nth_error (s_atoms s) j)).
      { specialize (EEl j). destruct (nth_error (sort_temp srt l ti) j), (nth_error (s_atoms s) j); simpl in *; try discriminate; auto.
        apply Some_inj in EEl. now rewrite (erase_pos EEl). }
      assert (EP : a_pos a2c = a_pos a).
      { apply (f_equal (@a_pos N)) in S2. exact S2. }
      rewrite EP. destruct (nth_error (sort_temp srt l ti) j), (nth_error (s_atoms s) j); simpl in EQ; try discriminate; auto.
      apply Some_inj in EQ. now rewrite EQ, Eabs. }
    destruct (foldM (ad_body s2 ti dcut) c (sort_temp srt l ti)) as [l'|er]; cbn [bind].
    2:{ destruct F as [-> F]. split; auto. simpl in F. rewrite map_length in F.
        pose proof (@filter_length_le _ (ad_keep s (s_atoms s) a dcut) c). lia. }
    destruct F as (HL' & Ho' & a' & Ha' & Er & Et & En & Ec). split; [|split; [|split]].
    - rewrite HL'. unfold sort_temp. now rewrite !length_upd.
    - intros k Hk. rewrite Ho'; auto. apply Nat.eqb_neq in Hk. unfold sort_temp. now rewrite !nth_error_upd, Hk.
    - rewrite Ha', Hat. simpl. rewrite Er. reflexivity.
    - exists a'. split; auto. exists a, c. split; [exact Ea|]. split.
      { rewrite Er. exact (f_equal (@erase N) S2). }
      split; [transitivity (a_temp a2); auto|]. split; auto. split; [lia|]. split; [lia|].
      split; [rewrite Et; reflexivity|]. simpl. rewrite En, Harr. split; [reflexivity|].
      intros Hne. rewrite Ec. fold dcut in Hne. destruct (map _ _); [congruence|reflexivity]. }
  specialize (L HP (s_atoms s2) eq_refl (fun _ _ => eq_refl) (fun _ => eq_refl)).
  destruct (loop_atoms _ _ _) as [[l' ok]|e].
  - destruct L as (HL' & _ & _ & L). destruct ok.
    + split; [congruence|]. intros ti Hti. apply L. apply in_seq. lia.
    + destruct L as (ti & _ & H). eauto.
  - destruct L as (-> & ti & _ & H). eauto.
Qed.
End G.

Lemma bynumber_loop (N : num) (srt : list (datom N) -> list (datom N)) (Hsrt : sorts srt) (s s2 : sys N) cmp nns :
  temps_ok cmp s s2 ->
  (forall a, In a (s_atoms s) -> a_nbrs a = [] /\ a_temp a = []) ->
  match loop_atoms (bynumber_atom srt s2 nns true) (seq 0 (length (s_atoms s))) (s_atoms s2) with
  | Ok (l', true) => length l' = length (s_atoms s) /\
      forall ti, ti < length (s_atoms s) -> exists a', nth_error l' ti = Some a' /\ bynumber_post s cmp nns ti a'
  | Ok (l', false) => exists ti, bynumber_fail s cmp nns ti
  | Err e => e = UB /\ (300 < nns)%Z
  end.
Proof. intros H. exact (@bynumber_loop_good N srt (fun _ => True) (fun l _ => Hsrt l) s s2 cmp nns H (fun _ _ _ => I)). Qed.
Lemma adaptive_loop (N : num) (srt : list (datom N) -> list (datom N)) (Hsrt : sorts srt) (s s2 : sys N) cmp nlimit padding :
  temps_ok cmp s s2 ->
  (forall a, In a (s_atoms s) -> a_nbrs a = [] /\ a_temp a = []) ->
  match loop_atoms (adaptive_atom srt s2 nlimit padding) (seq 0 (length (s_atoms s))) (s_atoms s2) with
  | Ok (l', true) => length l' = length (s_atoms s) /\
      forall ti, ti < length (s_atoms s) -> exists a', nth_error l' ti = Some a' /\ adaptive_post s cmp nlimit padding ti a'
  | Ok (l', false) => exists ti, bynumber_fail s cmp nlimit ti
  | Err e => e = UB /\ exists ti, max_nbrs < length (cands cmp s (s_nd s) ti)
  end.
Proof. intros H. exact (@adaptive_loop_good N srt (fun _ => True) (fun l _ => Hsrt l) s s2 cmp nlimit padding H (fun _ _ _ => I)). Qed.
