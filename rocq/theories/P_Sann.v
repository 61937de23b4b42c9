(** Proofs about the sann search. *)
From Coq Require Import Reals Lia Lra Permutation Sorted.
From Verif Require Import Base Num NumR Types M_Geometry S_Geometry P_Geometry M_Container
  M_Neighbors P_Container S_Neighbors P_Neighbors P_Temp P_Cells P_Search P_FindN S_Sann.
Close Scope R_scope.
Set Implicit Arguments.
Unset Strict Implicit.
#[local] Opaque abs_distance_ij.
#[local] Arguments max_nbrs : simpl never.

Section Loop.
Variable N : num.

(** The candidates taken up to index [k]: all but the one at index 3. *)
Definition but4 {A} (k : nat) (l : list A) : list A := firstn 3 l ++ skipn 4 (firstn (S k) l).
Definition srad (temp : list (datom N)) (k : nat) : N :=
  ndiv (nsum (map (@d_dist N) (but4 k temp))) (nofZ (Z.of_nat k - 2)).

Lemma firstn_S_nth {A} (l : list A) k x : nth_error l k = Some x -> firstn (S k) l = firstn k l ++ [x].
Proof.
  revert k; induction l as [|y l IH]; intros [|k] H; try discriminate; [now injection H as ->|].
  change (firstn (S (S k)) (y :: l)) with (y :: firstn (S k) l). rewrite (IH k H). reflexivity.
Qed.
Lemma skipn_firstn_S {A} (l : list A) j k x : nth_error l k = Some x -> j <= k ->
  skipn j (firstn (S k) l) = skipn j (firstn k l) ++ [x].
Proof.
  intros H Hj. rewrite (firstn_S_nth H), skipn_app, firstn_length_le.
  - replace (j - k) with 0 by lia. reflexivity.
  - assert (k < length l) by (apply nth_error_Some; congruence). lia.
Qed.
Lemma but4_S {A} (l : list A) k x : nth_error l (S k) = Some x -> 3 <= k -> but4 (S k) l = but4 k l ++ [x].
Proof. intros H Hk. unfold but4. rewrite (skipn_firstn_S H) by lia. now rewrite app_assoc. Qed.
Lemma but4_3 {A} (l : list A) : but4 3 l = firstn 3 l.
Proof.
  unfold but4. rewrite skipn_all2; [apply app_nil_r|]. rewrite firstn_length. lia.
Qed.
Lemma nsum_snoc (l : list N) x : nsum (l ++ [x]) = nadd (nsum l) x.
Proof. unfold nsum. now rewrite fold_left_app. Qed.

Lemma arrows_app s l (a : atom N) js js' : arrows s l a (js ++ js') = arrows s l a js ++ arrows s l a js'.
Proof. apply flat_map_app. Qed.

Definition at_leb (temp : list (datom N)) (k : nat) : Prop :=
  exists t, nth_error temp k = Some t /\ nleb (d_dist t) (srad temp k) = true.
Definition at_gt (temp : list (datom N)) (k : nat) : Prop :=
  exists t, nth_error temp k = Some t /\ nleb (d_dist t) (srad temp k) = false.

Lemma sann_loop_spec s ti temp : forall fuel m l a,
  length temp - m < fuel -> 3 <= m <= length temp ->
  nth_error l ti = Some a -> length (a_nbrs a) <= max_nbrs ->
  (forall t, In t temp -> d_idx t < length l) ->
  match sann_loop fuel s ti temp m (nsum (map (@d_dist N) (but4 m temp))) (srad temp m) l with
  | Ok (l', m') =>
      (m <= m' /\ (m = length temp -> m' = m) /\ (m < length temp -> m' < length temp /\ at_gt temp m')) /\
      (forall k, m <= k < m' -> at_leb temp k) /\
      let js := map (@d_idx N) (skipn (S m) (firstn (S m') temp)) in
      length (a_nbrs a) + length js <= max_nbrs /\
      exists c, l' = upd ti (fun a0 => a0 <| a_nbrs := a_nbrs a ++ arrows s l a js |> <| a_cutoff := c |>) l
  | Err e => e = UB /\
      ((m < length temp /\ forall k, m <= k < length temp -> at_leb temp k) \/
       (exists n, m <= n < length temp /\ max_nbrs < length (a_nbrs a) + (n - m) /\
                  forall k, m <= k < n -> at_leb temp k))
  end.
Proof.
  induction fuel as [|fuel IH]; intros m l a Hf Hm Ha Hcap Hr; [lia|]. cbn [sann_loop].
  assert (Stay : forall m', m <= m' -> (m < length temp -> m' = m /\ at_gt temp m') -> (m' = m) ->
     (m <= m' /\ (m = length temp -> m' = m) /\ (m < length temp -> m' < length temp /\ at_gt temp m')) /\
      (forall k, m <= k < m' -> at_leb temp k) /\
      let js := map (@d_idx N) (skipn (S m) (firstn (S m') temp)) in
      length (a_nbrs a) + length js <= max_nbrs /\
      exists c, l = upd ti (fun a0 => a0 <| a_nbrs := a_nbrs a ++ arrows s l a js |> <| a_cutoff := c |>) l).
  { intros m' H1 H2 ->. split; [split; [lia|]; split; [auto|]; intros H; split; [lia|]; now apply H2|].
    split; [intros; lia|]. cbv zeta.
    rewrite skipn_all2 by (rewrite firstn_length; lia). simpl. split; [lia|].
    exists (a_cutoff a). symmetry. eapply upd_id; [exact Ha|]. rewrite app_nil_r. now destruct a. }
  destruct (Nat.ltb_spec m (length temp)) as [Hlt|Hge].
  2:{ apply Stay; auto; lia. }
  destruct (nth_error temp m) as [t|] eqn:Et; [|apply nth_error_None in Et; lia].
  rewrite (get_Ok Et). cbn [bind].
  destruct (nleb (d_dist t) (srad temp m)) eqn:El.
  2:{ apply Stay; auto. intros _. split; auto. exists t. auto. }
  assert (Hl : at_leb temp m) by (exists t; auto).
  destruct (nth_error temp (S m)) as [t'|] eqn:Et'.
  2:{ unfold get. rewrite Et'. cbn [bind]. split; auto. left. split; auto. intros k Hk.
      apply nth_error_None in Et'. assert (k = m) by lia. now subst. }
  rewrite (get_Ok Et'). cbn [bind].
  assert (Hm' : S m < length temp) by (apply nth_error_Some; congruence).
  pose proof (@fold_process N s ti [d_idx t'] l a Ha Hcap) as FP. cbn [foldM] in FP.
  assert (Hj : d_idx t' < length l) by (apply Hr; eapply nth_error_In; eauto).
  specialize (FP (fun j H => match H with or_introl E => eq_ind _ (fun j => j < length l) Hj _ E | or_intror F => match F with end end)).
  cbn [length] in FP.
  destruct (process_neighbor s l ti (d_idx t')) as [l1|e].
  2:{ cbn [bind] in FP |- *. destruct (Nat.leb_spec (length (a_nbrs a) + 1) max_nbrs); [discriminate|].
      injection FP as ->. split; auto. right. exists (S m). split; [lia|]. split; [lia|].
      intros k Hk. assert (k = m) by lia. now subst. }
  cbn [bind] in FP |- *.
  destruct (Nat.leb_spec (length (a_nbrs a) + 1) max_nbrs) as [Hc1|]; [|discriminate].
  injection FP as ->.
  replace (nadd (nsum (map (@d_dist N) (but4 m temp))) (d_dist t'))
    with (nsum (map (@d_dist N) (but4 (S m) temp)))
    by (rewrite (but4_S Et') by lia; rewrite map_app; simpl; now rewrite nsum_snoc).
  change (ndiv (nsum (map (@d_dist N) (but4 (S m) temp))) (nofZ (Z.of_nat (S m) - 2))) with (srad temp (S m)).
  unfold set_cutoff. rewrite upd_upd.
  set (l2 := upd ti _ l).
  set (a2 := a <| a_nbrs := a_nbrs a ++ arrows s l a [d_idx t'] |> <| a_cutoff := srad temp (S m) |>).
  assert (Ha2 : nth_error l2 ti = Some a2).
  { unfold l2. rewrite nth_error_upd, Nat.eqb_refl, Ha. reflexivity. }
  assert (La : length (arrows s l a [d_idx t']) = 1).
  { rewrite length_arrows; auto. intros j [<-|[]]; auto. }
  assert (Ln : length (a_nbrs a2) = length (a_nbrs a) + 1).
  { unfold a2. simpl. rewrite app_length. simpl in La. now rewrite La. }
  specialize (IH (S m) l2 a2). rewrite Ln in IH.
  assert (Ll : length l2 = length l) by (unfold l2; apply length_upd).
  rewrite Ll in IH. specialize (IH ltac:(lia) ltac:(lia) Ha2 Hc1 Hr).
  destruct (sann_loop fuel s ti temp (S m) _ _ l2) as [[l' m']|e].
  - destruct IH as ((I1 & I2 & I3) & I4 & I5). cbv zeta in I5 |- *. destruct I5 as (I5 & c & ->).
    split; [split; [lia|]; split; [lia|]; auto|]. split.
    { intros k Hk. destruct (Nat.eq_dec k m) as [->|]; auto. apply I4. lia. }
    assert (E : skipn (S m) (firstn (S m') temp) = t' :: skipn (S (S m)) (firstn (S m') temp)).
    { assert (Q : nth_error (firstn (S m') temp) (S m) = Some t').
      { rewrite <- Et'. clear - I1. revert m m' I1; induction temp as [|x l IHl]; intros m m' I1.
        - now rewrite firstn_nil.
        - destruct m' as [|m']; [lia|]. rewrite firstn_cons. simpl. destruct m as [|m]; [destruct l; reflexivity|].
          destruct l; auto. apply (IHl m m'). lia. }
      clear - Q. revert Q. generalize (firstn (S m') temp) as q. generalize (S m) as n.
      induction n; intros [|x q] Q; simpl in *; try discriminate.
      - now injection Q as ->.
      - now apply IHn. }
    rewrite E. cbn [map length]. split; [lia|]. exists c.
    unfold l2 at 2. rewrite upd_upd. eapply upd_ext; [exact Ha|].
    assert (EE : erase_eq l2 l) by (unfold l2; apply erase_upd; now intros []).
    rewrite (@arrows_erase N s l2 l a2 a _ EE eq_refl).
    change (d_idx t' :: map (@d_idx N) (skipn (S (S m)) (firstn (S m') temp)))
      with ([d_idx t'] ++ map (@d_idx N) (skipn (S (S m)) (firstn (S m') temp))).
    rewrite arrows_app. unfold a2. destruct a; simpl. now rewrite <- app_assoc.
  - destruct IH as (-> & [(H1 & H2)|(n & H1 & H2 & H3)]); split; auto.
    + left. split; auto. intros k Hk. destruct (Nat.eq_dec k m) as [->|]; auto. apply H2. lia.
    + right. exists n. split; [lia|]. split; [lia|]. intros k Hk. destruct (Nat.eq_dec k m) as [->|]; auto. apply H3. lia.
Qed.
End Loop.

Section Atoms.
Variable N : num.
Variable srt : list (datom N) -> list (datom N).
Hypothesis Hsrt : sorts srt.

Definition sann_post s (cmp : N -> N -> bool) (ti : nat) (a' : atom N) : Prop :=
  exists a c m, nth_error (s_atoms s) ti = Some a /\ erase a' = erase a /\
    Permutation c (cands cmp s (s_nd s) ti) /\
    StronglySorted (fun x y => nltb (d_dist y) (d_dist x) = false) c /\
    3 <= m < length c /\ at_gt c m /\ (forall k, 3 <= k < m -> at_leb c k) /\
    a_nbrs a' = arrows s (s_atoms s) a (map (@d_idx N) (but4 m c)).
Definition sann_fail s (cmp : N -> N -> bool) (ti : nat) : Prop :=
  ti < length (s_atoms s) /\ length (cands cmp s (s_nd s) ti) < 4.
Definition sann_over s (cmp : N -> N -> bool) (ti : nat) : Prop :=
  ti < length (s_atoms s) /\ exists c n, Permutation c (cands cmp s (s_nd s) ti) /\
    StronglySorted (fun x y => nltb (d_dist y) (d_dist x) = false) c /\
    (3 < n /\ n = length c \/ 300 < n < length c) /\ forall k, 3 <= k < n -> at_leb c k.

Lemma sann_atoms_loop s s2 cmp :
  temps_ok cmp s s2 ->
  (forall a, In a (s_atoms s) -> a_nbrs a = [] /\ a_temp a = []) ->
  match loop_atoms (sann_atom srt s2) (seq 0 (length (s_atoms s))) (s_atoms s2) with
  | Ok (l', ok) => length l' = length (s_atoms s) /\ erase_eq l' (s_atoms s) /\
      if ok then forall ti, ti < length (s_atoms s) -> exists a', nth_error l' ti = Some a' /\ sann_post s cmp ti a'
      else exists ti, sann_fail s cmp ti
  | Err e => e = UB /\ exists ti, sann_over s cmp ti
  end.
Proof.
  intros (Es2 & HL2 & HT) Hreset.
  assert (Eabs : forall p q, abs_distance_ij s2 p q = abs_distance_ij s p q) by (intros; now rewrite Es2).
  assert (EE2 : erase_eq (s_atoms s2) (s_atoms s)).
  { intros k. destruct (nth_error (s_atoms s) k) as [a|] eqn:Ea.
    - destruct (HT k a Ea) as (a2 & -> & S2 & _). simpl. f_equal. exact (f_equal (@erase N) S2).
    - apply nth_error_None in Ea. rewrite <- HL2 in Ea. apply nth_error_None in Ea. now rewrite Ea. }
  pose proof (@loop_atoms_spec N (sann_atom srt s2) (sann_post s cmp)
    (sann_fail s cmp) (sann_over s cmp) (s_atoms s2) (seq 0 (length (s_atoms s)))
    (seq_NoDup _ _)) as L.
  match type of L with ?P -> _ => assert (HP : P) end.
  { intros ti l Hti Hat HLl Hst. apply in_seq in Hti.
    destruct (nth_error (s_atoms s) ti) as [a|] eqn:Ea; [|apply nth_error_None in Ea; lia].
    destruct (HT ti a Ea) as (a2 & Ha2 & S2 & P2). destruct (Hreset a (nth_error_In _ _ Ea)) as [Hn0 Ht0].
    rewrite Ht0 in P2. simpl in P2. rewrite Ha2 in Hat.
    unfold sann_atom. rewrite (get_Ok Hat). cbn [bind].
    destruct (Nat.ltb_spec (length (a_temp a2)) 3) as [Esz|Esz].
    { rewrite (Permutation_length P2) in Esz. repeat split; auto; lia. }
    set (c := srt (a_temp a2)). destruct (Hsrt (a_temp a2)) as [Hperm Hsorted]. fold c in Hperm, Hsorted.
    assert (Hl1 : nth_error (sort_temp srt l ti) ti = Some (a2 <| a_temp := c |>)).
    { unfold sort_temp. rewrite nth_error_upd, Nat.eqb_refl, Hat. reflexivity. }
    rewrite (get_Ok Hl1). cbn [bind]. cbv zeta.
    assert (Hsl : a_temp (a2 <| a_temp := c |>) = c) by reflexivity. rewrite Hsl.
    rewrite <- (@foldM_map _ _ _ (fun l j => process_neighbor s2 l ti j) (@d_idx N)).
    assert (Hnb : a_nbrs (a2 <| a_temp := c |>) = []).
    { apply (f_equal (@a_nbrs N)) in S2. simpl in S2 |- *. congruence. }
    assert (Hlc : length c = length (a_temp a2)) by apply (Permutation_length Hperm).
    assert (Hpc : Permutation c (cands cmp s (s_nd s) ti)) by (transitivity (a_temp a2); auto).
    assert (Hrange : forall d, In d c -> d_idx d < length (sort_temp srt l ti)).
    { intros d Hd. unfold sort_temp. rewrite length_upd, HLl, HL2.
      apply (Permutation_in _ Hpc) in Hd. eapply cands_range; eauto. }
    assert (H3 : length (map (@d_idx N) (firstn 3 c)) = 3) by (rewrite map_length; apply firstn_length_le; lia).
    rewrite (fold_process s2 Hl1); [|rewrite Hnb; simpl; unfold max_nbrs; lia|].
    2:{ intros j Hj. apply in_map_iff in Hj. destruct Hj as (d & <- & Hd). apply firstn_In in Hd. auto. }
    rewrite Hnb. simpl length at 1. rewrite Nat.add_0_l, H3.
    assert (Ecap : (3 <=? max_nbrs) = true) by (apply Nat.leb_le; unfold max_nbrs; lia).
    rewrite Ecap. cbn [bind]. rewrite app_nil_l.
    set (l1 := sort_temp srt l ti) in *. set (aT := a2 <| a_temp := c |>) in *.
    set (l3 := upd ti _ l1).
    set (a3 := aT <| a_nbrs := arrows s2 l1 aT (map (@d_idx N) (firstn 3 c)) |>).
    assert (Ha3 : nth_error l3 ti = Some a3).
    { unfold l3. rewrite nth_error_upd, Nat.eqb_refl, Hl1. reflexivity. }
    assert (Ln3 : length (a_nbrs a3) = 3).
    { change (a_nbrs a3) with (arrows s2 l1 aT (map (@d_idx N) (firstn 3 c))). rewrite length_arrows; auto.
      intros j Hj. apply in_map_iff in Hj. destruct Hj as (d & <- & Hd). apply firstn_In in Hd. auto. }
    pose proof (@sann_loop_spec N s2 ti c (S (length c)) 3 l3 a3 ltac:(lia) ltac:(lia) Ha3) as SL.
    rewrite Ln3 in SL. specialize (SL ltac:(unfold max_nbrs; lia)).
    assert (Ll3 : length l3 = length l1) by (unfold l3; apply length_upd). rewrite Ll3 in SL.
    specialize (SL Hrange).
    assert (Er : srad c 3 = ndiv (nsum (map (@d_dist N) (firstn 3 c))) (nofZ 1)).
    { unfold srad. rewrite but4_3. reflexivity. }
    rewrite but4_3, Er in SL.
    destruct (sann_loop _ s2 ti c 3 _ _ l3) as [[l' m]|e]; cbn [bind].
    2:{ destruct SL as (-> & SL). split; auto. split; [lia|]. destruct SL as [(H1 & H2)|(n & H1 & H2 & H4)].
        - exists c, (length c). split; auto.
        - exists c, n. unfold max_nbrs in H2. split; auto. split; auto. split; [lia|auto]. }
    destruct SL as ((I1 & I2 & I3) & I4 & _ & cc & El).
    assert (EL : l' = upd ti (fun a0 => a0 <| a_temp := c |> <| a_nbrs := a_nbrs a3 ++
        arrows s2 l3 a3 (map (@d_idx N) (skipn 4 (firstn (S m) c))) |> <| a_cutoff := cc |>) l).
    { rewrite El. unfold l3 at 2. unfold l1 at 2. unfold sort_temp. rewrite !upd_upd.
      eapply upd_ext; [exact Hat|]. fold c. now destruct a2. }
    clear El. split; [rewrite EL; apply length_upd|]. split.
    { intros k Hk. apply Nat.eqb_neq in Hk. now rewrite EL, nth_error_upd, Hk. }
    split.
    { rewrite EL, nth_error_upd, Nat.eqb_refl, Hat. simpl. reflexivity. }
    destruct (Nat.eqb_spec m (length c)) as [Em|Em]; cbn [negb].
    - split; [lia|]. rewrite <- (Permutation_length Hpc).
      destruct (Nat.eq_dec 3 (length c)) as [E|E]; [lia|].
      destruct I3 as [I3 _]; lia.
    - assert (H3c : 3 < length c) by (destruct (Nat.eq_dec 3 (length c)) as [E|E]; [specialize (I2 E); lia|lia]).
      destruct (I3 H3c) as [I5 I6].
      rewrite EL, nth_error_upd, Nat.eqb_refl, Hat. cbn [option_map]. eexists. split; [reflexivity|].
      exists a, c, m. split; [exact Ea|]. split.
      { exact (f_equal (@erase N) S2). }
      split; auto. split; auto. split; [lia|]. split; auto. split; auto.
      assert (EE1 : erase_eq l1 l) by (apply erase_upd; now intros []).
      assert (EE3 : erase_eq l3 l1) by (apply erase_upd; now intros []).
      assert (Harr : forall l' a', erase_eq l' l -> a_pos a' = a_pos a2 -> forall js,
                     arrows s2 l' a' js = arrows s (s_atoms s) a js).
      { intros l'' a'' Hl'' Hp'' js.
        assert (P2a : a_pos a2 = a_pos a) by (apply (f_equal (@a_pos N)) in S2; exact S2).
        rewrite (@arrows_erase N s2 l'' (s_atoms s) a'' a js); [|intros k; rewrite Hl'', Hst; apply EE2|congruence].
        apply flat_map_ext_in. intros j _. unfold arrow. destruct (nth_error (s_atoms s) j); auto. now rewrite Eabs. }
      unfold but4. rewrite map_app, arrows_app. cbn [a_nbrs].
      change (a_nbrs a3) with (arrows s2 l1 aT (map (@d_idx N) (firstn 3 c))).
      rewrite <- (Harr l1 aT EE1 eq_refl). rewrite <- (Harr l3 a3); auto.
      intros k. now rewrite EE3. }
  specialize (L HP (s_atoms s2) eq_refl (fun _ _ => eq_refl) (fun _ => eq_refl)).
  destruct (loop_atoms _ _ _) as [[l' ok]|e].
  - destruct L as (HL' & _ & HE & L). split; [congruence|]. split.
    { intros k. rewrite HE. apply EE2. }
    destruct ok.
    + intros ti Hti. apply L. apply in_seq. lia.
    + destruct L as (ti & _ & H). eauto.
  - destruct L as (-> & ti & _ & H). eauto.
Qed.
End Atoms.

(** ** Real arithmetic: from candidates to entries *)
Lemma Forall2_firstn {A B} (R : A -> B -> Prop) l l' k : Forall2 R l l' -> Forall2 R (firstn k l) (firstn k l').
Proof. intros F. revert k. induction F; intros [|k]; simpl; constructor; auto. Qed.
Lemma Forall2_skipn {A B} (R : A -> B -> Prop) l l' k : Forall2 R l l' -> Forall2 R (skipn k l) (skipn k l').
Proof. intros F. revert k. induction F; intros [|k]; simpl; auto. Qed.
Lemma Forall2_nth {A B} (R : A -> B -> Prop) l l' k a : Forall2 R l l' -> nth_error l k = Some a ->
  exists b, nth_error l' k = Some b /\ R a b.
Proof. intros F. revert k. induction F; intros [|k] Hk; simpl in *; try discriminate; eauto. injection Hk as ->. eauto. Qed.

Lemma skipn_In {A} (l : list A) n x : In x (skipn n l) -> In x l.
Proof. intros H. rewrite <- (firstn_skipn n l). apply in_or_app. now right. Qed.
Lemma but4_firstn {A} (l : list A) k n : 3 <= k < n -> but4 k (firstn n l) = but4 k l.
Proof.
  intros H. unfold but4. rewrite !firstn_firstn. rewrite (Nat.min_l 3), (Nat.min_l (S k)) by lia. reflexivity.
Qed.

Definition entry_of (s : sys Rnum) (i : nat) (d : datom Rnum) (e : nbr Rnum) : Prop :=
  link s i (d_idx d) = Some e /\ nb_idx e = d_idx d /\ nb_dist e = d_dist d.

Lemma sum_entries s i (ds : list (datom Rnum)) es : Forall2 (entry_of s i) ds es ->
  nsum (map (@d_dist Rnum) ds) = sum_dist es.
Proof.
  intros F. unfold nsum. change (fold_left (@nadd Rnum)) with (fold_left Rplus). rewrite fold_left_Rplus.
  change (@nofZ Rnum 0) with 0%R. rewrite Rplus_0_l.
  induction F as [|d e l l' (_ & _ & H) F IH]; simpl; auto. rewrite H. f_equal. apply IH.
Qed.

Lemma INR_sub2 k : 3 <= k -> IZR (Z.of_nat k - 2) = INR (k - 2).
Proof. intros H. rewrite INR_IZR_INZ. f_equal. lia. Qed.

Lemma stops_cand s i c n near k : Forall2 (entry_of s i) (firstn n c) near -> 3 <= k < n ->
  (at_gt (N := Rnum) c k <-> stops_taken near k) /\ (at_leb (N := Rnum) c k -> ~ stops_taken near k).
Proof.
  intros F Hk.
  assert (Es : srad (N := Rnum) c k = (sum_dist (taken near k) / INR (k - 2))%R).
  { unfold srad. rewrite <- (@but4_firstn _ c k n) by lia.
    assert (F4 : Forall2 (entry_of s i) (but4 k (firstn n c)) (taken near k)).
    { unfold but4, taken. apply Forall2_app; [now apply Forall2_firstn|]. now apply Forall2_skipn, Forall2_firstn. }
    rewrite (sum_entries F4). rewrite <- INR_sub2 by lia. reflexivity. }
  assert (En : nth_error (firstn n c) k = nth_error c k).
  { clear - Hk. destruct Hk as [_ H]. revert n k H; induction c as [|x c IH]; intros [|n] [|k] H; simpl; try lia; auto.
    apply IH. lia. }
  assert (G : at_gt (N := Rnum) c k -> stops_taken near k).
  { intros (t & Ht & Hl). rewrite <- En in Ht. destruct (Forall2_nth F Ht) as (e & He & _ & _ & Hd).
    exists e. split; auto. rewrite Hd, <- Es. apply Rleb_false in Hl. exact Hl. }
  assert (Lb : at_leb (N := Rnum) c k -> ~ stops_taken near k).
  { intros (t & Ht & Hl) (e & He & Hd). rewrite <- En in Ht. destruct (Forall2_nth F Ht) as (e' & He' & _ & _ & Hd').
    rewrite He in He'. injection He' as <-. apply Rleb_true in Hl.
    rewrite <- Es in Hd. rewrite Hd' in Hd. exact (Rlt_irrefl _ (Rlt_le_trans _ _ _ Hd Hl)). }
  split; auto. split; auto. intros H.
  destruct (nth_error c k) as [t|] eqn:Et.
  - exists t. split; auto. destruct (nleb (d_dist t) (srad (N := Rnum) c k)) eqn:E; auto.
    exfalso. apply Lb; auto. exists t. auto.
  - destruct H as (e & He & _). exfalso. apply nth_error_None in Et.
    assert (k < length near) by (apply nth_error_Some; congruence).
    rewrite <- (Forall2_length' F), firstn_length in H. lia.
Qed.

Lemma post_skip (s : sys Rnum) f uc vo r (cmp : R -> R -> bool) i a a' :
  nonneg3 (s_len s) -> cmp_ok cmp -> nth_error (s_atoms s) i = Some a ->
  sann_post (N := Rnum) (prepT s f uc vo r) cmp i a' -> same_atom a' a /\ skip_rule s i (a_nbrs a').
Proof.
  intros HL Hc Ha (a0 & c & m & Ha0 & Er & Hp & Hs & Hm & Hg & Hl & Hn).
  rewrite (nth_prepT f uc vo r Ha) in Ha0. injection Ha0 as <-. split; [exact Er|].
  set (sT := prepT s f uc vo r) in *.
  assert (HaT : nth_error (s_atoms sT) i = Some (reset_atom_all a)) by now apply nth_prepT.
  assert (Hin : forall d, In d (firstn (S m) c) -> In d (cands (N := Rnum) cmp sT r i)).
  { intros d Hd. eapply Permutation_in; [exact Hp|]. eapply firstn_In; eauto. }
  pose proof (@arrows_cands sT cmp r i _ (firstn (S m) c) HL HaT Hin) as F. cbv zeta in F.
  pose proof (@nearest_cands sT cmp r i _ c (S m) HL Hc HaT Hp Hs ltac:(lia)) as Nr.
  set (near := arrows sT (s_atoms sT) (reset_atom_all a) (map (@d_idx Rnum) (firstn (S m) c))) in *.
  exists m, near. split; [lia|]. split; [now apply (@nearest_prepT s f uc vo r)|]. split; [|split].
  - rewrite Hn. rewrite <- (@but4_firstn _ c m (S m)) by lia.
    assert (Hin' : forall d, In d (but4 m (firstn (S m) c)) -> In d (cands (N := Rnum) cmp sT r i)).
    { intros d Hd. apply Hin. unfold but4 in Hd. apply in_app_or in Hd. destruct Hd as [Hd|Hd].
      - eapply firstn_In; eauto.
      - apply skipn_In in Hd. eapply firstn_In; eauto. }
    pose proof (@arrows_cands sT cmp r i _ _ HL HaT Hin') as F'. cbv zeta in F'.
    assert (F4 : Forall2 (entry_of sT i) (but4 m (firstn (S m) c)) (taken near m)).
    { unfold but4, taken. apply Forall2_app; [now apply Forall2_firstn|]. now apply Forall2_skipn, Forall2_firstn. }
    revert F' F4. generalize (taken near m) as es.
    generalize (arrows sT (s_atoms sT) (reset_atom_all a) (map (@d_idx Rnum) (but4 m (firstn (S m) c)))) as es'.
    generalize (but4 m (firstn (S m) c)) as ds. clear.
    intros ds es' es F'. revert es. induction F' as [|d e ds es' (H1 & _) F' IH]; intros es F; inversion F; subst; auto.
    destruct H2 as (H2 & _). f_equal; [congruence|]. auto.
  - apply (stops_cand F); [lia|auto].
  - intros k Hk. apply (stops_cand F); [lia|auto].
Qed.

Lemma over_never (s : sys Rnum) f uc vo r (cmp : R -> R -> bool) i :
  nonneg3 (s_len s) -> cmp_ok cmp ->
  sann_over (N := Rnum) (prepT s f uc vo r) cmp i ->
  i < length (s_atoms s) /\ exists n, never_stops s i n /\
    (3 < n /\ count_within s i n (fun d => cmp d r = true) \/ 300 < n).
Proof.
  intros HL Hc (Hi & c & n & Hp & Hs & Hn & Hl). rewrite length_prepT in Hi. split; auto.
  destruct (nth_error (s_atoms s) i) as [a|] eqn:Ha; [|apply nth_error_None in Ha; lia].
  set (sT := prepT s f uc vo r) in *.
  assert (HaT : nth_error (s_atoms sT) i = Some (reset_atom_all a)) by now apply nth_prepT.
  assert (Hin : forall d, In d (firstn n c) -> In d (cands (N := Rnum) cmp sT r i)).
  { intros d Hd. eapply Permutation_in; [exact Hp|]. eapply firstn_In; eauto. }
  pose proof (@arrows_cands sT cmp r i _ (firstn n c) HL HaT Hin) as F. cbv zeta in F.
  pose proof (@nearest_cands sT cmp r i _ c n HL Hc HaT Hp Hs ltac:(lia)) as Nr.
  exists n. split.
  { eexists. split; [apply (@nearest_prepT s f uc vo r); exact Nr|].
    intros k Hk. apply (stops_cand F); [lia|]. apply Hl. lia. }
  destruct Hn as [(H3 & ->)|H3]; [left|right; lia]. split; auto.
  exists (map (@d_idx Rnum) c). split; [apply map_length|]. split.
  { eapply Permutation_NoDup; [|apply (@cands_NoDup Rnum cmp sT r i)]. apply Permutation_map. now symmetry. }
  intros j. split.
  - intros Hj. apply in_map_iff in Hj. destruct Hj as (d & <- & Hd). apply (Permutation_in _ Hp) in Hd.
    destruct (cand_link Hd) as (e & H1 & H2 & _ & _ & H4). exists e.
    unfold sT in H1. rewrite link_prepT in H1. split; auto. rewrite H2. exact H4.
  - intros (e & He & Hd). apply in_map_iff. exists (mkDatom (N := Rnum) (nb_dist e) j). split; auto.
    eapply Permutation_in; [symmetry; exact Hp|]. apply In_cands. exists e. unfold sT. rewrite link_prepT. auto.
Qed.

(** ** One pass, and the retries *)
Section Find.
Variable srt : list (datom Rnum) -> list (datom Rnum).
Hypothesis Hsrt : sorts srt.

Definition sann_ub (s : sys Rnum) (uc : bool) (r : R) : Prop :=
  exists i, i < length (s_atoms s) /\ exists n, never_stops s i n /\
    (3 < n /\ count_within s i n (fun d => temp_cmp uc d r = true) \/ 300 < n).

Lemma sann_pass (s : sys Rnum) f (t : R) :
  stored s -> nonneg3 (s_len s) -> s_filter s = filter_code f ->
  (s_usecells s = true -> cells_ok s (guess_distance s t)) ->
  match get_all_neighbors_sann srt (s <| s_atoms := map (@reset_atom_all Rnum) (s_atoms s) |>) t with
  | Ok (s', ok) =>
      s' = s <| s_vorused := false |> <| s_nd := guess_distance s t |> <| s_atoms := s_atoms s' |> /\
      length (s_atoms s') = length (s_atoms s) /\
      (forall i a, nth_error (s_atoms s) i = Some a -> exists a', nth_error (s_atoms s') i = Some a' /\
        same_atom a' a /\ (ok = true -> skip_rule s i (a_nbrs a'))) /\
      (ok = false -> exists i, i < length (s_atoms s) /\ few_within s (guess_distance s t) i 4)
  | Err e => e = UB /\ sann_ub s (s_usecells s) (guess_distance s t)
  end.
Proof.
  intros Hst HL Hf Hc. unfold get_all_neighbors_sann. set (r := guess_distance s t) in *.
  change (guess_distance _ t) with r. set (uc := s_usecells s) in *.
  match goal with |- context [get_temp_neighbors ?x] => replace x with (prepT s f uc false r) end.
  2:{ unfold prepT. rewrite <- Hf. unfold uc. destruct s; reflexivity. }
  destruct (get_temp_ok f false Hst Hc) as (s2 & -> & HT). cbn [bind].
  assert (En : Z.to_nat (s_nop s2) = length (s_atoms (prepT s f uc false r))).
  { destruct HT as (-> & _). simpl. rewrite map_length, Hst. apply Nat2Z.id. }
  rewrite En.
  pose proof (@sann_atoms_loop Rnum srt Hsrt _ s2 (temp_cmp uc) HT (@reset_prepT Rnum s f uc false r)) as L.
  destruct (loop_atoms _ _ _) as [[l' ok]|e]; cbn [bind].
  - destruct L as (HL' & HE & L). rewrite length_prepT in HL'. split.
    { destruct HT as (-> & _). unfold prepT. rewrite <- Hf. unfold uc. destruct s; reflexivity. }
    split; [exact HL'|]. split.
    + intros i a Ha.
      assert (Hi : i < length (s_atoms s)) by (apply nth_error_Some; congruence).
      destruct ok.
      * destruct (L i) as (a' & Ha' & Hpost). { now rewrite length_prepT. }
        exists a'. split; [exact Ha'|].
        destruct (@post_skip s f uc false r (temp_cmp uc) i a a' HL (temp_cmp_ok uc) Ha Hpost). auto.
      * pose proof (HE i) as Hei. rewrite (nth_prepT f uc false r Ha) in Hei.
        cbn [s_atoms]. change (s_atoms (s2 <| s_atoms := l' |>)) with l'.
        destruct (nth_error l' i) as [a'|]; [|discriminate]. exists a'. split; auto.
        simpl in Hei. apply Some_inj in Hei. split; [exact Hei|discriminate].
    + intros ->. destruct L as (i & Hi & HF). rewrite length_prepT in Hi.
      exists i. split; auto. eapply few_cands; [apply temp_cmp_ok|].
      apply inj_lt in HF. exact HF.
  - destruct L as [-> (i & Ho)]. split; auto. exists i.
    apply (over_never HL (temp_cmp_ok uc) Ho).
Qed.

(** States that differ from [s] only in what a pass changes. *)
Definition passed (s s1 : sys Rnum) : Prop :=
  s1 = s <| s_vorused := s_vorused s1 |> <| s_nd := s_nd s1 |> <| s_atoms := s_atoms s1 |> /\
  length (s_atoms s1) = length (s_atoms s) /\
  forall i a, nth_error (s_atoms s) i = Some a -> exists a', nth_error (s_atoms s1) i = Some a' /\ same_atom a' a.

Lemma passed_refl s : passed s s.
Proof. split; [now destruct s|]. split; auto. intros i a Ha. exists a. split; auto. reflexivity. Qed.
Lemma passed_trans s1 s2 s3 : passed s1 s2 -> passed s2 s3 -> passed s1 s3.
Proof.
  intros (E & L & H) (E' & L' & H'). split; [rewrite E' at 1; rewrite E; now destruct s1|]. split; [congruence|].
  intros i a Ha. destruct (H i a Ha) as (a' & Ha' & Hs). destruct (H' i a' Ha') as (a'' & ? & ?).
  exists a''. split; auto. unfold same_atom in *. congruence.
Qed.
Lemma same_pos (a b : atom Rnum) : same_atom a b -> a_pos a = a_pos b.
Proof. intros H. now apply (f_equal (@a_pos Rnum)) in H. Qed.

Lemma passed_link s s1 i j : passed s s1 -> link s1 i j = link s i j.
Proof.
  intros (E & L & H).
  assert (Q : forall k, option_map (@a_pos Rnum) (nth_error (s_atoms s1) k) = option_map (@a_pos Rnum) (nth_error (s_atoms s) k)).
  { intros k. destruct (nth_error (s_atoms s) k) as [a|] eqn:Ea.
    - destruct (H k a Ea) as (a' & -> & Hs). simpl. now rewrite (same_pos Hs).
    - apply nth_error_None in Ea. rewrite <- L in Ea. apply nth_error_None in Ea. now rewrite Ea. }
  assert (D : forall p q, abs_distance_ij s1 p q = abs_distance_ij s p q) by (intros; rewrite E; reflexivity).
  unfold link. pose proof (Q i) as Qi. pose proof (Q j) as Qj.
  destruct (nth_error (s_atoms s1) i), (nth_error (s_atoms s) i); simpl in Qi; try discriminate; auto.
  destruct (nth_error (s_atoms s1) j), (nth_error (s_atoms s) j); simpl in Qj; try discriminate; auto.
  apply Some_inj in Qi. apply Some_inj in Qj. rewrite Qi, Qj, !D. reflexivity.
Qed.
Lemma nearest_link s s1 i k l : (forall j, link s1 i j = link s i j) -> nearest s1 i k l -> nearest s i k l.
Proof.
  intros E (H1 & H2 & H3 & H4 & H5). split; auto. split.
  { intros e He. rewrite <- E. auto. }
  split; auto. split; auto. intros j e He. apply H5. now rewrite E.
Qed.
Lemma skip_link s s1 i l : (forall j, link s1 i j = link s i j) -> skip_rule s1 i l -> skip_rule s i l.
Proof. intros E (m & near & H1 & H2 & H3). exists m, near. split; auto. split; auto. eapply nearest_link; eauto. Qed.
Lemma few_link s s1 r i k : (forall j, link s1 i j = link s i j) -> few_within s1 r i k -> few_within s r i k.
Proof. intros E H js ND Hjs. apply H; auto. intros j Hj. rewrite E. auto. Qed.
Lemma ub_link s s1 uc r : passed s s1 -> sann_ub s1 uc r -> sann_ub s uc r.
Proof.
  intros P (i & Hi & n & (near & Hn & Hk) & H). pose proof (fun j => passed_link i j P) as E.
  exists i. destruct P as (_ & L & _). split; [congruence|]. exists n. split.
  { exists near. split; auto. eapply nearest_link; eauto. }
  destruct H as [(H3 & js & J1 & J2 & J3)|H]; auto. left. split; auto. exists js. split; auto. split; auto.
  intros j. rewrite J3, E. tauto.
Qed.
Lemma passed_cells s s1 r : passed s s1 -> cells_ok s r -> cells_ok s1 r.
Proof.
  intros (E & L & H) [(O & H3) Hat]. rewrite E. split.
  - split; [exact O|exact H3].
  - intros a Ha. change (In a (s_atoms s1)) in Ha. apply In_nth_error in Ha. destruct Ha as (k & Hk).
    destruct (nth_error (s_atoms s) k) as [b|] eqn:Eb.
    + destruct (H k b Eb) as (a' & Ha' & Hs). rewrite Hk in Ha'. injection Ha' as <-.
      rewrite (same_pos Hs). apply (Hat b). eapply nth_error_In; eauto.
    + apply nth_error_None in Eb. rewrite <- L in Eb. apply nth_error_None in Eb. congruence.
Qed.
Lemma passed_guess s s1 t : passed s s1 -> guess_distance s1 t = guess_distance s t.
Proof. intros (-> & _). reflexivity. Qed.

Lemma sann_pass' (s s1 : sys Rnum) f (t : R) :
  stored s -> nonneg3 (s_len s) -> s_filter s = filter_code f ->
  (s_usecells s = true -> cells_ok s (guess_distance s t)) -> passed s s1 ->
  match get_all_neighbors_sann srt (s1 <| s_atoms := map (@reset_atom_all Rnum) (s_atoms s1) |>) t with
  | Ok (s', ok) => passed s s' /\
      (ok = true -> forall i a, nth_error (s_atoms s) i = Some a -> exists a', nth_error (s_atoms s') i = Some a' /\
        same_atom a' a /\ skip_rule s i (a_nbrs a')) /\
      (ok = false -> exists i, i < length (s_atoms s) /\ few_within s (guess_distance s t) i 4)
  | Err e => e = UB /\ sann_ub s (s_usecells s) (guess_distance s t)
  end.
Proof.
  intros Hst HL Hf Hc P.
  assert (St1 : stored s1).
  { destruct P as (E & L & _). unfold stored. rewrite L, E. exact Hst. }
  assert (L1 : nonneg3 (s_len s1)) by (destruct P as (-> & _); exact HL).
  assert (F1 : s_filter s1 = filter_code f) by (destruct P as (-> & _); exact Hf).
  assert (U1 : s_usecells s1 = s_usecells s) by (destruct P as (-> & _); reflexivity).
  pose proof (@sann_pass s1 f t St1 L1 F1) as H. rewrite U1, (passed_guess t P) in H.
  specialize (H (fun U => passed_cells P (Hc U))).
  destruct (get_all_neighbors_sann _ _ _) as [[s' ok]|e].
  - destruct H as (E & L & HA & HF).
    assert (P1 : passed s1 s').
    { split; [rewrite E; now destruct s1|]. split; auto. intros i a Ha. destruct (HA i a Ha) as (a' & ? & ? & _). eauto. }
    split; [eapply passed_trans; eauto|]. split.
    + intros Hok i a Ha. destruct P as (PE & PL & PA). destruct (PA i a Ha) as (a1 & Ha1 & Hs1).
      destruct (HA i a1 Ha1) as (a' & Ha' & Hs' & Hr). exists a'. split; auto. split.
      { unfold same_atom in *. congruence. }
      eapply skip_link; [|apply Hr, Hok]. intros j. apply passed_link. split; auto.
    + intros Hok. destruct (HF Hok) as (i & Hi & Hw). exists i. split; [destruct P as (_ & L' & _); congruence|].
      eapply few_link; [|exact Hw]. intros j. now apply passed_link.
  - destruct H as [-> H]. split; auto. eapply ub_link; eauto.
Qed.

Lemma sann_retries (s : sys Rnum) f (t : R) (is : list Z) :
  stored s -> nonneg3 (s_len s) -> s_filter s = filter_code f ->
  (s_usecells s = true -> forall z, In z is -> cells_ok s (guess_distance s (t * IZR z)%R)) -> is <> [] ->
  forall s1, passed s s1 ->
  match sann_retry srt is s1 t with
  | Ok (s', true) => passed s s' /\
      forall i a, nth_error (s_atoms s) i = Some a -> exists a', nth_error (s_atoms s') i = Some a' /\
        same_atom a' a /\ skip_rule s i (a_nbrs a')
  | Ok (s', false) => passed s s' /\
      exists i, i < length (s_atoms s) /\ few_within s (guess_distance s (t * IZR (last is 0%Z))%R) i 4
  | Err e => e = UB /\ exists z, In z is /\ sann_ub s (s_usecells s) (guess_distance s (t * IZR z)%R)
  end.
Proof.
  intros Hst HL Hf Hc Hne. induction is as [|z is IH]; [congruence|]. intros s1 P. cbn [sann_retry].
  assert (St1 : stored s1).
  { destruct P as (E & L & _). unfold stored. rewrite L, E. exact Hst. }
  rewrite (reset_stored St1). cbn [bind].
  pose proof (@sann_pass' s s1 f (t * IZR z)%R Hst HL Hf (fun U => Hc U z (or_introl eq_refl)) P) as H.
  change (nmul (n := Rnum) t (nofZ z)) with (t * IZR z)%R.
  destruct (get_all_neighbors_sann _ _ _) as [[s2 ok]|e]; cbn [bind].
  - destruct H as (P2 & H1 & H2). destruct ok.
    + split; auto.
    + destruct is as [|z' is].
      * cbn [sann_retry last]. split; auto.
      * specialize (IH (fun U z0 Hz => Hc U z0 (or_intror Hz)) ltac:(discriminate) s2 P2).
        destruct (sann_retry srt (z' :: is) s2 t) as [[s3 [|]]|e]; auto.
        destruct IH as (-> & z0 & Hz & Hu). split; auto. exists z0. split; auto. now right.
  - destruct H as [-> H]. split; auto. exists z. split; auto. now left.
Qed.

Variable voro : nat -> option (list (nat * Rnum)).
Variable area_pow : Rnum -> Rnum.
Variable inv : m3 Rnum -> option (m3 Rnum).

Lemma sann_find (s : sys Rnum) f (t pad : R) (nl : Z) :
  stored s -> nonneg3 (s_len s) -> (1 <= t)%R ->
  ((4000 < s_real s)%Z -> forall z, (1 <= z <= 9)%Z -> cells_ok s (guess_distance s (t * IZR z)%R)) ->
  match find_neighbors srt voro area_pow inv s (mkArgs (N := Rnum) (MCutoff (CutSann _)) f t pad nl) with
  | Ok (s', None) => s_found s' = true /\ length (s_atoms s') = length (s_atoms s) /\
      forall i a, nth_error (s_atoms s) i = Some a -> exists a', nth_error (s_atoms s') i = Some a' /\
        same_atom a' a /\ skip_rule s i (a_nbrs a')
  | Ok (s', Some e) => e = RuntimeError /\ s_found s' = s_found s /\
      exists i, i < length (s_atoms s) /\ few_within s (guess_distance s (t * 9)%R) i 4
  | Err e => e = UB /\ exists z, (1 <= z <= 9)%Z /\
      sann_ub s (Z.ltb 4000 (s_real s)) (guess_distance s (t * IZR z)%R)
  end.
Proof.
  intros Hst HL Ht Hc. unfold find_neighbors. rewrite (reset_stored Hst). cbn [bind]. cbv zeta.
  cbn [fa_filter fa_method fa_threshold].
  assert (Et : nltb (n := Rnum) t n1 = false) by (apply Rltb_false; exact Ht). rewrite Et.
  set (uc := Z.ltb 4000 _).
  set (s0 := s <| s_filter := filter_code f |> <| s_usecells := uc |>).
  match goal with |- context [get_all_neighbors_sann srt ?x t] =>
    change x with (s0 <| s_atoms := map (@reset_atom_all Rnum) (s_atoms s0) |>) end.
  assert (Hc0 : s_usecells s0 = true -> forall z, (1 <= z <= 9)%Z -> cells_ok s0 (guess_distance s0 (t * IZR z)%R)).
  { intros U z Hz. change (uc = true) in U. unfold uc in U. apply Z.ltb_lt in U. exact (Hc U z Hz). }
  assert (E1 : (t * IZR 1 = t)%R) by lra.
  pose proof (@sann_pass' s0 s0 f t Hst HL eq_refl) as H.
  rewrite <- E1 in H at 1. specialize (H (fun U => Hc0 U 1%Z ltac:(lia)) (passed_refl s0)).
  assert (K : forall i j, link s0 i j = link s i j) by reflexivity.
  assert (KS : forall i l, skip_rule s0 i l -> skip_rule s i l) by (intros i l; now apply skip_link).
  destruct (get_all_neighbors_sann _ _ _) as [[s2 ok]|e]; cbn [bind].
  2:{ destruct H as [-> H]. split; auto. exists 1%Z. split; [lia|]. rewrite E1. exact H. }
  destruct H as (P2 & H1 & H2). destruct ok.
  { unfold found. split; [reflexivity|]. split; [exact (proj1 (proj2 P2))|].
    intros i a Ha. destruct (H1 eq_refl i a Ha) as (a' & Ha' & Hs & Hr). exists a'. auto. }
  assert (Z9 : zrange 1 10 = [1;2;3;4;5;6;7;8;9]%Z) by reflexivity.
  pose proof (@sann_retries s0 f t (zrange 1 10) Hst HL eq_refl) as Rt.
  assert (Hr : s_usecells s0 = true -> forall z, In z (zrange 1 10) -> cells_ok s0 (guess_distance s0 (t * IZR z)%R)).
  { intros U z Hz. apply Hc0; auto. rewrite Z9 in Hz. simpl in Hz. intuition lia. }
  specialize (Rt Hr ltac:(rewrite Z9; discriminate) s2 P2).
  destruct (sann_retry srt (zrange 1 10) s2 t) as [[s3 [|]]|e]; cbn [bind].
  - destruct Rt as (P3 & H3). unfold found. split; [reflexivity|]. split; [exact (proj1 (proj2 P3))|].
    intros i a Ha. destruct (H3 i a Ha) as (a' & Ha' & Hs & Hk). exists a'. auto.
  - destruct Rt as (P3 & i & Hi & Hw). split; [reflexivity|]. split; [destruct P3 as (-> & _); reflexivity|].
    exists i. split; auto.
  - destruct Rt as (-> & z & Hz & Hu). split; auto. exists z. split; [|exact Hu].
    rewrite Z9 in Hz. simpl in Hz. intuition lia.
Qed.
End Find.

(** ** Nearest lists *)
Lemma nearest_firstn s i n k l : k <= n -> nearest s i n l -> nearest s i k (firstn k l).
Proof.
  intros Hk (H1 & H2 & H3 & H4 & H5).
  assert (Hin : forall e, In e (firstn k l) -> In e l) by (intros e; apply firstn_In).
  split; [apply firstn_length_le; lia|]. split; [auto|]. split.
  { rewrite <- firstn_map. clear - H3. revert k. induction (map (@nb_idx Rnum) l) as [|x m IH]; intros [|k]; simpl; constructor.
    - intros H. apply firstn_In in H. inversion H3; auto.
    - apply IH. now inversion H3. }
  split; [now apply StronglySorted_firstn|].
  intros j e He Hj e' He'.
  destruct (in_dec Nat.eq_dec j (map (@nb_idx Rnum) l)) as [Hy|Hy].
  - apply in_map_iff in Hy. destruct Hy as (x & <- & Hx). pose proof (H2 x Hx) as Q. rewrite He in Q. injection Q as <-.
    destruct (In_firstn_skipn k Hx) as [Hf|Hs].
    + exfalso. apply Hj. apply in_map_iff. exists e. auto.
    + exact (StronglySorted_split H4 He' Hs).
  - eapply H5; eauto.
Qed.

Lemma nearest_incl s i k l l' : 
  (forall j j' e e', link s i j = Some e -> link s i j' = Some e' -> nb_dist e = nb_dist e' -> j = j') ->
  nearest s i k l -> nearest s i k l' -> incl l l'.
Proof.
  intros Hd (H1 & H2 & H3 & H4 & H5) (K1 & K2 & K3 & K4 & K5) e He.
  assert (D : forall x m, (forall e, In e m -> link s i (nb_idx e) = Some e) -> link s i (nb_idx x) = Some x ->
     In (nb_idx x) (map (@nb_idx Rnum) m) -> In x m).
  { intros x m Hm Lx Hx. apply in_map_iff in Hx. destruct Hx as (y & E & Hy). pose proof (Hm y Hy) as Q.
    rewrite E, Lx in Q. injection Q as ->. exact Hy. }
  destruct (in_dec Nat.eq_dec (nb_idx e) (map (@nb_idx Rnum) l')) as [Hy|Hy]; [apply D; auto|].
  exfalso.
  assert (W : exists x, In x l' /\ ~ In (nb_idx x) (map (@nb_idx Rnum) l)).
  { assert (G : (exists x, In x l' /\ ~ In (nb_idx x) (map (@nb_idx Rnum) l)) \/
                (forall x, In x l' -> In (nb_idx x) (map (@nb_idx Rnum) l))).
    { clear - l'. induction l' as [|x m IH]; [right; intros x []|].
      destruct (in_dec Nat.eq_dec (nb_idx x) (map (@nb_idx Rnum) l)) as [Hx|Hx]; [|left; exists x; simpl; auto].
      destruct IH as [(y & Hy & Hn)|IH]; [left; exists y; simpl; auto|]. right. intros y [<-|Hy]; auto. }
    destruct G as [G|G]; auto. exfalso. apply Hy.
    assert (I : incl (map (@nb_idx Rnum) l') (map (@nb_idx Rnum) l)).
    { intros j Hj. apply in_map_iff in Hj. destruct Hj as (x & <- & Hx). auto. }
    assert (Le : length (map (@nb_idx Rnum) l) <= length (map (@nb_idx Rnum) l')) by (rewrite !map_length; lia).
    apply (NoDup_length_incl K3 Le I). apply in_map_iff. exists e. auto. }
  destruct W as (x & Hx & Hnx).
  pose proof (K5 _ _ (H2 e He) Hy x Hx). pose proof (H5 _ _ (K2 x Hx) Hnx e He).
  assert (Q : nb_idx e = nb_idx x) by (eapply Hd; eauto; lra).
  apply Hy. rewrite Q. apply in_map_iff. eauto.
Qed.

Lemma sorted_unique (l l' : list (nbr Rnum)) :
  (forall x y, In x l -> In y l -> nb_dist x = nb_dist y -> x = y) -> NoDup l -> NoDup l' ->
  StronglySorted (fun e e' => (nb_dist e <= nb_dist e')%R) l ->
  StronglySorted (fun e e' => (nb_dist e <= nb_dist e')%R) l' -> incl l l' -> incl l' l -> l = l'.
Proof.
  revert l'. induction l as [|x l IH]; intros [|y l'] Hd N1 N2 S1 S2 I1 I2; auto.
  - exfalso. exact (I2 y (or_introl eq_refl)).
  - exfalso. exact (I1 x (or_introl eq_refl)).
  - inversion N1 as [|? ? Nx N1']; subst. inversion N2 as [|? ? Ny N2']; subst.
    inversion S1 as [|? ? S1' F1]; subst. inversion S2 as [|? ? S2' F2]; subst.
    assert (E : x = y).
    { destruct (I1 x (or_introl eq_refl)) as [|Hx]; auto. destruct (I2 y (or_introl eq_refl)) as [|Hy]; auto.
      apply Hd; simpl; auto. rewrite Forall_forall in *.
      pose proof (F1 y Hy). pose proof (F2 x Hx). lra. }
    subst y. f_equal. apply IH; auto.
    + intros; apply Hd; simpl; auto.
    + intros z Hz. destruct (I1 z (or_intror Hz)) as [<-|]; auto. contradiction.
    + intros z Hz. destruct (I2 z (or_intror Hz)) as [<-|]; auto. contradiction.
Qed.

Lemma nearest_unique s i k l l' : 
  (forall j j' e e', link s i j = Some e -> link s i j' = Some e' -> nb_dist e = nb_dist e' -> j = j') ->
  nearest s i k l -> nearest s i k l' -> l = l'.
Proof.
  intros Hd H H'. apply sorted_unique.
  - destruct H as (H1 & H2 & _). intros x y Hx Hy E.
    pose proof (H2 x Hx) as Lx. pose proof (H2 y Hy) as Ly. rewrite (Hd _ _ _ _ Lx Ly E) in Lx. congruence.
  - destruct H as (_ & _ & H & _). eapply NoDup_map_inv; eauto.
  - destruct H' as (_ & _ & H' & _). eapply NoDup_map_inv; eauto.
  - apply H.
  - apply H'.
  - eapply nearest_incl; eauto.
  - eapply nearest_incl; eauto.
Qed.
