(** Proofs about common neighbour analysis: the signatures of one atom. *)
From Coq Require Import Lia Permutation.
From Verif Require Import Base Num Types M_Geometry M_Container M_Neighbors M_Steinhardt M_CNA
  S_Neighbors S_CNA P_Neighbors P_Temp P_Graph P_QRun P_Search P_History.
Set Implicit Arguments.
Unset Strict Implicit.
#[local] Opaque abs_distance_ij.

Lemma foldM_eq {S X} (f g : S -> X -> res S) l : (forall s x, In x l -> f s x = g s x) ->
  forall s, foldM f l s = foldM g l s.
Proof.
  induction l as [|x l IH]; intros H s; simpl; auto. rewrite (H s x) by (simpl; auto).
  destruct (g s x); simpl; auto. apply IH. intros; apply H; simpl; auto.
Qed.

Definition zsig (g : nat * nat * nat * nat) : sig :=
  let '(a, b, c, d) := g in (Z.of_nat a, Z.of_nat b, Z.of_nat c, Z.of_nat d).

Section Sig.
Variable N : num.
Variables (s : sys N) (l : list (atom N)) (c : N).

(** Atoms x and y are closer than the cutoff. *)
Definition near_at (x y : nat) : bool :=
  match nth_error l x, nth_error l y with
  | Some a, Some b => nleb (fst (abs_distance_ij s (a_pos a) (a_pos b))) c
  | _, _ => false
  end.

Lemma dist_near x y : x < length l -> y < length l ->
  exists d, dist_at s l x y = Ok d /\ nleb d c = near_at x y.
Proof.
  intros Hx Hy. destruct (nth_error_some Hx) as [a Ea], (nth_error_some Hy) as [b Eb].
  exists (fst (abs_distance_ij s (a_pos a) (a_pos b))). unfold dist_at, near_at.
  rewrite (get_Ok Ea), (get_Ok Eb), Ea, Eb. auto.
Qed.

(** What pair [p] of slots adds to slot [k]. *)
Definition cev (ns : list nat) (k : nat) (p : nat * nat) : list nat :=
  match nth_error ns (fst p), nth_error ns (snd p) with
  | Some m, Some n =>
      if near_at m n then if (k =? fst p)%nat then [n] else if (k =? snd p)%nat then [m] else [] else []
  | _, _ => []
  end.

Section NS.
Variable ns : list nat.
Hypothesis Hns : forall n, In n ns -> n < length l.

Lemma common_fold P : (forall p, In p P -> fst p < length ns /\ snd p < length ns /\ fst p <> snd p) ->
  forall st, length st = length ns ->
  exists st', foldM (common_step s l c ns) P st = Ok st' /\ length st' = length st /\
    forall k z cl, nth_error st k = Some (z, cl) ->
      nth_error st' k = Some ((z + Z.of_nat (length (flat_map (cev ns k) P)))%Z, cl ++ flat_map (cev ns k) P).
Proof.
  induction P as [|[i j] P IH]; intros HP st Hst; cbn [foldM].
  - exists st. split; auto. split; auto. intros k z cl E. simpl. now rewrite Z.add_0_r, app_nil_r.
  - destruct (HP (i, j) (or_introl eq_refl)) as (Hi & Hj & Hij). simpl in Hi, Hj, Hij.
    destruct (nth_error_some Hi) as [m Em], (nth_error_some Hj) as [n En].
    destruct (@dist_near m n) as (d & Ed & Hd); try (apply Hns; eapply nth_error_In; eauto).
    unfold common_step at 1. cbn [fst snd]. rewrite (get_Ok Em), (get_Ok En). cbn [bind].
    rewrite Ed. cbn [bind]. rewrite Hd.
    assert (HP' : forall p, In p P -> fst p < length ns /\ snd p < length ns /\ fst p <> snd p)
      by (intros; apply HP; now right).
    destruct (near_at m n) eqn:En'; cbn [bind].
    + set (st1 := upd j _ (upd i _ st)).
      destruct (IH HP' st1) as (st' & -> & HL & H); [unfold st1; now rewrite !length_upd|].
      exists st'. split; auto. split; [rewrite HL; unfold st1; now rewrite !length_upd|].
      intros k z cl E. cbn [flat_map]. unfold cev at 1 3. cbn [fst snd]. rewrite Em, En, En'.
      destruct (Nat.eqb_spec k i) as [->|Hki].
      * rewrite (H i (z + 1)%Z (cl ++ [n])).
        -- rewrite <- app_assoc. cbn [app length]. f_equal. f_equal. lia.
        -- unfold st1. rewrite nth_error_upd. apply Nat.eqb_neq in Hij. rewrite Hij.
           rewrite nth_error_upd, Nat.eqb_refl, E. reflexivity.
      * destruct (Nat.eqb_spec k j) as [->|Hkj].
        -- rewrite (H j (z + 1)%Z (cl ++ [m])).
           ++ rewrite <- app_assoc. cbn [app length]. f_equal. f_equal. lia.
           ++ unfold st1. rewrite nth_error_upd, Nat.eqb_refl, nth_error_upd.
              apply not_eq_sym, Nat.eqb_neq in Hij. rewrite Hij, E. reflexivity.
        -- apply H. unfold st1. rewrite !nth_error_upd. apply Nat.eqb_neq in Hki, Hkj. now rewrite Hki, Hkj.
    + destruct (IH HP' st Hst) as (st' & -> & HL & H). exists st'. split; auto. split; auto.
      intros k z cl E. cbn [flat_map]. unfold cev at 1 3. cbn [fst snd]. rewrite Em, En, En'. simpl. now apply H.
Qed.

Definition near_pair (p : nat * nat) : bool :=
  match nth_error ns (fst p), nth_error ns (snd p) with Some m, Some n => near_at m n | _, _ => false end.

Lemma bond_fold P : (forall p, In p P -> fst p < length ns /\ snd p < length ns /\ fst p <> snd p) ->
  forall c1 st, length st = length ns ->
  exists st', foldM (bond_step s l c ns) P (c1, st) = Ok ((c1 + Z.of_nat (length (filter near_pair P)))%Z, st') /\
    length st' = length st /\
    forall k z, nth_error st k = Some z ->
      nth_error st' k = Some (z + Z.of_nat (length (flat_map (cev ns k) P)))%Z.
Proof.
  induction P as [|[i j] P IH]; intros HP c1 st Hst; cbn [foldM].
  - exists st. simpl. rewrite Z.add_0_r. split; auto. split; auto. intros k z E. now rewrite Z.add_0_r.
  - destruct (HP (i, j) (or_introl eq_refl)) as (Hi & Hj & Hij). simpl in Hi, Hj, Hij.
    destruct (nth_error_some Hi) as [m Em], (nth_error_some Hj) as [n En].
    destruct (@dist_near m n) as (d & Ed & Hd); try (apply Hns; eapply nth_error_In; eauto).
    unfold bond_step at 1. cbn [fst snd]. rewrite (get_Ok Em), (get_Ok En). cbn [bind].
    rewrite Ed. cbn [bind]. rewrite Hd. cbn [filter]. unfold near_pair at 1. cbn [fst snd]. rewrite Em, En.
    assert (HP' : forall p, In p P -> fst p < length ns /\ snd p < length ns /\ fst p <> snd p)
      by (intros; apply HP; now right).
    destruct (near_at m n) eqn:En'; cbn [bind].
    + set (st1 := upd j _ (upd i _ st)).
      destruct (IH HP' (c1 + 1)%Z st1) as (st' & -> & HL & H); [unfold st1; now rewrite !length_upd|].
      exists st'. split; [cbn [length]; do 2 f_equal; lia|]. split; [rewrite HL; unfold st1; now rewrite !length_upd|].
      intros k z E. cbn [flat_map]. unfold cev at 1. cbn [fst snd]. rewrite Em, En, En'.
      destruct (Nat.eqb_spec k i) as [->|Hki].
      * rewrite (H i (z + 1)%Z).
        -- cbn [app length]. f_equal. lia.
        -- unfold st1. rewrite nth_error_upd. apply Nat.eqb_neq in Hij. rewrite Hij.
           rewrite nth_error_upd, Nat.eqb_refl, E. reflexivity.
      * destruct (Nat.eqb_spec k j) as [->|Hkj].
        -- rewrite (H j (z + 1)%Z).
           ++ cbn [app length]. f_equal. lia.
           ++ unfold st1. rewrite nth_error_upd, Nat.eqb_refl, nth_error_upd.
              apply not_eq_sym, Nat.eqb_neq in Hij. rewrite Hij, E. reflexivity.
        -- apply H. unfold st1. rewrite !nth_error_upd. apply Nat.eqb_neq in Hki, Hkj. now rewrite Hki, Hkj.
    + destruct (IH HP' c1 st Hst) as (st' & -> & HL & H). exists st'. split; auto. split; auto.
      intros k z E. cbn [flat_map]. unfold cev at 1. cbn [fst snd]. rewrite Em, En, En'. simpl. now apply H.
Qed.
End NS.

(** ** Loop order to list order *)
Lemma flat_map_nth_seq (f : nat -> bool) (ns : list nat) : forall b a,
  flat_map (fun j => match nth_error ns j with Some m => if f m then [m] else [] | None => [] end) (seq a b)
  = filter f (firstn b (skipn a ns)).
Proof.
  induction b as [|b IH]; intros a; [reflexivity|]. cbn [seq flat_map]. rewrite IH. clear IH.
  destruct (nth_error ns a) as [x|] eqn:E.
  - rewrite (skipn_nth E). cbn [firstn filter]. now destruct (f x).
  - apply nth_error_None in E. rewrite !skipn_all2 by lia. now rewrite firstn_nil.
Qed.

Hypothesis sym : forall p q, fst (abs_distance_ij s p q) = fst (abs_distance_ij s q p).
Lemma near_sym x y : near_at x y = near_at y x.
Proof.
  unfold near_at. destruct (nth_error l x), (nth_error l y); auto. now rewrite sym.
Qed.

Lemma cev_common ns k x : nth_error ns k = Some x ->
  flat_map (cev ns k) (pairs (length ns)) = common near_at (x, firstn k ns ++ skipn (S k) ns).
Proof.
  intros Hx. assert (Hk : k < length ns) by (apply nth_error_Some; congruence).
  rewrite flat_map_pairs with (i := k); auto.
  2:{ intros a b Ha Hb. unfold cev. cbn [fst snd]. destruct (nth_error ns a), (nth_error ns b); auto.
      apply not_eq_sym, Nat.eqb_neq in Ha. apply not_eq_sym, Nat.eqb_neq in Hb. rewrite Ha, Hb. now destruct (near_at _ _). }
  unfold common. cbn [fst snd]. rewrite filter_app. f_equal.
  - change (firstn k ns) with (firstn k (skipn 0 ns)).
    rewrite <- (flat_map_nth_seq (near_at x) ns k 0). apply flat_map_ext_in. intros j Hj. apply in_seq in Hj.
    unfold cev. cbn [fst snd]. rewrite Hx. destruct (nth_error ns j) as [m|]; auto.
    rewrite near_sym. destruct (near_at x m); auto.
    assert (k =? j = false) as -> by (apply Nat.eqb_neq; lia). now rewrite Nat.eqb_refl.
  - replace (skipn (S k) ns) with (firstn (length ns - S k) (skipn (S k) ns))
      by (rewrite <- skipn_length; apply firstn_all).
    rewrite <- (flat_map_nth_seq (near_at x) ns (length ns - S k) (S k)). apply flat_map_ext_in. intros j Hj. apply in_seq in Hj.
    unfold cev. cbn [fst snd]. rewrite Hx, Nat.eqb_refl. destruct (nth_error ns j) as [m|]; auto.
Qed.

Lemma pairs_S n : pairs (S n) = map (pair 0) (seq 1 n) ++ map (fun p => (S (fst p), S (snd p))) (pairs n).
Proof.
  unfold pairs at 1. cbn [seq flat_map]. unfold pairs_from at 1. rewrite Nat.sub_succ, Nat.sub_0_r. f_equal.
  rewrite <- seq_shift. unfold pairs. rewrite flat_map_map.
  induction (seq 0 n) as [|i is IH]; cbn [flat_map map]; auto. rewrite map_app, IH. f_equal.
  unfold pairs_from. rewrite Nat.sub_succ, <- seq_shift, !map_map. reflexivity.
Qed.
Lemma filter_map_len {A B} (f : B -> bool) (g : A -> B) m : length (filter f (map g m)) = length (filter (fun a => f (g a)) m).
Proof. induction m; simpl; auto. destruct (f (g a)); simpl; auto. Qed.
Lemma near_pairs ns : length (filter (near_pair ns) (pairs (length ns))) = bonds near_at ns.
Proof.
  induction ns as [|x ns IH]; auto. cbn [length bonds]. rewrite pairs_S, filter_app, app_length. f_equal.
  - rewrite filter_map_len. clear IH.
    assert (E : forall a ms, length (filter (fun j => match nth_error ms (j - a) with Some m => near_at x m | None => false end) (seq a (length ms)))
      = length (filter (near_at x) ms)).
    { intros a ms; revert a; induction ms as [|m ms IH]; intros a; simpl; auto.
      rewrite Nat.sub_diag. specialize (IH (S a)). cbn [nth_error].
      assert (Ef : filter (fun j => match nth_error (m :: ms) (j - a) with Some m => near_at x m | None => false end) (seq (S a) (length ms))
        = filter (fun j => match nth_error ms (j - S a) with Some m => near_at x m | None => false end) (seq (S a) (length ms))).
      { apply filter_ext_in. intros j Hj. apply in_seq in Hj. replace (j - a) with (S (j - S a)) by lia. reflexivity. }
      destruct (near_at x m); cbn [length]; rewrite Ef, IH; reflexivity. }
    rewrite <- (E 1 ns). f_equal. apply filter_ext_in. intros j Hj. apply in_seq in Hj. unfold near_pair. cbn [fst snd nth_error].
    destruct j; [lia|]. cbn [nth_error]. now rewrite Nat.sub_succ, Nat.sub_0_r.
  - rewrite filter_map_len, <- IH. f_equal.
Qed.

Lemma list_by_nth {A} (xs ys : list A) : length xs = length ys ->
  (forall k x, nth_error ys k = Some x -> nth_error xs k = Some x) -> xs = ys.
Proof.
  revert ys; induction xs as [|x xs IH]; intros [|y ys] HL H; simpl in *; try discriminate; auto.
  f_equal; [|apply IH; [lia|]].
  - specialize (H 0 y eq_refl). simpl in H. now inversion H.
  - intros k z Hz. apply (H (S k) z Hz).
Qed.

Lemma fold_max (ds : list nat) : forall z, (0 <= z)%Z -> fold_left (fun x b => Z.max b x) (map Z.of_nat ds) z = Z.max z (Z.of_nat (maximum ds)).
Proof. unfold maximum. induction ds as [|d ds IH]; intros z Hz; simpl; [lia|]. rewrite IH; lia. Qed.
Lemma fold_min (ds : list nat) t : forall z, (z <= Z.of_nat t)%Z -> fold_left (fun x b => Z.min b x) (map Z.of_nat ds) z = Z.min z (Z.of_nat (minimum ds t)).
Proof. unfold minimum. induction ds as [|d ds IH]; intros z Hz; simpl; [lia|]. rewrite IH; lia. Qed.

Lemma nth_degrees ns k x : nth_error ns k = Some x ->
  nth_error (degrees near_at ns) k = Some (length (common near_at (x, firstn k ns ++ skipn (S k) ns))).
Proof. intros H. unfold degrees. rewrite nth_error_map, (nth_picks H). reflexivity. Qed.
Lemma length_degrees {A} (f : A -> A -> bool) ns : length (degrees f ns) = length ns.
Proof. unfold degrees. now rewrite map_length, length_picks. Qed.

Lemma nth_repeat_Some {A} (x : A) n k : k < n -> nth_error (repeat x n) k = Some x.
Proof. revert k; induction n; intros [|k] H; simpl; try lia; auto. apply IHn. lia. Qed.

Lemma bond_sig_eq ns : (forall n, In n ns -> n < length l) ->
  bond_sig s l c (Z.of_nat (length ns), ns) = Ok (zsig (gsig near_at ns)).
Proof.
  intros Hns. unfold bond_sig. cbn [fst snd]. rewrite Nat2Z.id.
  destruct (@bond_fold ns Hns (pairs (length ns)) (@pairs_ok _) 0%Z (repeat 0%Z (length ns))) as (st & -> & HL & H);
    [apply repeat_length|].
  cbn [bind]. rewrite near_pairs. rewrite repeat_length in HL.
  assert (E : st = map Z.of_nat (degrees near_at ns)).
  { apply list_by_nth; [rewrite map_length, length_degrees; auto|]. intros k z Hz.
    rewrite nth_error_map in Hz. destruct (nth_error (degrees near_at ns) k) as [d|] eqn:Ed; [|discriminate].
    assert (Hk : k < length ns) by (rewrite <- (length_degrees near_at ns); apply nth_error_Some; congruence).
    destruct (nth_error_some Hk) as [x Ex]. rewrite (nth_degrees Ex) in Ed. apply Some_inj in Ed, Hz.
    rewrite (H k 0%Z) by now apply nth_repeat_Some. rewrite (cev_common Ex), Ed, <- Hz. f_equal. }
  subst st. rewrite fold_max by lia. rewrite (fold_min _ (t := 8)) by lia. unfold zsig, gsig.
  assert (Hm : (Z.of_nat (minimum (degrees near_at ns) 8) <= 8)%Z).
  { unfold minimum. clear. induction (degrees near_at ns); simpl; lia. }
  rewrite Z.max_r, Z.min_r by lia. reflexivity.
Qed.

Theorem signatures_spec ns : (forall n, In n ns -> n < length l) ->
  signatures s l c ns = Ok (map (fun p => zsig (gsig near_at (common near_at p))) (picks ns)).
Proof.
  intros Hns. unfold signatures, get_common_neighbors, get_common_bonds.
  destruct (@common_fold ns Hns (pairs (length ns)) (@pairs_ok _) (repeat (0%Z, []) (length ns))) as (st & -> & HL & H);
    [apply repeat_length|].
  cbn [bind]. rewrite repeat_length in HL.
  assert (E : st = map (fun p => (Z.of_nat (length (common near_at p)), common near_at p)) (picks ns)).
  { apply list_by_nth; [rewrite map_length, length_picks; auto|]. intros k z Hz.
    rewrite nth_error_map in Hz. destruct (nth_error (picks ns) k) as [p|] eqn:Ep; [|discriminate].
    assert (Hk : k < length ns) by (rewrite <- (length_picks ns); apply nth_error_Some; congruence).
    destruct (nth_error_some Hk) as [x Ex]. rewrite (nth_picks Ex) in Ep. apply Some_inj in Ep, Hz. subst p z.
    rewrite (H k 0%Z []) by now apply nth_repeat_Some. now rewrite (cev_common Ex). }
  subst st. clear H HL.
  assert (HP : forall p, In p (picks ns) -> forall n, In n (common near_at p) -> n < length l).
  { intros p Hp n Hn. apply Hns. apply (Permutation_in _ (picks_perm_one Hp)). right.
    apply filter_In in Hn. tauto. }
  induction (picks ns) as [|p ps IH]; cbn [map mapM]; auto.
  rewrite bond_sig_eq by (apply (HP p); now left). cbn [bind]. rewrite IH; auto.
  intros q Hq. apply HP. now right.
Qed.
End Sig.

Section Any.
Variable N : num.
Implicit Types s : sys N.

(** Only the distances matter. *)
Lemma signatures_eq s l s' l' c ns : (forall m n, dist_at s l m n = dist_at s' l' m n) ->
  signatures s l c ns = signatures s' l' c ns.
Proof.
  intros H. unfold signatures, get_common_neighbors.
  rewrite (@foldM_eq _ _ (common_step s l c ns) (common_step s' l' c ns)).
  - destruct (foldM _ _ _) as [cs|]; cbn [bind]; auto. unfold get_common_bonds. apply mapM_eq. intros x _.
    unfold bond_sig. rewrite (@foldM_eq _ _ (bond_step s l c (snd x)) (bond_step s' l' c (snd x))); auto.
    intros [c1 b] p _. unfold bond_step. destruct (get _ _); cbn [bind]; auto. destruct (get _ _); cbn [bind]; auto.
    now rewrite H.
  - intros st p _. unfold common_step. destruct (get _ _); cbn [bind]; auto. destruct (get _ _); cbn [bind]; auto.
    now rewrite H.
Qed.

(** The analysis of one atom never leaves an array if all indices are valid. *)
Lemma signatures_total s l c ns : (forall n, In n ns -> n < length l) ->
  exists cs, signatures s l c ns = Ok cs /\ length cs = length ns.
Proof.
  intros Hns. unfold signatures, get_common_neighbors, get_common_bonds.
  destruct (@common_fold N s l c ns Hns (pairs (length ns)) (@pairs_ok _) (repeat (0%Z, []) (length ns))) as (st & -> & HL & H);
    [apply repeat_length|].
  cbn [bind]. rewrite repeat_length in HL. rewrite <- HL.
  assert (HS : forall z cl, In (z, cl) st -> z = Z.of_nat (length cl) /\ forall n, In n cl -> n < length l).
  { intros z cl Hi. apply In_nth_error in Hi as [k Hk].
    assert (Hlt : k < length ns) by (rewrite <- HL; apply nth_error_Some; congruence).
    rewrite (H k 0%Z []) in Hk by now apply nth_repeat_Some. apply Some_inj in Hk. apply pair_equal_spec in Hk as [<- <-].
    split; auto. intros n Hn. simpl in Hn. apply in_flat_map in Hn as ([i j] & _ & Hn). apply Hns. unfold cev in Hn. cbn [fst snd] in Hn.
    destruct (nth_error ns i) eqn:E1; [|destruct Hn]. destruct (nth_error ns j) eqn:E2; [|destruct Hn].
    destruct (near_at _ _ _ _ _); [|destruct Hn]. destruct (k =? i); [destruct Hn as [<-|[]]; eapply nth_error_In; eauto|].
    destruct (k =? j); [destruct Hn as [<-|[]]; eapply nth_error_In; eauto|destruct Hn]. }
  clear H HL. induction st as [|[z cl] st IH]; cbn [mapM length]; [eauto|].
  destruct (HS z cl (or_introl eq_refl)) as [-> Hcl]. unfold bond_sig at 1. cbn [fst snd]. rewrite Nat2Z.id.
  destruct (@bond_fold N s l c cl Hcl (pairs (length cl)) (@pairs_ok _) 0%Z (repeat 0%Z (length cl))) as (b & -> & _);
    [apply repeat_length|].
  cbn [bind]. destruct IH as (cs & -> & E); [intros; apply HS; simpl; auto|]. cbn [bind]. eexists. split; [reflexivity|].
  simpl. now rewrite E.
Qed.
End Any.

(** ** Labels and shapes *)
Section Labels.
Variable near : nat -> nat -> bool.
Hypothesis sym : forall x y, near x y = near y x.
Definition sigs (ns : list nat) : list sig := map (fun p => zsig (gsig near (common near p))) (picks ns).

Lemma sig_is_zsig a b c d g : sig_is (Z.of_nat a) (Z.of_nat b) (Z.of_nat c) (Z.of_nat d) (zsig g) = true <-> g = (a, b, c, d).
Proof.
  destruct g as [[[x y] z] w]. unfold sig_is, zsig. rewrite !andb_true_iff, !Z.eqb_eq, !Nat2Z.inj_iff.
  split; [intros [[[-> ->] ->] ->]; auto|intros E; inversion E; auto].
Qed.

Lemma filter_split_perm {A} (f : A -> bool) m : Permutation m (filter f m ++ filter (fun x => negb (f x)) m).
Proof.
  induction m as [|x m IH]; simpl; auto. destruct (f x); simpl; [now constructor|].
  etransitivity; [apply perm_skip, IH|]. apply Permutation_middle.
Qed.
Lemma filter_len_all {A} (f : A -> bool) m : length (filter f m) = length m <-> Forall (fun x => f x = true) m.
Proof.
  induction m as [|x m IH]; simpl; [split; auto|].
  pose proof (filter_length_le f m). destruct (f x) eqn:E; simpl.
  - rewrite Nat.succ_inj_wd, IH. split; [auto|]. intros HF; inversion HF; auto.
  - split; [lia|]. intros HF; inversion HF; congruence.
Qed.
Lemma filter_len_perm {A} (f : A -> bool) m m' : Permutation m m' -> length (filter f m) = length (filter f m').
Proof. intros H. now apply Permutation_length, filter_perm. Qed.

(** Two exclusive properties that hold for [n] and [m] elements. *)
Lemma split_count {A} (f g : A -> bool) (L : list A) n m : (forall x, f x = true -> g x = false) ->
  ((exists ps qs, Permutation L (ps ++ qs) /\ length ps = n /\ length qs = m /\
     Forall (fun x => f x = true) ps /\ Forall (fun x => g x = true) qs) <->
   length L = n + m /\ length (filter f L) = n /\ length (filter (fun x => negb (f x) && g x) L) = m).
Proof.
  intros Hx. split.
  - intros (ps & qs & HP & Hn & Hm & Fp & Fq).
    rewrite (Permutation_length HP), app_length, Hn, Hm. split; auto.
    rewrite (filter_len_perm f HP), (filter_len_perm (fun x => negb (f x) && g x) HP), !filter_app, !app_length.
    assert (E1 : length (filter f ps) = n) by (rewrite <- Hn; now apply filter_len_all).
    assert (E2 : filter f qs = []).
    { clear -Fq Hx. induction Fq as [|x qs Hg _ IH]; simpl; auto. destruct (f x) eqn:E; auto.
      apply Hx in E. congruence. }
    assert (E3 : filter (fun x => negb (f x) && g x) ps = []).
    { clear -Fp. induction Fp as [|x ps Hf _ IH]; simpl; auto. now rewrite Hf. }
    assert (E4 : length (filter (fun x => negb (f x) && g x) qs) = m).
    { rewrite <- Hm. apply filter_len_all. revert Fq. apply Forall_impl. intros x Hg. rewrite Hg.
      destruct (f x) eqn:E; auto. apply Hx in E. congruence. }
    rewrite E1, E2, E3, E4. simpl. lia.
  - intros (HL & Hn & Hm). exists (filter f L), (filter (fun x => negb (f x)) L).
    pose proof (filter_split_perm f L) as HP. split; auto. split; auto.
    apply Permutation_length in HP as HPl. rewrite app_length in HPl.
    assert (Hq : length (filter (fun x => negb (f x)) L) = m) by lia. split; auto. split.
    + apply Forall_forall. intros x H. apply filter_In in H. tauto.
    + apply (filter_len_all g). rewrite Hq, <- Hm. f_equal. clear.
      induction L as [|x L IH]; simpl; auto. destruct (f x); simpl; auto. destruct (g x); simpl; now rewrite IH.
Qed.

Lemma count_sigs f ns : count_sig f (sigs ns) = Z.of_nat (length (filter (fun p => f (zsig (gsig near (common near p)))) (picks ns))).
Proof. unfold count_sig, sigs. f_equal. rewrite filter_map_len. reflexivity. Qed.

Definition is_sig (a b c d : Z) (p : nat * list nat) : bool := sig_is a b c d (zsig (gsig near (common near p))).
Lemma is_4211 p : is_sig 4 2 1 1 p = true <-> two_bonds near (common near p).
Proof. unfold is_sig. rewrite (sig_is_zsig 4 2 1 1). now apply sig_4211. Qed.
Lemma is_4220 p : is_sig 4 2 2 0 p = true <-> chain_of_two near (common near p).
Proof. unfold is_sig. rewrite (sig_is_zsig 4 2 2 0). now apply sig_4220. Qed.
Lemma is_5522 p : is_sig 5 5 2 2 p = true <-> ring5 near (common near p).
Proof. unfold is_sig. rewrite (sig_is_zsig 5 5 2 2). now apply sig_5522. Qed.
Lemma is_4422 p : is_sig 4 4 2 2 p = true <-> ring4 near (common near p).
Proof. unfold is_sig. rewrite (sig_is_zsig 4 4 2 2). now apply sig_4422. Qed.
Lemma is_6622 p : is_sig 6 6 2 2 p = true <-> ring6 near (common near p) \/ two_triangles near (common near p).
Proof. unfold is_sig. rewrite (sig_is_zsig 6 6 2 2). now apply sig_6622. Qed.
Lemma is_excl a b c d a' b' c' d' p : (a, b, c, d) <> (a', b', c', d') -> is_sig a b c d p = true -> is_sig a' b' c' d' p = false.
Proof.
  intros H E. destruct (is_sig a' b' c' d' p) eqn:E'; auto. exfalso. apply H. unfold is_sig, sig_is in E, E'.
  destruct (zsig _) as [[[x y] z] w]. rewrite !andb_true_iff, !Z.eqb_eq in E, E'. intuition congruence.
Qed.

Lemma Forall_iff {A} (P Q : A -> Prop) m : (forall x, P x <-> Q x) -> Forall P m <-> Forall Q m.
Proof. intros H. split; apply Forall_impl; intros; now apply H. Qed.

(** label12 of twelve neighbours. *)
Lemma label12_spec ns : length ns = 12 ->
  (label12 (sigs ns) = 1%Z <-> fcc_like near ns) /\
  (label12 (sigs ns) = 2%Z <-> hcp_like near ns) /\
  (label12 (sigs ns) = 4%Z <-> ico_like near ns) /\
  In (label12 (sigs ns)) [0; 1; 2; 4]%Z.
Proof.
  intros HL. unfold label12. rewrite !count_sigs.
  assert (HLp : length (picks ns) = 12) by now rewrite length_picks.
  change (fun p => sig_is 4 2 1 1 (zsig (gsig near (common near p)))) with (is_sig 4 2 1 1).
  change (fun p : nat * list nat => negb (sig_is 4 2 1 1 (zsig (gsig near (common near p)))) && sig_is 4 2 2 0 (zsig (gsig near (common near p))))
    with (fun p => negb (is_sig 4 2 1 1 p) && is_sig 4 2 2 0 p).
  change (fun p : nat * list nat => negb (sig_is 4 2 1 1 (zsig (gsig near (common near p)))) && negb (sig_is 4 2 2 0 (zsig (gsig near (common near p)))) && sig_is 5 5 2 2 (zsig (gsig near (common near p))))
    with (fun p => negb (is_sig 4 2 1 1 p) && negb (is_sig 4 2 2 0 p) && is_sig 5 5 2 2 p).
  set (f := is_sig 4 2 1 1). set (g := is_sig 4 2 2 0). set (h := is_sig 5 5 2 2).
  assert (Efh : filter (fun p => negb (f p) && negb (g p) && h p) (picks ns) = filter h (picks ns)).
  { apply filter_ext. intros p. destruct (h p) eqn:E; [|now rewrite andb_false_r].
    unfold f, g. rewrite (@is_excl 5 5 2 2 4 2 1 1 p), (@is_excl 5 5 2 2 4 2 2 0 p); auto; discriminate. }
  rewrite Efh.
  assert (Ffcc : length (filter f (picks ns)) = 12 <-> fcc_like near ns).
  { unfold fcc_like. rewrite <- (Forall_iff (picks ns) is_4211), <- (filter_len_all (is_sig 4 2 1 1)), HLp. tauto. }
  assert (Fico : length (filter h (picks ns)) = 12 <-> ico_like near ns).
  { unfold ico_like. rewrite <- (Forall_iff (picks ns) is_5522), <- (filter_len_all (is_sig 5 5 2 2)), HLp. tauto. }
  assert (Fhcp : length (filter f (picks ns)) = 6 /\ length (filter (fun p => negb (f p) && g p) (picks ns)) = 6 <-> hcp_like near ns).
  { unfold hcp_like, split. assert (Hx : forall x, f x = true -> g x = false) by (intros x; apply is_excl; discriminate).
    pose proof (@split_count _ f g (picks ns) 6 6 Hx) as C.
    rewrite HLp in C. transitivity (12 = 6 + 6 /\ length (filter f (picks ns)) = 6 /\ length (filter (fun x => negb (f x) && g x) (picks ns)) = 6);
      [tauto|]. rewrite <- C. clear C.
    split; intros (ps & qs & HP & H1 & H2 & H3 & H4); exists ps, qs; repeat split; auto;
      try (revert H3; apply Forall_impl; intros p; now apply is_4211); revert H4; apply Forall_impl; intros p; now apply is_4220. }
  assert (Hfh : length (filter f (picks ns)) + length (filter h (picks ns)) <= 12).
  { rewrite <- HLp. clear Efh Ffcc Fico Fhcp HLp. induction (picks ns) as [|p ps IH]; simpl; auto.
    destruct (f p) eqn:E1; [unfold h; rewrite (@is_excl 4 2 1 1 5 5 2 2 p); auto; [fold h; simpl; lia|discriminate]|].
    destruct (h p); simpl; lia. }
  rewrite <- Ffcc, <- Fico, <- Fhcp.
  assert (Hgh : length (filter (fun p => negb (f p) && g p) (picks ns)) + length (filter h (picks ns)) <= 12).
  { rewrite <- HLp. clear Efh Ffcc Fico Fhcp HLp Hfh. induction (picks ns) as [|p ps IH]; simpl; auto.
    destruct (h p) eqn:E1; simpl.
    - unfold g. rewrite (@is_excl 5 5 2 2 4 2 2 0 p); auto; [|discriminate]. rewrite andb_false_r. fold g. lia.
    - destruct (_ && _); simpl; lia. }
  set (nf := length (filter f (picks ns))) in *. set (nh := length (filter (fun p => negb (f p) && g p) (picks ns))) in *.
  set (ni := length (filter h (picks ns))) in *. clearbody nf nh ni.
  destruct (Z.eqb_spec (Z.of_nat nf) 12); [repeat split; simpl; auto; try discriminate; lia|].
  destruct (Z.eqb_spec (Z.of_nat nf) 6), (Z.eqb_spec (Z.of_nat nh) 6); cbn [andb];
    try (destruct (Z.eqb_spec (Z.of_nat ni) 12)); repeat split; simpl; auto; try discriminate; lia.
Qed.

Lemma label14_spec ns : length ns = 14 ->
  (label14 (sigs ns) = 3%Z <-> bcc_like near ns) /\ In (label14 (sigs ns)) [0; 3]%Z.
Proof.
  intros HL. unfold label14. rewrite !count_sigs.
  assert (HLp : length (picks ns) = 14) by now rewrite length_picks.
  change (fun p => sig_is 4 4 2 2 (zsig (gsig near (common near p)))) with (is_sig 4 4 2 2).
  change (fun p : nat * list nat => negb (sig_is 4 4 2 2 (zsig (gsig near (common near p)))) && sig_is 6 6 2 2 (zsig (gsig near (common near p))))
    with (fun p => negb (is_sig 4 4 2 2 p) && is_sig 6 6 2 2 p).
  set (f := is_sig 4 4 2 2). set (g := is_sig 6 6 2 2).
  assert (Fb : length (filter f (picks ns)) = 6 /\ length (filter (fun p => negb (f p) && g p) (picks ns)) = 8 <-> bcc_like near ns).
  { unfold bcc_like, split. assert (Hx : forall x, f x = true -> g x = false) by (intros x; apply is_excl; discriminate).
    pose proof (@split_count _ f g (picks ns) 6 8 Hx) as C.
    rewrite HLp in C. transitivity (14 = 6 + 8 /\ length (filter f (picks ns)) = 6 /\ length (filter (fun x => negb (f x) && g x) (picks ns)) = 8);
      [tauto|]. rewrite <- C. clear C.
    split; intros (ps & qs & HP & H1 & H2 & H3 & H4); exists ps, qs; repeat split; auto;
      try (revert H3; apply Forall_impl; intros p; now apply is_4422); revert H4; apply Forall_impl; intros p; now apply is_6622. }
  rewrite <- Fb. set (nf := length (filter f (picks ns))) in *. set (nh := length (filter (fun p => negb (f p) && g p) (picks ns))) in *.
  clearbody nf nh.
  destruct (Z.eqb_spec (Z.of_nat nf) 6), (Z.eqb_spec (Z.of_nat nh) 8); cbn [andb]; repeat split; simpl; auto; try discriminate; lia.
Qed.

(** The labels do not depend on the order. *)
Lemma count_perm f cs cs' : Permutation cs cs' -> count_sig f cs = count_sig f cs'.
Proof. intros H. unfold count_sig. f_equal. now apply filter_len_perm. Qed.
Lemma label12_perm cs cs' : Permutation cs cs' -> label12 cs = label12 cs'.
Proof. intros H. unfold label12. now rewrite !(count_perm _ H). Qed.
Lemma label14_perm cs cs' : Permutation cs cs' -> label14 cs = label14 cs'.
Proof. intros H. unfold label14. now rewrite !(count_perm _ H). Qed.
Lemma sigs_zperm ns ns' : Permutation ns ns' -> Permutation (sigs ns) (sigs ns').
Proof.
  intros H. unfold sigs. pose proof (sigs_perm sym H) as P. apply (Permutation_map zsig) in P.
  now rewrite !map_map in P.
Qed.
End Labels.
