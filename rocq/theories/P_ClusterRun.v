(** find_clusters_recursive, largest_cluster and cluster_atoms as a whole. *)
From Coq Require Import Lia.
From Verif Require Import Base Num Types M_Geometry M_Container M_Neighbors M_Steinhardt M_Cluster
  S_Container S_Neighbors S_Cluster P_Container P_Neighbors P_Temp P_QRun P_QHist P_Cluster.
Set Implicit Arguments.
Unset Strict Implicit.

(** ** The largest entry of a list *)
Lemma largest_from fs : forall k m i m' i',
  fold_left (fun mi p => if Z.ltb (fst mi) (snd p) then (snd p, (Z.of_nat (fst p) + 1)%Z) else mi)
            (combine (seq k (length fs)) fs) (m, i) = (m', i') ->
  (m <= m')%Z /\ (forall x, In x fs -> (x <= m')%Z) /\
  ((m' = m /\ i' = i) \/
   exists n, nth_error fs n = Some m' /\ i' = (Z.of_nat (k + n) + 1)%Z /\ (m < m')%Z /\
     forall n' x, n' < n -> nth_error fs n' = Some x -> (x < m')%Z).
Proof.
  induction fs as [|f fs IH]; intros k m i m' i' H; cbn in H.
  - injection H as -> ->. split; [lia|]. split; [intros x []|]. auto.
  - destruct (Z.ltb_spec m f) as [Hf|Hf]; cbn in H; apply IH in H as (A & B & C).
    + split; [lia|]. split; [intros x [<-|Hx]; auto|]. right. destruct C as [[-> ->]|(n & E & -> & L & F)].
      * exists 0. split; [reflexivity|]. rewrite Nat.add_0_r. split; [lia|]. split; [lia|]. intros n' x Hn. lia.
      * exists (S n). split; [exact E|]. split; [lia|]. split; [lia|]. intros [|n'] x Hn Ex; cbn in Ex.
        -- apply Some_inj in Ex. subst. auto.
        -- apply (F n'); auto. lia.
    + split; [lia|]. split; [intros x [<-|Hx]; [lia|auto]|]. destruct C as [[-> ->]|(n & E & -> & L & F)]; auto.
      right. exists (S n). split; [exact E|]. split; [lia|]. split; [lia|]. intros [|n'] x Hn Ex; cbn in Ex.
      * apply Some_inj in Ex. subst. lia.
      * apply (F n'); auto. lia.
Qed.
Lemma combine_firstn {A B} (x : list A) (y : list B) : combine x y = combine x (firstn (length x) y).
Proof. revert y. induction x as [|a x IH]; intros [|b y]; simpl; auto. now rewrite <- IH. Qed.

Section Run.
Variable N : num.
Implicit Types (l L : list (atom N)) (s t : sys N).

(** ** Sizes *)
Lemma sizes_spec l : forall freq,
  (forall a, In a l -> a_belongs a = (-1)%Z \/ (1 <= a_belongs a <= Z.of_nat (length freq))%Z) ->
  exists freq', foldM (@count_cluster N) l freq = Ok freq' /\ length freq' = length freq /\
    forall n x, nth_error freq n = Some x -> nth_error freq' n = Some (x + size l (Z.of_nat n + 1))%Z.
Proof.
  induction l as [|a l IH]; intros freq H; cbn [foldM].
  - exists freq. repeat split; auto. intros n x E. rewrite E. f_equal. unfold size. simpl. lia.
  - unfold count_cluster at 1. pose proof (H a (or_introl eq_refl)) as Ha.
    destruct (Z.eqb_spec (a_belongs a) (-1)) as [E|E]; cbn [bind].
    + destruct (IH freq) as (f' & E1 & E2 & E3); [intros; apply H; simpl; auto|].
      exists f'. split; [auto|]. split; [auto|]. intros n x Hn. rewrite (E3 n x Hn). f_equal. f_equal.
      unfold size. cbn [filter]. rewrite E. destruct (Z.eqb_spec (-1) (Z.of_nat n + 1)); [lia|reflexivity].
    + destruct Ha as [Ha|Ha]; [contradiction|].
      destruct (@nth_error_some _ freq (Z.to_nat (a_belongs a - 1))) as [f Ef]; [lia|].
      rewrite (@zget_Ok _ freq (a_belongs a - 1) f) by (auto; lia). cbn [bind].
      rewrite zput_Ok by lia. cbn [bind].
      destruct (IH (upd (Z.to_nat (a_belongs a - 1)) (fun _ => (f + 1)%Z) freq)) as (f' & E1 & E2 & E3).
      { intros b Hb. rewrite length_upd. apply H. simpl; auto. }
      exists f'. split; [auto|]. split; [now rewrite E2, length_upd|]. intros n x Hn.
      rewrite (E3 n (if n =? Z.to_nat (a_belongs a - 1) then (f + 1)%Z else x)).
      2:{ rewrite nth_error_upd, Hn. destruct (Nat.eqb_spec n (Z.to_nat (a_belongs a - 1))); reflexivity. }
      f_equal. unfold size. cbn [filter].
      destruct (Nat.eqb_spec n (Z.to_nat (a_belongs a - 1))) as [En|En];
        destruct (Z.eqb_spec (a_belongs a) (Z.of_nat n + 1)) as [En'|En']; try lia.
      rewrite En, Ef in Hn. apply Some_inj in Hn. subst x. cbn [length]. lia.
Qed.

(** ** Marking *)
Definition liquid_at l (e : nbr N) : bool :=
  match nth_error l (nb_idx e) with Some b => Z.eqb (a_ghost b) 0 && negb (a_solid b) | None => false end.
Definition surf l (a : atom N) : bool := negb (a_solid a) || existsb (liquid_at l) (a_nbrs a).
Definition mk (id : Z) l (a : atom N) : atom N :=
  a <| a_lcluster := Z.eqb (a_belongs a) id |> <| a_surface := surf l a |>.
Lemma liquid_spec l es : match liquid_neighbor l es with
  | Ok b => b = existsb (liquid_at l) es
  | Err e => e = UB /\ exists e, In e es /\ length l <= nb_idx e end.
Proof.
  induction es as [|e es IH]; simpl; auto. unfold liquid_at at 1, get.
  destruct (nth_error l (nb_idx e)) as [b|] eqn:E; cbn [bind].
  2:{ split; auto. exists e. split; auto. now apply nth_error_None. }
  destruct (Z.eqb (a_ghost b) 0); simpl; [destruct (a_solid b); simpl; auto|];
    (destruct (liquid_neighbor l es); auto; destruct IH as (A & e' & B & C); split; eauto).
Qed.
Definition fixed (a : atom N) : atom N := a <| a_lcluster := false |> <| a_surface := false |>.
Lemma surf_same l l' a a' : map fixed l = map fixed l' -> fixed a = fixed a' -> surf l a = surf l' a'.
Proof.
  intros H Ha. unfold surf.
  assert (a_solid a = a_solid a') as -> by exact (f_equal (@a_solid N) Ha).
  assert (a_nbrs a = a_nbrs a') as -> by exact (f_equal (@a_nbrs N) Ha).
  f_equal. assert (forall e, liquid_at l e = liquid_at l' e) as E.
  { intros e. unfold liquid_at. pose proof (f_equal (fun x => nth_error x (nb_idx e)) H) as E. cbn in E.
    rewrite !nth_error_map in E.
    destruct (nth_error l (nb_idx e)) as [b|], (nth_error l' (nb_idx e)) as [b'|]; cbn in E; try discriminate; auto.
    apply Some_inj in E. assert (a_solid b = a_solid b') as -> by exact (f_equal (@a_solid N) E).
    assert (a_ghost b = a_ghost b') as -> by exact (f_equal (@a_ghost N) E). reflexivity. }
  induction (a_nbrs a') as [|e es IH]; simpl; auto. now rewrite E, IH.
Qed.
Lemma fixed_mk id l a : fixed (mk id l a) = fixed a.
Proof. reflexivity. Qed.

Lemma mark_spec (id : Z) l (n : nat) : n <= length l ->
  match foldM (mark_atom id) (seq 0 n) l with
  | Ok l' => l' = map_first n (mk id l) l
  | Err e => e = UB /\ exists a e, In a l /\ In e (a_nbrs a) /\ length l <= nb_idx e
  end.
Proof.
  induction n as [|n IH]; intros Hn.
  - reflexivity.
  - rewrite seq_S, foldM_app. specialize (IH ltac:(lia)).
    destruct (foldM (mark_atom id) (seq 0 n) l) as [l1|e]; [|exact IH]. cbn [bind Nat.add foldM]. subst l1.
    destruct (@nth_error_some _ l n) as [a Ea]; [lia|].
    assert (nth_error (map_first n (mk id l) l) n = Some a) as E1.
    { rewrite map_first_nth by lia. now rewrite Nat.ltb_irrefl. }
    unfold mark_atom. rewrite (get_Ok E1). cbn [bind].
    set (l1 := map_first n (mk id l) l) in *.
    assert (map fixed l1 = map fixed l) as Hf by (apply map_map_first; intros; apply fixed_mk).
    assert (length l1 = length l) as Hl.
    { apply (f_equal (@length _)) in Hf. now rewrite !map_length in Hf. }
    assert (In a l) as Hin by (eapply nth_error_In; eauto).
    assert (upd n (mk id l) l1 = map_first (S n) (mk id l) l) as Hupd.
    { apply P_QSys.nth_error_ext'. intros k. rewrite nth_error_upd. unfold l1. rewrite !map_first_nth by lia.
      destruct (Nat.eqb_spec k n) as [->|Hk].
      - rewrite Nat.ltb_irrefl. destruct (Nat.ltb_spec n (S n)); [reflexivity|lia].
      - destruct (Nat.ltb_spec k n), (Nat.ltb_spec k (S n)); try lia; reflexivity. }
    assert (forall b, b = surf l a ->
      upd n (fun a => a <| a_lcluster := Z.eqb (a_belongs a) id |> <| a_surface := b |>) l1 =
      map_first (S n) (mk id l) l) as Hfin.
    { intros b ->. rewrite <- Hupd. apply P_QSys.nth_error_ext'. intros k. rewrite !nth_error_upd.
      destruct (Nat.eqb_spec k n) as [->|Hk]; auto. rewrite E1. reflexivity. }
    destruct (a_solid a) eqn:Es.
    + pose proof (liquid_spec l1 (a_nbrs a)) as Hq. destruct (liquid_neighbor l1 (a_nbrs a)) as [b|e]; cbn [bind].
      * apply Hfin. subst b. rewrite <- (@surf_same l1 l a a Hf eq_refl). unfold surf. now rewrite Es.
      * destruct Hq as (A & e' & B & C). split; auto. exists a, e'. rewrite <- Hl. auto.
    + cbn [bind]. apply Hfin. unfold surf. now rewrite Es.
Qed.

(** ** Clusters and the largest one *)
Definition with_cutoff (c : N) (a : atom N) : atom N := if neqb c n0 then a else a <| a_cutoff := c |>.
Definition start s (c : N) : list (atom N) :=
  reset_clusters (Z.to_nat (s_real s)) (map (with_cutoff c) (s_atoms s)).

Lemma counters_stored s : counters_ok s -> s_nop s = Z.of_nat (length (s_atoms s)) /\
  Z.to_nat (s_real s) <= length (s_atoms s).
Proof.
  intros (r & g & E & _ & _ & E1 & E2 & E3). rewrite E, app_length. lia.
Qed.
Lemma map_first_length {A} (f : A -> A) n (l : list A) : length (map_first n f l) = length l.
Proof.
  unfold map_first. rewrite app_length, map_length, firstn_length, skipn_length. lia.
Qed.

Lemma inv0 L : inv L 0 L [] 0 [] \/ exists i, ch L i /\ bel L i <> (-1)%Z.
Proof.
  assert ((exists i, i < length L /\ ch L i /\ bel L i <> (-1)%Z) \/
          ~ exists i, i < length L /\ ch L i /\ bel L i <> (-1)%Z) as [(i & _ & H)|H].
  { induction (length L) as [|n IH]; [right; intros (i & H & _); lia|].
    destruct IH as [(i & H & X)|H]; [left; exists i; split; [lia|auto]|].
    destruct (nth_error L n) as [a|] eqn:Ea.
    - pose proof (ch_dec Ea) as Hc.
      destruct (Z.eq_dec (a_ghost a) 0) as [G|G], (Z.eq_dec (a_cond a) 0) as [C|C], (Z.eq_dec (bel L n) (-1)) as [B|B];
        try (left; exists n; split; [lia|tauto]);
        right; intros (i & Hi & X); (destruct (Nat.eq_dec i n) as [->|]; [tauto|apply H; exists i; split; [lia|tauto]]).
    - right. intros (i & Hi & X & Y). destruct (Nat.eq_dec i n) as [->|]; [|apply H; exists i; split; [lia|tauto]].
      destruct X as (a & Ea' & _). congruence. }
  - right. exists i. auto.
  - left. assert (forall i, ch L i -> bel L i = (-1)%Z) as H'.
    { intros i Hi. destruct (Z.eq_dec (bel L i) (-1)) as [|n]; auto. destruct H. exists i. split; [|auto].
      destruct Hi as (a & Ea & _). apply nth_error_Some. congruence. }
    constructor; auto.
    + reflexivity.
    + intros [|m] r E; discriminate.
    + intros [|m] m' r r' _ E; discriminate.
    + intros i Hi. rewrite (H' i Hi). split; [lia|intros (u & X & _); lia].
    + intros i Hi X. now rewrite (H' i Hi) in X.
    + constructor.
    + intros i. split; [intros []|intros [A B]; now rewrite (H' i A) in B].
    + intros i a Ea _. unfold bel. now rewrite Ea.
Qed.

Lemma start_nth s (c : N) i : counters_ok s -> nth_error (start s c) i =
  if (i <? Z.to_nat (s_real s))%nat then option_map (fun a => with_cutoff c a <| a_belongs := (-1)%Z |>) (nth_error (s_atoms s) i)
  else option_map (with_cutoff c) (nth_error (s_atoms s) i).
Proof.
  intros H. unfold start, reset_clusters. rewrite map_first_nth by (rewrite map_length; now apply counters_stored).
  rewrite nth_error_map. destruct (nth_error (s_atoms s) i); destruct (_ <? _)%nat; reflexivity.
Qed.
Lemma real_index s i a : counters_ok s -> nth_error (s_atoms s) i = Some a ->
  (i < Z.to_nat (s_real s) <-> a_ghost a = 0%Z).
Proof.
  intros (r & g & E & Hr & Hg & E1 & E2 & E3) Ha. rewrite E in Ha. rewrite E1, Nat2Z.id.
  destruct (Nat.lt_ge_cases i (length r)) as [H|H].
  - rewrite nth_error_app1 in Ha by auto. apply nth_error_In in Ha. split; auto.
  - rewrite nth_error_app2 in Ha by auto. apply nth_error_In in Ha. apply Hg in Ha. split; [lia|contradiction].
Qed.
Lemma start_ghost s (c : N) i a : counters_ok s -> nth_error (start s c) i = Some a ->
  a_ghost a = 0%Z -> i < Z.to_nat (s_real s) /\ a_belongs a = (-1)%Z.
Proof.
  intros H E G. rewrite start_nth in E by auto.
  destruct (nth_error (s_atoms s) i) as [b|] eqn:Eb; [|destruct (_ <? _)%nat; discriminate].
  assert (a_ghost b = a_ghost a).
  { unfold with_cutoff in E. destruct (_ <? _)%nat; cbn in E; apply Some_inj in E; subst a;
      destruct (neqb c n0); reflexivity. }
  assert (i < Z.to_nat (s_real s)) as Hi by (apply (real_index H Eb); congruence).
  split; auto. destruct (Nat.ltb_spec i (Z.to_nat (s_real s))); [|lia]. cbn in E. apply Some_inj in E. now subst.
Qed.

Theorem clusters_spec s (c : N) : counters_ok s ->
  match find_clusters_recursive s c with
  | Ok (t, calls) => exists ci roots, inv (start s c) (Z.to_nat (s_real s)) (s_atoms t) calls ci roots /\
      t = s <| s_atoms := s_atoms t |>
  | Err e => e = UB /\ ~ forall i, valid_at (start s c) i
  end.
Proof.
  intros Hok. destruct (counters_stored Hok) as [Hn Hr]. unfold find_clusters_recursive.
  assert ((if neqb c n0 then Ok s else each_atom (fun a => a <| a_cutoff := c |>) s) =
          Ok (s <| s_atoms := map (with_cutoff c) (s_atoms s) |>)) as ->.
  { unfold with_cutoff. destruct (neqb c n0); [rewrite map_id; now destruct s|]. now apply each_atom_stored. }
  cbn [bind]. cbv zeta. cbn [s_atoms s_real set]. rewrite map_length.
  destruct (Nat.leb_spec (Z.to_nat (s_real s)) (length (s_atoms s))) as [_|]; [|lia]. cbn [negb].
  change (reset_clusters (Z.to_nat (s_real s)) (map (with_cutoff c) (s_atoms s))) with (start s c).
  assert (length (start s c) = length (s_atoms s)) as Hl.
  { unfold start, reset_clusters. now rewrite map_first_length, map_length. }
  assert (inv (start s c) 0 (start s c) [] 0 []) as I0.
  { destruct (inv0 (start s c)) as [I|(i & (a & Ea & Hg & Hc) & Hb)]; auto. exfalso.
    destruct (start_ghost Hok Ea Hg) as [_ X]. unfold bel in Hb. rewrite Ea in Hb. auto. }
  pose proof (@clusters_loop N (start s c) (length (s_atoms s)) (Z.to_nat (s_real s)) 0) as H.
  specialize (H ltac:(lia) ltac:(lia) _ _ _ _ I0). unfold cpost in H. cbn [Nat.add] in H.
  destruct (foldM _ _ _) as [[[l calls] ci]|e]; [|exact H]. cbn [bind].
  destruct H as (roots & I). exists ci, roots. split; [exact I|]. reflexivity.
Qed.

Lemma increasing_length (roots : list nat) n :
  (forall m r, nth_error roots m = Some r -> r < n) ->
  (forall m m' r r', m < m' -> nth_error roots m = Some r -> nth_error roots m' = Some r' -> r < r') ->
  length roots <= n.
Proof.
  intros H I. rewrite <- (seq_length n 0). apply NoDup_incl_length.
  - apply NoDup_nth_error. intros i j Hi E. destruct (nth_error_some Hi) as [r Er]. rewrite Er in E. symmetry in E.
    destruct (Nat.lt_trichotomy i j) as [X|[X|X]]; auto.
    + pose proof (I _ _ _ _ X Er E). lia.
    + pose proof (I _ _ _ _ X E Er). lia.
  - intros r Hr. apply In_nth_error in Hr as [m Em]. apply in_seq. pose proof (H m r Em). lia.
Qed.

Lemma firstn_nth {A} n (l : list A) i : i < n -> nth_error (firstn n l) i = nth_error l i.
Proof.
  revert l i. induction n as [|n IH]; intros l i H; [lia|]. destruct l, i; simpl; auto. apply IH. lia.
Qed.

(** The clusters found, their sizes and the flags: [mx] is the id of the
    largest cluster. *)
Theorem largest_spec L s calls ci roots : counters_ok s ->
  inv L (Z.to_nat (s_real s)) (s_atoms s) calls ci roots ->
  (forall i a, nth_error L i = Some a -> i < Z.to_nat (s_real s) -> ~ ch L i -> a_belongs a = (-1)%Z) ->
  let real := Z.to_nat (s_real s) in
  match largest_cluster s with
  | Ok (t, max) => exists mx,
      t = s <| s_maxclus := mx |> <| s_atoms := map_first real (mk mx (s_atoms s)) (s_atoms s) |> /\
      (forall m, m < length roots -> (size (firstn real (s_atoms s)) (Z.of_nat m + 1) <= max)%Z) /\
      ((roots = [] /\ max = 0%Z /\ mx = s_maxclus s) \/
       exists m, m < length roots /\ mx = (Z.of_nat m + 1)%Z /\ (0 < max)%Z /\
         size (firstn real (s_atoms s)) mx = max /\
         forall m', m' < m -> (size (firstn real (s_atoms s)) (Z.of_nat m' + 1) < max)%Z)
  | Err e => e = UB /\ exists a e, In a (s_atoms s) /\ In e (a_nbrs a) /\ length (s_atoms s) <= nb_idx e
  end.
Proof.
  intros Hok I Hrest real. destruct (counters_stored Hok) as [Hn Hr]. fold real in Hr.
  set (l := s_atoms s) in *. unfold largest_cluster. fold real l.
  destruct (Nat.leb_spec real (length l)) as [_|]; [|lia]. cbn [negb].
  assert (Hroots : length roots <= real).
  { apply increasing_length; [|apply I]. intros m r E. exact (proj1 (i_root I E)). }
  assert (Hbel : forall a, In a (firstn real l) ->
    a_belongs a = (-1)%Z \/ (1 <= a_belongs a <= Z.of_nat (length roots))%Z).
  { intros a Ha. apply In_nth_error in Ha as [i Ei]. assert (i < real) as Hi.
    { assert (i < length (firstn real l)) by (apply nth_error_Some; congruence). rewrite firstn_length in H. lia. }
    rewrite firstn_nth in Ei by auto. assert (bel l i = a_belongs a) as Hb by (unfold bel; now rewrite Ei).
    destruct (@same_nth _ l L i a (i_same I) Ei) as (aL & EL & _).
    destruct (Z.eq_dec (a_belongs a) (-1)) as [|Hne]; auto. right.
    assert (ch L i) as Hc.
    { destruct (Z.eq_dec (a_ghost aL) 0) as [G|G], (Z.eq_dec (a_cond aL) 0) as [C|C];
        try (rewrite (ch_dec EL); tauto); exfalso;
        (assert (~ ch L i) as Hnc by (rewrite (ch_dec EL); tauto);
         rewrite <- Hb, (i_rest I EL Hnc) in Hne; apply Hne; now apply (Hrest i)). }
    destruct (i_id I Hc) as (m & r & Em & _ & Eb); [congruence|]. rewrite <- Hb, Eb.
    assert (m < length roots) by (apply nth_error_Some; congruence). lia. }
  assert (Hfl : length (firstn real l) = real) by (rewrite firstn_length; lia).
  unfold cluster_sizes.
  destruct (@sizes_spec (firstn real l) (repeat 0%Z (length l))) as (freq & E1 & E2 & E3).
  { intros a Ha. destruct (Hbel a Ha) as [|H]; auto. right. rewrite repeat_length. lia. }
  rewrite E1. cbn [bind]. rewrite repeat_length in E2.
  assert (Hfreq : forall n, n < length l -> nth_error freq n = Some (size (firstn real l) (Z.of_nat n + 1))).
  { intros n Hlt. rewrite (E3 n 0%Z); [f_equal; lia|]. apply nth_error_repeat. auto. }
  destruct (largest_of freq real (s_maxclus s)) as [mx id] eqn:El.
  unfold largest_of in El. rewrite combine_firstn, seq_length in El.
  assert (Hff : length (firstn real freq) = real) by (rewrite firstn_length; lia).
  rewrite <- Hff in El at 1. apply largest_from in El as (A & B & C).
  unfold get_largest_cluster_atoms. cbn [s_maxclus s_atoms s_real set]. fold l real.
  pose proof (mark_spec id Hr) as Hm.
  match type of Hm with context [foldM ?f ?x ?y] =>
    match goal with |- context [foldM ?f' ?x' ?y'] => change (foldM f' x' y') with (foldM f x y) end end.
  destruct (foldM (mark_atom id) (seq 0 real) l) as [l'|e]; cbn [bind]; [|exact Hm].
  exists id. subst l'. split; [reflexivity|].
  assert (Hsz : forall m, m < real -> nth_error (firstn real freq) m = Some (size (firstn real l) (Z.of_nat m + 1))).
  { intros m Hlt. rewrite firstn_nth by auto. apply Hfreq. lia. }
  split.
  { intros m Hlt. apply B. eapply nth_error_In. apply Hsz. lia. }
  destruct C as [[-> ->]|(n & En & -> & Lt & F)].
  - left. destruct roots as [|r roots]; auto. exfalso.
    destruct (@i_root _ _ _ _ _ _ _ I 0 r eq_refl) as (R1 & R2 & R3).
    destruct (@i_id _ _ _ _ _ _ _ I r R2) as (m & r' & Em & Es & Eb).
    { apply (i_lab I R2). exists r. repeat split; auto. constructor. }
    assert (size (firstn real l) (Z.of_nat m + 1) <= 0)%Z as Hz.
    { apply B. eapply nth_error_In. apply Hsz. assert (m < length (r :: roots)) by (apply nth_error_Some; congruence). lia. }
    assert (exists a, In a (firstn real l) /\ a_belongs a = (Z.of_nat m + 1)%Z) as (a & Ha & Hab).
    { unfold bel in Eb. destruct (nth_error l r) as [a|] eqn:Er; [|lia]. exists a. split; auto.
      eapply nth_error_In. rewrite firstn_nth; eauto. }
    unfold size in Hz. assert (In a (filter (fun a => Z.eqb (a_belongs a) (Z.of_nat m + 1)) (firstn real l))) as Hin.
    { apply filter_In. split; auto. now apply Z.eqb_eq. }
    destruct (filter _ (firstn real l)); [destruct Hin|cbn in Hz; lia].
  - right. assert (n < real) as Hnr.
    { rewrite <- Hff. apply nth_error_Some. congruence. }
    rewrite (Hsz n Hnr) in En. apply Some_inj in En.
    exists n. cbn [Nat.add]. rewrite En. split; [|split; [reflexivity|split; [auto|split; [reflexivity|]]]].
    + unfold size in En. destruct (filter (fun a => Z.eqb (a_belongs a) (Z.of_nat n + 1)) (firstn real l)) as [|a x] eqn:Ef;
        [cbn in En; lia|].
      assert (In a (filter (fun a => Z.eqb (a_belongs a) (Z.of_nat n + 1)) (firstn real l))) as Hin by (rewrite Ef; simpl; auto).
      apply filter_In in Hin as [Hin He]. apply Z.eqb_eq in He. destruct (Hbel a Hin); lia.
    + intros m' Hm'. apply (F m'); auto. apply Hsz. lia.
Qed.

End Run.
