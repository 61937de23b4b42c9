(** Depth-first search in find_clusters_recursive. *)
From Coq Require Import Lia.
From Verif Require Import Base Num Types M_Geometry M_Container M_Neighbors M_Steinhardt M_Cluster
  S_Container S_Cluster P_Container P_Neighbors P_Temp P_QRun P_QHist.
Set Implicit Arguments.
Unset Strict Implicit.

Section Dfs.
Variable N : num.
Implicit Types (l : list (atom N)) (i j k ti : nat).

Definition st (a : atom N) : atom N := a <| a_belongs := 0%Z |>.
Definition bel l i : Z := match nth_error l i with Some a => a_belongs a | None => 0%Z end.
Definition same l l' := map st l = map st l'.

Lemma same_nth l l' i (a : atom N) : same l l' -> nth_error l i = Some a ->
  exists a', nth_error l' i = Some a' /\ st a = st a'.
Proof.
  intros H E. pose proof (f_equal (fun x => nth_error x i) H) as H1. cbn in H1.
  rewrite !nth_error_map, E in H1. cbn in H1.
  destruct (nth_error l' i) as [a'|]; [|discriminate]. exists a'. split; auto. now apply Some_inj in H1.
Qed.
Lemma same_length l l' : same l l' -> length l = length l'.
Proof. intros H. apply (f_equal (@length _)) in H. now rewrite !map_length in H. Qed.
Lemma st_f {A} (f : atom N -> A) (a b : atom N) : st a = st b -> (forall x, f (st x) = f x) -> f a = f b.
Proof. intros H Hf. rewrite <- (Hf a), <- (Hf b). now rewrite H. Qed.
Lemma st_ghost (a b : atom N) : st a = st b -> a_ghost a = a_ghost b.
Proof. intros H. now apply (st_f (f := @a_ghost N) H). Qed.
Lemma st_cond (a b : atom N) : st a = st b -> a_cond a = a_cond b.
Proof. intros H. now apply (st_f (f := @a_cond N) H). Qed.
Lemma st_nbrs (a b : atom N) : st a = st b -> a_nbrs a = a_nbrs b.
Proof. intros H. now apply (st_f (f := @a_nbrs N) H). Qed.
Lemma st_cutoff (a b : atom N) : st a = st b -> a_cutoff a = a_cutoff b.
Proof. intros H. now apply (st_f (f := @a_cutoff N) H). Qed.

(** The graph of a stored list. *)
Variable L : list (atom N).
Definition ch i : Prop := exists a, nth_error L i = Some a /\ a_ghost a = 0%Z /\ a_cond a <> 0%Z.
Definition ed i j : Prop :=
  exists a e, nth_error L i = Some a /\ In e (a_nbrs a) /\ nb_idx e = j /\
    nleb (nb_dist e) (a_cutoff a) = true /\ ch j.
Inductive reach : nat -> nat -> Prop :=
| reach_refl i : reach i i
| reach_step i j k : ed i j -> reach j k -> reach i k.
Lemma reach_trans i j k : reach i j -> reach j k -> reach i k.
Proof. induction 1; auto. intros. eapply reach_step; eauto. Qed.
Lemma reach_one i j : ed i j -> reach i j.
Proof. intros. eapply reach_step; eauto. constructor. Qed.
Lemma reach_ch i j : reach i j -> ch i -> ch j.
Proof. induction 1; auto. intros _. apply IHreach. destruct H as (?&?&?&?&?&?&?); auto. Qed.

Definition cnt l : nat := length (filter (fun i => Z.eqb (bel l i) (-1)) (seq 0 (length l))).
Lemma filter_length_le {A} (f g : A -> bool) (x : list A) :
  (forall a, In a x -> f a = true -> g a = true) -> length (filter f x) <= length (filter g x).
Proof.
  induction x as [|a x IH]; intros H; simpl; auto.
  assert (length (filter f x) <= length (filter g x)) by (apply IH; intros; apply H; simpl; auto).
  specialize (H a (or_introl eq_refl)). destruct (f a); [rewrite H by auto; simpl; lia|].
  destruct (g a); simpl; lia.
Qed.
Lemma filter_length_lt {A} (f g : A -> bool) (x : list A) a0 :
  (forall a, In a x -> f a = true -> g a = true) -> In a0 x -> g a0 = true -> f a0 = false ->
  length (filter f x) < length (filter g x).
Proof.
  induction x as [|a x IH]; intros H Hin Hg Hf; [destruct Hin|].
  assert (forall b, In b x -> f b = true -> g b = true) as H' by (intros; apply H; simpl; auto).
  pose proof (filter_length_le H') as Hle. specialize (H a (or_introl eq_refl)). simpl.
  destruct Hin as [->|Hin].
  - rewrite Hf, Hg. simpl. lia.
  - specialize (IH H' Hin Hg Hf). destruct (f a); [rewrite H by auto; simpl; lia|].
    destruct (g a); simpl; lia.
Qed.
Lemma cnt_le l l' : length l = length l' -> (forall i, bel l' i = (-1)%Z -> bel l i = (-1)%Z) ->
  cnt l' <= cnt l.
Proof.
  intros E H. unfold cnt. rewrite E. apply filter_length_le. intros i _ Hi.
  apply Z.eqb_eq in Hi. apply Z.eqb_eq. auto.
Qed.
Lemma cnt_lt l l' i0 : length l = length l' -> (forall i, bel l' i = (-1)%Z -> bel l i = (-1)%Z) ->
  i0 < length l -> bel l i0 = (-1)%Z -> bel l' i0 <> (-1)%Z -> cnt l' < cnt l.
Proof.
  intros E H Hi H1 H2. unfold cnt. rewrite E. apply filter_length_lt with (a0 := i0).
  - intros i _ Hi'. apply Z.eqb_eq in Hi'. apply Z.eqb_eq. auto.
  - apply in_seq. lia.
  - now apply Z.eqb_eq.
  - now apply Z.eqb_neq.
Qed.
Lemma cnt_bound l : cnt l <= length l.
Proof.
  unfold cnt. rewrite <- (seq_length (length l) 0) at 2.
  induction (seq 0 (length l)) as [|x y IH]; simpl; auto. destruct (Z.eqb _ _); simpl; lia.
Qed.

Definition lab (ci : Z) (b : atom N) : atom N := b <| a_belongs := ci |>.
Lemma bel_upd l i ci j : i < length l ->
  bel (upd i (lab ci) l) j = if Nat.eqb j i then ci else bel l j.
Proof.
  intros H. unfold bel. rewrite nth_error_upd. destruct (Nat.eqb_spec j i) as [->|E].
  - destruct (nth_error_some H) as [a ->]. reflexivity.
  - reflexivity.
Qed.
Lemma same_upd l i ci : same l L -> same (upd i (lab ci) l) L.
Proof. intros H. unfold same. rewrite map_upd_id; [exact H|reflexivity]. Qed.

Section Harvest.
Variable ci : Z.
Hypothesis Hci : ci <> (-1)%Z.

(** What a piece of the search started at [ti] has done: [new] are the atoms
    it labelled. *)
Definition done (ti : nat) (l : list (atom N)) (new : list nat) (l' : list (atom N)) : Prop :=
  same l' L /\ NoDup new /\
  (forall i, bel l' i = if existsb (Nat.eqb i) new then ci else bel l i) /\
  (forall i, In i new -> bel l i = (-1)%Z /\ i < length L /\ ch i /\ reach ti i) /\
  (forall i j, In i new -> ed i j -> bel l' j <> (-1)%Z).
Lemma existsb_In i new : existsb (Nat.eqb i) new = true <-> In i new.
Proof.
  rewrite existsb_exists. split; [intros (x & H & E); apply Nat.eqb_eq in E; now subst|].
  intros H. exists i. split; auto. apply Nat.eqb_refl.
Qed.
Lemma done_nil ti l : same l L -> done ti l [] l.
Proof. intros H. split; [auto|]. split; [constructor|]. repeat split; try contradiction. Qed.
Lemma done_mono ti l new l' i : done ti l new l' -> bel l' i = (-1)%Z -> bel l i = (-1)%Z.
Proof. intros (_ & _ & H & _) E. rewrite H in E. destruct (existsb _ _); congruence. Qed.
Lemma done_length ti l new l' : same l L -> done ti l new l' -> length l = length l'.
Proof. intros H (H' & _). rewrite (same_length H), (same_length H'). auto. Qed.
Lemma done_app ti l n1 l1 n2 l2 : done ti l n1 l1 -> done ti l1 n2 l2 -> done ti l (n1 ++ n2) l2.
Proof.
  intros D1 D2. pose proof D1 as (S1 & N1 & B1 & R1 & E1). pose proof D2 as (S2 & N2 & B2 & R2 & E2).
  assert (forall i, In i n1 -> ~ In i n2) as Hd.
  { intros i H1 H2. destruct (R2 i H2) as [X _]. rewrite B1 in X.
    rewrite (proj2 (existsb_In i n1) H1) in X. auto. }
  split; [auto|]. split; [apply NoDup_app_intro; auto|]. split.
  { intros i. rewrite B2, B1, existsb_app. destruct (existsb _ n1), (existsb _ n2); auto. }
  split.
  - intros i Hi. apply in_app_iff in Hi as [Hi|Hi]; [auto|]. destruct (R2 i Hi) as (X & Y).
    split; auto. now apply (done_mono D1).
  - intros i j Hi Hed. apply in_app_iff in Hi as [Hi|Hi]; [|eapply E2; eauto].
    intros X. apply (done_mono D2) in X. now apply (E1 _ _ Hi Hed).
Qed.

Definition hstep (fuel : nat) (a : atom N) : list (atom N) * list nat -> nbr N ->
    res (list (atom N) * list nat) :=
  fun st e =>
    let '(l, calls) := st in
    b <- get l (nb_idx e) ;;
    if negb (Z.eqb (a_ghost b) 0) then Ok (l, calls)
    else if Z.eqb (a_cond b) 0 then Ok (l, calls)
    else if negb (nleb (nb_dist e) (a_cutoff a)) then Ok (l, calls)
    else if Z.eqb (a_belongs b) (-1) then
      harvest_cluster fuel ci (upd (nb_idx e) (lab ci) l, calls) (nb_idx e)
    else Ok (l, calls).
Lemma harvest_unfold fuel l calls ti :
  harvest_cluster (S fuel) ci (l, calls) ti =
  (a <- get l ti ;; foldM (hstep fuel a) (a_nbrs a) (l, calls ++ [ti])).
Proof. reflexivity. Qed.

(** Outcome of a search: complete, or an index outside the array. *)
Definition valid_at (i : nat) : Prop :=
  forall a e, nth_error L i = Some a -> In e (a_nbrs a) -> nb_idx e < length L.
Definition hpost (ti : nat) (l : list (atom N)) (calls : list nat) (pre : list nat)
    (todo : nat -> Prop) (r : res (list (atom N) * list nat)) : Prop :=
  match r with
  | Ok (l', calls') => exists new, calls' = calls ++ pre ++ new /\ done ti l new l' /\
      (forall j, todo j -> bel l' j <> (-1)%Z)
  | Err e => e = UB /\ ~ (forall i, valid_at i)
  end.

Lemma harvest_spec fuel : forall l calls ti, same l L -> ch ti -> cnt l < fuel ->
  hpost ti l calls [ti] (ed ti) (harvest_cluster fuel ci (l, calls) ti).
Proof.
  induction fuel as [|fuel IH]; intros l calls ti Hs Hch Hc; [lia|].
  rewrite harvest_unfold. destruct Hch as (aL & EaL & Hch).
  destruct (@same_nth L l ti aL) as (a & Ea & Sa); [now symmetry|auto|].
  rewrite (get_Ok Ea). cbn [bind].
  (* the loop *)
  assert (forall es, (forall e, In e es -> In e (a_nbrs aL)) -> forall l calls, same l L -> cnt l < S fuel ->
    hpost ti l calls [] (fun j => exists e, In e es /\ nb_idx e = j /\
       nleb (nb_dist e) (a_cutoff aL) = true /\ ch j) (foldM (hstep fuel a) es (l, calls))) as Loop.
  { clear l calls Hs Hc Ea. induction es as [|e es IHes]; intros Hes l calls Hs Hc; cbn [foldM].
    - exists []. split; [now rewrite app_nil_r|]. split; [now apply done_nil|].
      intros j (e & [] & _).
    - assert (In e (a_nbrs aL)) as He by (apply Hes; simpl; auto).
      assert (forall e, In e es -> In e (a_nbrs aL)) as Hes' by (intros; apply Hes; simpl; auto).
      unfold hstep at 1.
      destruct (nth_error l (nb_idx e)) as [b|] eqn:Eb.
      2:{ unfold get. rewrite Eb. cbn [bind]. split; auto. intros HV.
          pose proof (HV ti aL e EaL He). apply nth_error_None in Eb. rewrite (same_length Hs) in Eb. lia. }
      rewrite (get_Ok Eb). cbn [bind].
      destruct (same_nth Hs Eb) as (bL & EbL & Sb).
      (* skip *)
      assert (forall (bad : ch (nb_idx e) -> nleb (nb_dist e) (a_cutoff aL) = true -> bel l (nb_idx e) <> (-1)%Z),
        hpost ti l calls [] (fun j => exists e', In e' (e :: es) /\ nb_idx e' = j /\
          nleb (nb_dist e') (a_cutoff aL) = true /\ ch j)
          (bind (Ok (l, calls)) (fun st' => foldM (hstep fuel a) es st'))) as Skip.
      { intros bad. cbn [bind]. specialize (IHes Hes' l calls Hs Hc). unfold hpost in *.
        destruct (foldM _ es _) as [[l' calls']|er]; auto.
        destruct IHes as (new & E & D & T). exists new. split; [auto|]. split; [auto|].
        intros j (e' & [<-|Hin] & Ej & Hd & Hj); [|apply T; eauto 6].
        intros X. subst j. apply (done_mono D) in X. now apply bad in X. }
      destruct (Z.eqb_spec (a_ghost b) 0) as [Hg|Hg]; simpl negb; cbv iota.
      2:{ apply Skip. intros (x & Ex & Hx & _) _. rewrite EbL in Ex. apply Some_inj in Ex. subst x.
          rewrite (st_ghost Sb) in Hg. contradiction. }
      destruct (Z.eqb_spec (a_cond b) 0) as [Hb|Hb].
      1:{ apply Skip. intros (x & Ex & _ & Hx) _. rewrite EbL in Ex. apply Some_inj in Ex. subst x.
          rewrite (st_cond Sb) in Hb. contradiction. }
      rewrite <- (st_cutoff Sa).
      destruct (nleb (nb_dist e) (a_cutoff aL)) eqn:Hd; simpl negb; cbv iota.
      2:{ apply Skip. intros _ X. discriminate. }
      destruct (Z.eqb_spec (a_belongs b) (-1)) as [Hbel|Hbel].
      2:{ apply Skip. intros _ _. unfold bel. now rewrite Eb. }
      assert (nb_idx e < length l) as Hlt by (apply nth_error_Some; congruence).
      assert (ch (nb_idx e)) as Hche.
      { exists bL. rewrite <- (st_ghost Sb), <- (st_cond Sb). auto. }
      assert (ed ti (nb_idx e)) as Hed by (exists aL, e; auto).
      set (l1 := upd (nb_idx e) (lab ci) l).
      assert (same l1 L) as Hs1 by now apply same_upd.
      assert (bel l (nb_idx e) = (-1)%Z) as Hbe by (unfold bel; now rewrite Eb).
      assert (length l = length l1) as Hl1 by (unfold l1; now rewrite length_upd).
      assert (cnt l1 < fuel) as Hc1.
      { assert (cnt l1 < cnt l); [|lia]. apply cnt_lt with (i0 := nb_idx e); auto.
        - intros i. unfold l1. rewrite bel_upd by auto. destruct (Nat.eqb_spec i (nb_idx e)); [congruence|auto].
        - unfold l1. rewrite bel_upd, Nat.eqb_refl by auto. auto. }
      specialize (IH l1 calls (nb_idx e) Hs1 Hche Hc1). unfold hpost in IH.
      destruct (harvest_cluster fuel ci (l1, calls) (nb_idx e)) as [[l2 calls2]|er] eqn:Eh; [|exact IH].
      cbn [bind]. destruct IH as (new2 & -> & D2 & T2).
      (* the labelled neighbour and what was found from it *)
      assert (done ti l (nb_idx e :: new2) l2) as D12.
      { pose proof D2 as (S2 & N2 & B2 & R2 & E2).
        assert (~ In (nb_idx e) new2) as Hnot.
        { intros X. destruct (R2 _ X) as [Y _]. unfold l1 in Y. rewrite bel_upd, Nat.eqb_refl in Y by auto. auto. }
        split; [auto|]. split; [now constructor|]. split; [|split].
        - intros i. rewrite B2. cbn [existsb]. unfold l1. rewrite bel_upd by auto.
          destruct (Nat.eqb_spec i (nb_idx e)) as [->|Hne]; simpl.
          + destruct (existsb _ new2); auto.
          + destruct (existsb _ new2); auto.
        - intros i [<-|Hi].
          + split; auto. split; [rewrite <- (same_length Hs); auto|]. split; auto. now apply reach_one.
          + destruct (R2 i Hi) as (X & Y & Z1 & Z2). split; [|split; [auto|split; [auto|eapply reach_step; eauto]]].
            unfold l1 in X. rewrite bel_upd in X by auto. destruct (Nat.eqb_spec i (nb_idx e)); [congruence|auto].
        - intros i j [<-|Hi] He'; [now apply T2|now apply (E2 i)]. }
      assert (cnt l2 < S fuel) as Hc2.
      { assert (cnt l2 <= cnt l); [|lia]. apply cnt_le; [now apply (done_length Hs D12)|].
        intros i. now apply (done_mono D12). }
      specialize (IHes Hes' l2 (calls ++ [nb_idx e] ++ new2) (proj1 D2) Hc2). unfold hpost in *.
      destruct (foldM _ es _) as [[l' calls']|er']; auto.
      destruct IHes as (new & -> & D & T). exists ((nb_idx e :: new2) ++ new).
      split; [cbn; rewrite <- !app_assoc; reflexivity|].
      split; [eapply done_app; eauto|].
      intros j (e' & [<-|Hin] & Ej & Hd' & Hj); [|apply T; eauto 6].
      intros X. subst j. apply (done_mono D) in X. destruct D12 as (_ & _ & B & _). rewrite B in X.
      cbn [existsb] in X. rewrite Nat.eqb_refl in X. cbn in X. auto. }
  specialize (Loop (a_nbrs aL) (fun e H => H) l (calls ++ [ti]) Hs Hc). rewrite <- (st_nbrs Sa).
  unfold hpost in *. destruct (foldM _ _ _) as [[l' calls']|er]; auto.
  destruct Loop as (new & -> & D & T). exists new. split; [rewrite <- app_assoc; reflexivity|].
  split; auto. intros j (x & e & Ex & He & Ej & Hd & Hj). rewrite EaL in Ex. apply Some_inj in Ex. subst x.
  apply T. eauto 6.
Qed.
End Harvest.

(** ** The loop over the atoms *)
Definition src u i : Prop := (ch u /\ reach u i) /\ forall u', ch u' -> reach u' i -> u <= u'.
Lemma src_fun u u' i : src u i -> src u' i -> u = u'.
Proof. intros [[A B] C] [[A' B'] C']. pose proof (C _ A' B'). pose proof (C' _ A B). lia. Qed.

Record inv (k : nat) (l : list (atom N)) (calls : list nat) (ci : Z) (roots : list nat) : Prop := {
  i_same : same l L;
  i_ci : ci = Z.of_nat (length roots);
  i_root : forall m r, nth_error roots m = Some r -> r < k /\ ch r /\ src r r;
  i_incr : forall m m' r r', m < m' -> nth_error roots m = Some r -> nth_error roots m' = Some r' -> r < r';
  i_lab : forall i, ch i -> (bel l i <> (-1)%Z <-> exists u, u < k /\ ch u /\ reach u i);
  i_id : forall i, ch i -> bel l i <> (-1)%Z ->
     exists m r, nth_error roots m = Some r /\ src r i /\ bel l i = (Z.of_nat m + 1)%Z;
  i_nodup : NoDup calls;
  i_calls : forall i, In i calls <-> ch i /\ bel l i <> (-1)%Z;
  i_rest : forall i a, nth_error L i = Some a -> ~ ch i -> bel l i = a_belongs a
}.

Lemma least (P : nat -> Prop) n : (forall u, P u \/ ~ P u) -> P n -> exists u, P u /\ forall v, P v -> u <= v.
Proof.
  intros dec. induction n as [n IH] using (well_founded_induction lt_wf). intros Hn.
  assert ((exists m, m < n /\ P m) \/ ~ exists m, m < n /\ P m) as [(m & Hm & HP)|Hno].
  { clear IH Hn. induction n as [|n IHn]; [right; intros (m & H & _); lia|].
    destruct IHn as [(m & H & HP)|H]; [left; exists m; split; [lia|auto]|].
    destruct (dec n) as [HP|HP]; [left; exists n; split; [lia|auto]|].
    right. intros (m & Hm & HP'). destruct (Nat.eq_dec m n) as [->|]; [auto|]. apply H. exists m. split; [lia|auto]. }
  - exact (IH m Hm HP).
  - exists n. split; auto. intros v Hv. destruct (Nat.le_gt_cases n v); auto. destruct Hno. exists v. auto.
Qed.

(** An index k joins the processed ones without changing the labels. *)
Lemma inv_skip k l calls ci roots : inv k l calls ci roots -> (~ ch k \/ bel l k <> (-1)%Z) ->
  inv (S k) l calls ci roots.
Proof.
  intros I H. destruct I. constructor; auto.
  - intros m r E. destruct (i_root0 m r E) as (A & B & C). repeat split; try apply C; auto.
  - intros i Hi. rewrite i_lab0 by auto. split; intros (u & A & B & C); [exists u; auto|].
    destruct (Nat.eq_dec u k) as [->|Hu]; [|exists u; repeat split; auto; lia].
    destruct H as [H|H]; [contradiction|]. apply i_lab0 in H; auto. destruct H as (u & D & E & F).
    exists u. repeat split; auto. now apply reach_trans with k.
Qed.

Lemma inv_new k l calls ci roots l' new : inv k l calls ci roots -> ch k -> bel l k = (-1)%Z ->
  k < length L ->
  done (ci + 1) k (upd k (lab (ci + 1)) l) new l' -> (forall j, ed k j -> bel l' j <> (-1)%Z) ->
  inv (S k) l' (calls ++ [k] ++ new) (ci + 1) (roots ++ [k]).
Proof.
  intros I Hk Hb Hlt D T. destruct I. pose proof D as (S1 & N1 & B1 & R1 & E1).
  rewrite <- (same_length i_same0) in Hlt.
  assert (ci + 1 <> -1)%Z as Hci by lia.
  assert (forall i, bel l' i = if existsb (Nat.eqb i) (k :: new) then (ci + 1)%Z else bel l i) as B.
  { intros i. rewrite B1. cbn [existsb]. rewrite bel_upd by auto.
    destruct (Nat.eqb i k); simpl; destruct (existsb _ new); auto. }
  assert (forall i, In i (k :: new) -> bel l i = (-1)%Z /\ ch i /\ reach k i) as R.
  { intros i [<-|Hi]; [repeat split; auto; constructor|]. destruct (R1 i Hi) as (X & Y & Z1 & Z2).
    rewrite bel_upd in X by auto. destruct (Nat.eqb_spec i k) as [->|]; [lia|auto]. }
  assert (forall i, In i (k :: new) -> bel l' i = (ci + 1)%Z) as Bin.
  { intros i Hi. rewrite B. now rewrite (proj2 (existsb_In i (k :: new)) Hi). }
  assert (forall i, ~ In i (k :: new) -> bel l' i = bel l i) as Bout.
  { intros i Hi. rewrite B. destruct (existsb (Nat.eqb i) (k :: new)) eqn:E; auto. now apply existsb_In in E. }
  assert (forall i j, In i (k :: new) -> ed i j -> bel l' j <> (-1)%Z) as E.
  { intros i j [<-|Hi] He; [now apply T|now apply (E1 i)]. }
  (* labelled in l is closed under edges *)
  assert (forall i j, reach i j -> ch i -> bel l i <> (-1)%Z -> bel l j <> (-1)%Z) as Clo.
  { intros i j Hr Hc. rewrite i_lab0 by auto. intros (u & U1 & U2 & U3).
    apply i_lab0; [now apply (reach_ch Hr)|]. exists u. repeat split; auto. now apply reach_trans with i. }
  (* everything reachable from k and unlabelled before is in new *)
  assert (forall i, reach k i -> bel l i = (-1)%Z -> In i (k :: new)) as Full.
  { intros i Hr. assert (forall x, In x (k :: new) -> reach x i -> bel l i = (-1)%Z -> In i (k :: new)) as G.
    { intros x Hx Hxi. induction Hxi as [|x y z Hxy Hyz IH]; auto. intros Hz. apply IH; auto.
      destruct (in_dec Nat.eq_dec y (k :: new)) as [|Hn]; auto. exfalso.
      pose proof (E x y Hx Hxy) as Hy. rewrite Bout in Hy by auto.
      assert (ch y) as Hcy by (destruct Hxy as (?&?&?&?&?&?&?); auto).
      now apply (Clo y z Hyz Hcy Hy). }
    intros Hi. now apply (G k); [left|..]. }
  assert (forall i, In i (k :: new) -> src k i) as Src.
  { intros i Hi. destruct (R i Hi) as (X & Y & Z1). split; [auto|]. intros u Hu Hr.
    destruct (Nat.le_gt_cases k u); auto. exfalso. assert (bel l i <> (-1)%Z); [|auto].
    apply i_lab0; auto. exists u. auto. }
  assert (forall i, In i (k :: new) \/ ~ In i (k :: new)) as dec.
  { intros i. destruct (in_dec Nat.eq_dec i (k :: new)); auto. }
  constructor; auto.
  - rewrite app_length. simpl. lia.
  - intros m r Em. destruct (Nat.lt_ge_cases m (length roots)) as [Hm|Hm].
    + rewrite nth_error_app1 in Em by auto. destruct (i_root0 m r Em) as (A & B' & C). auto.
    + rewrite nth_error_app2 in Em by auto. destruct (m - length roots) as [|x]; [|destruct x; discriminate].
      apply Some_inj in Em. subst r. repeat split; auto; try apply Src; simpl; auto.
  - intros m m' r r' Hm Em Em'. destruct (Nat.lt_ge_cases m' (length roots)) as [Hm'|Hm'].
    + rewrite nth_error_app1 in Em, Em' by lia. eapply i_incr0; [|exact Em|exact Em']; auto.
    + rewrite nth_error_app2 in Em' by auto. destruct (m' - length roots) as [|x] eqn:Ex; [|destruct x; discriminate].
      apply Some_inj in Em'. subst r'.
      assert (m < length roots) as Hml.
      { assert (m' = length roots) by lia. lia. }
      rewrite nth_error_app1 in Em by auto. exact (proj1 (i_root0 m r Em)).
  - intros i Hi. destruct (dec i) as [Hin|Hout].
    + rewrite (Bin i Hin). split; [|lia]. intros _. exists k. destruct (R i Hin) as (X & Y & Z1). auto.
    + rewrite (Bout i Hout). rewrite i_lab0 by auto. split; intros (u & A & B' & C); [exists u; auto|].
      destruct (Nat.eq_dec u k) as [->|Hu]; [|exists u; repeat split; auto; lia].
      destruct (Z.eq_dec (bel l i) (-1)) as [X|X]; [destruct Hout; now apply Full|]. now apply i_lab0 in X.
  - intros i Hi Hl. destruct (dec i) as [Hin|Hout].
    + exists (length roots), k. split; [rewrite nth_error_app2, Nat.sub_diag by auto; auto|].
      split; [auto|]. rewrite (Bin i Hin). lia.
    + rewrite (Bout i Hout) in *. destruct (i_id0 i Hi Hl) as (m & r & A & B' & C).
      exists m, r. split; [|auto]. rewrite nth_error_app1; auto. apply nth_error_Some. congruence.
  - apply NoDup_app_intro; auto.
    + constructor; auto. intros X. destruct (R1 k X) as [Y _]. rewrite bel_upd, Nat.eqb_refl in Y by auto. lia.
    + intros i Hi Hi2. apply i_calls0 in Hi as [_ Hi]. apply Hi. now apply R.
  - intros i. rewrite in_app_iff. change ([k] ++ new) with (k :: new). destruct (dec i) as [Hin|Hout].
    + rewrite (Bin i Hin). split; auto. intros _. split; [now apply R|lia].
    + rewrite (Bout i Hout). rewrite i_calls0. tauto.
  - intros i a Ea Hn. rewrite Bout; [now apply i_rest0|]. intros Hi. apply Hn. now apply R.
Qed.

Definition cpost (real : nat) (r : res (list (atom N) * list nat * Z)) : Prop :=
  match r with
  | Ok (l, calls, ci) => exists roots, inv real l calls ci roots
  | Err e => e = UB /\ ~ (forall i, valid_at i)
  end.

Lemma ch_dec i a : nth_error L i = Some a -> ch i <-> a_ghost a = 0%Z /\ a_cond a <> 0%Z.
Proof.
  intros E. split; [|intros H; exists a; auto]. intros (b & Eb & H). rewrite E in Eb. apply Some_inj in Eb.
  now subst.
Qed.

Lemma clusters_loop fuel n real : real + n <= length L -> length L <= fuel -> forall l calls ci roots,
  inv real l calls ci roots ->
  cpost (real + n) (foldM (cluster_step fuel) (seq real n) (l, calls, ci)).
Proof.
  revert real. induction n as [|n IH]; intros real Hlen Hf l calls ci roots I.
  - rewrite Nat.add_0_r. simpl. eauto.
  - cbn [seq foldM]. unfold cluster_step at 1.
    assert (real < length L) as Hr by lia.
    destruct (nth_error_some Hr) as [aL EaL].
    destruct (@same_nth L l real aL) as (a & Ea & Sa); [symmetry; apply I|auto|].
    rewrite (get_Ok Ea). cbn [bind].
    replace (real + S n) with (S real + n) by lia.
    assert (inv (S real) l calls ci roots ->
      cpost (S real + n) (bind (Ok (l, calls, ci)) (fun s' => foldM (cluster_step fuel) (seq (S real) n) s'))) as Skip.
    { intros I'. cbn [bind]. apply IH with roots; auto. lia. }
    destruct (Z.eqb_spec (a_cond a) 0) as [Hc|Hc].
    { apply Skip, inv_skip; auto. left. rewrite (ch_dec EaL), (st_cond Sa). tauto. }
    destruct (Z.eqb_spec (a_ghost a) 0) as [Hg|Hg]; simpl negb; cbv iota.
    2:{ apply Skip, inv_skip; auto. left. rewrite (ch_dec EaL), (st_ghost Sa). tauto. }
    assert (bel l real = a_belongs a) as Hb by (unfold bel; now rewrite Ea).
    destruct (Z.eqb_spec (a_belongs a) (-1)) as [Hbe|Hbe].
    2:{ apply Skip, inv_skip; auto. right. congruence. }
    assert (ch real) as Hch by (rewrite (ch_dec EaL), (st_ghost Sa), (st_cond Sa); auto).
    change (fun a => a <| a_belongs := (ci + 1)%Z |>) with (lab (ci + 1)).
    assert (real < length l) as Hrl by (rewrite (same_length (i_same I)); auto).
    pose proof (i_ci I) as Eci. assert (ci + 1 <> -1)%Z as Hci by lia.
    pose proof (@harvest_spec (ci + 1) Hci fuel (upd real (lab (ci + 1)) l) calls real) as H.
    specialize (H (same_upd _ _ (i_same I)) Hch).
    assert (cnt (upd real (lab (ci + 1)) l) < fuel) as Hcnt.
    { assert (cnt (upd real (lab (ci + 1)) l) < cnt l).
      { apply cnt_lt with (i0 := real); auto; [now rewrite length_upd| |congruence|].
        - intros i. rewrite bel_upd by auto. destruct (Nat.eqb_spec i real); [lia|auto].
        - rewrite bel_upd, Nat.eqb_refl by auto. auto. }
      pose proof (cnt_bound l). rewrite (same_length (i_same I)) in *. lia. }
    specialize (H Hcnt). unfold hpost in H.
    destruct (harvest_cluster fuel (ci + 1) (upd real (lab (ci + 1)) l, calls) real) as [[l' calls']|er]; [|exact H].
    cbn [bind]. destruct H as (new & -> & D & T).
    eapply (IH (S real)); [lia|auto|]. eapply inv_new; eauto. congruence.
Qed.
End Dfs.
