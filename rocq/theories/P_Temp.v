(** Proofs about candidate lists and the per-atom loops over them, for any
    arithmetic. *)
From Coq Require Import Lia Permutation.
From Verif Require Import Base Num Types M_Geometry M_Container M_Neighbors P_Container S_Neighbors
  P_Neighbors.
Set Implicit Arguments.
Unset Strict Implicit.
#[local] Opaque abs_distance_ij.
#[local] Arguments max_nbrs : simpl never.

Section P.
Variable N : num.
Implicit Types (s : sys N).

(** What candidate search never changes. *)
Definition statT (a : atom N) : atom N := a <| a_temp := [] |>.
Definition statT_eq (l l' : list (atom N)) : Prop :=
  forall i, option_map statT (nth_error l i) = option_map statT (nth_error l' i).

Definition temp_ev (cmp : N -> N -> bool) s (l : list (atom N)) (i : nat) (p : nat * nat)
  : list (datom N) :=
  let '(ti, tj) := p in
  match nth_error l ti, nth_error l tj with
  | Some a, Some b =>
      let '(d, _) := abs_distance_ij s (a_pos a) (a_pos b) in
      if cmp d (s_nd s) then
        if i =? ti then [mkDatom d tj] else if i =? tj then [mkDatom d ti] else []
      else []
  | _, _ => []
  end.
Definition tevs cmp s l P i := flat_map (temp_ev cmp s l i) P.

Lemma statT_pos a b : statT a = statT b -> a_pos a = a_pos b.
Proof. intros H. now apply (f_equal (@a_pos N)) in H. Qed.

Lemma temp_ev_static cmp s l l' i p : statT_eq l l' -> temp_ev cmp s l' i p = temp_ev cmp s l i p.
Proof.
  intros H. destruct p as [ti tj]. unfold temp_ev.
  pose proof (H ti) as Hi. pose proof (H tj) as Hj.
  destruct (nth_error l ti) as [a|], (nth_error l' ti) as [a'|]; simpl in Hi; try discriminate; auto.
  destruct (nth_error l tj) as [b|], (nth_error l' tj) as [b'|]; simpl in Hj; try discriminate; auto.
  apply Some_inj in Hi. apply Some_inj in Hj.
  rewrite (statT_pos (eq_sym Hi)), (statT_pos (eq_sym Hj)). reflexivity.
Qed.
Lemma tevs_static cmp s l l' i P : statT_eq l l' -> tevs cmp s l' P i = tevs cmp s l P i.
Proof. intros H. apply flat_map_ext_in. intros; now apply temp_ev_static. Qed.

Definition grownT (l l' : list (atom N)) (ev : nat -> list (datom N)) : Prop :=
  length l' = length l /\
  forall i a, nth_error l i = Some a -> exists a', nth_error l' i = Some a' /\
    statT a' = statT a /\ a_temp a' = a_temp a ++ ev i.

Lemma grownT_stat l l' ev : grownT l l' ev -> statT_eq l l'.
Proof.
  intros [HL H] i. destruct (nth_error l i) as [a|] eqn:Ea.
  - destruct (H _ _ Ea) as (a' & -> & Hs & _). simpl. now rewrite Hs.
  - apply nth_error_None in Ea. rewrite <- HL in Ea. apply nth_error_None in Ea. now rewrite Ea.
Qed.

Lemma add_temp_spec cmp s l ti tj : ti < length l -> tj < length l -> ti <> tj ->
  exists l', add_temp cmp s l (ti, tj) = Ok l' /\ grownT l l' (fun i => temp_ev cmp s l i (ti, tj)).
Proof.
  intros Hi Hj Hij. unfold add_temp, get.
  destruct (nth_error l ti) as [a|] eqn:Ea; [|apply nth_error_None in Ea; lia].
  destruct (nth_error l tj) as [b|] eqn:Eb; [|apply nth_error_None in Eb; lia].
  cbn [bind]. unfold temp_ev. rewrite Ea, Eb.
  destruct (abs_distance_ij s (a_pos a) (a_pos b)) as [d v].
  destruct (cmp d (s_nd s)).
  - eexists. split; [reflexivity|]. split.
    + unfold push_temp. now rewrite !length_upd.
    + intros i x Hx. unfold push_temp. rewrite nth_error_upd.
      destruct (Nat.eqb_spec i tj) as [->|Htj].
      * rewrite nth_error_upd. assert (E : tj =? ti = false) by (apply Nat.eqb_neq; auto).
        rewrite E, Hx. simpl. eexists. repeat split.
      * rewrite nth_error_upd. destruct (Nat.eqb_spec i ti) as [->|Hti]; rewrite Hx; simpl.
        -- eexists. repeat split.
        -- exists x. rewrite app_nil_r. auto.
  - eexists. split; [reflexivity|]. split; auto. intros i x Hx. exists x. rewrite app_nil_r. auto.
Qed.

Lemma fold_add_temp cmp s P l :
  (forall p, In p P -> fst p < length l /\ snd p < length l /\ fst p <> snd p) ->
  exists l', foldM (add_temp cmp s) P l = Ok l' /\ grownT l l' (tevs cmp s l P).
Proof.
  revert l; induction P as [|[ti tj] P IH]; intros l HP; cbn [foldM].
  - exists l. split; auto. split; auto. intros i a Ha. exists a.
    unfold tevs; simpl. rewrite app_nil_r. auto.
  - destruct (HP (ti, tj)) as (Hi & Hj & Hij); [now left|]. cbn [fst snd] in *.
    destruct (add_temp_spec cmp s Hi Hj Hij) as (l1 & -> & H1). cbn [bind].
    pose proof (grownT_stat H1) as Hst. destruct H1 as [HL H1].
    specialize (IH l1). rewrite HL in IH.
    destruct (IH (fun p Hp => HP p (or_intror Hp))) as (l2 & -> & HL2 & H2).
    exists l2. split; auto. split; [congruence|]. intros i a Ha.
    destruct (H1 _ _ Ha) as (a1 & Ha1 & S1 & N1).
    destruct (H2 _ _ Ha1) as (a2 & Ha2 & S2 & N2).
    exists a2. rewrite tevs_static with (l := l) in N2 by auto.
    split; [auto|]. split; [congruence|].
    rewrite N2, N1. unfold tevs. simpl. now rewrite app_assoc.
Qed.

(** The candidates of an atom, in index order. *)
Definition cands (cmp : N -> N -> bool) s (r : N) (i : nat) : list (datom N) :=
  flat_map (fun j => match link s i j with
                     | Some e => if cmp (nb_dist e) r then [mkDatom (nb_dist e) j] else []
                     | None => [] end) (seq 0 (length (s_atoms s))).

Lemma tevs_pairs cmp s i : i < length (s_atoms s) ->
  tevs cmp s (s_atoms s) (pairs (length (s_atoms s))) i = cands cmp s (s_nd s) i.
Proof.
  intros Hi. unfold tevs. rewrite flat_map_pairs with (i := i); auto.
  2:{ intros a b Ha Hb. unfold temp_ev.
      destruct (nth_error _ a); auto. destruct (nth_error _ b); auto.
      destruct (abs_distance_ij _ _ _). destruct (cmp _ _); auto.
      apply not_eq_sym, Nat.eqb_neq in Ha. apply not_eq_sym, Nat.eqb_neq in Hb. now rewrite Ha, Hb. }
  unfold cands.
  set (n := length (s_atoms s)) in *.
  replace n with (i + (1 + (n - S i))) at 2 by lia.
  rewrite seq_app, flat_map_app. simpl.
  assert (Hii : link s i i = None).
  { unfold link. destruct (nth_error _ i); auto. now rewrite Nat.ltb_irrefl. }
  rewrite Hii. simpl. f_equal.
  - apply flat_map_ext_in. intros j Hj. apply in_seq in Hj. unfold temp_ev, link.
    destruct (nth_error (s_atoms s) j) as [b|] eqn:Eb; [|now destruct (nth_error _ i)].
    destruct (nth_error (s_atoms s) i) as [a|] eqn:Ea; [|reflexivity].
    assert (E1 : i <? j = false) by (apply Nat.ltb_ge; lia).
    assert (E2 : j <? i = true) by (apply Nat.ltb_lt; lia). rewrite E1, E2.
    destruct (abs_distance_ij s (a_pos b) (a_pos a)) as [d v]. cbn [nb_dist].
    assert (E3 : i =? j = false) by (apply Nat.eqb_neq; lia). rewrite E3, Nat.eqb_refl. reflexivity.
  - apply flat_map_ext_in. intros j Hj. apply in_seq in Hj. unfold temp_ev, link.
    destruct (nth_error (s_atoms s) i) as [a|] eqn:Ea; [|reflexivity].
    destruct (nth_error (s_atoms s) j) as [b|] eqn:Eb; [|reflexivity].
    assert (E2 : i <? j = true) by (apply Nat.ltb_lt; lia). rewrite E2.
    destruct (abs_distance_ij s (a_pos a) (a_pos b)) as [d v]. cbn [nb_dist].
    rewrite Nat.eqb_refl. reflexivity.
Qed.

Lemma In_cands cmp s r i d : In d (cands cmp s r i) <-> candidate cmp s r i d.
Proof.
  unfold cands, candidate. rewrite in_flat_map. split.
  - intros (j & Hj & He). destruct (link s i j) as [e'|] eqn:E; [|destruct He].
    destruct (cmp (nb_dist e') r) eqn:E1; simpl in He; [|destruct He].
    destruct He as [<-|[]]. simpl. eauto.
  - intros (e & H1 & H2 & H3). exists (d_idx d). destruct (link_idx H1) as (_ & _ & _ & _ & H4).
    split; [apply in_seq; lia|]. rewrite H1, H2, H3. destruct d; simpl in *. now left.
Qed.

Lemma cands_NoDup cmp s r i : NoDup (map (@d_idx N) (cands cmp s r i)).
Proof.
  assert (H : map (@d_idx N) (cands cmp s r i) =
    filter (fun j => match link s i j with Some e => cmp (nb_dist e) r | None => false end)
           (seq 0 (length (s_atoms s)))).
  { unfold cands. induction (seq 0 _) as [|j l IH]; simpl; auto.
    rewrite map_app, IH. destruct (link s i j); simpl; auto. destruct (cmp _ r); auto. }
  rewrite H. apply NoDup_filter, seq_NoDup.
Qed.

(** ** Loops over single atoms *)
Lemma loop_atoms_spec (f : list (atom N) -> nat -> res (list (atom N) * bool))
    (Post : nat -> atom N -> Prop) (Fail Over : nat -> Prop) (l0 : list (atom N)) is :
  NoDup is ->
  (forall ti l, In ti is -> nth_error l ti = nth_error l0 ti -> length l = length l0 ->
     (forall k, option_map (@erase N) (nth_error l k) = option_map (@erase N) (nth_error l0 k)) ->
     match f l ti with
     | Ok (l', ok) => length l' = length l /\ (forall k, k <> ti -> nth_error l' k = nth_error l k) /\
         option_map (@erase N) (nth_error l' ti) = option_map (@erase N) (nth_error l ti) /\
         if ok then exists a', nth_error l' ti = Some a' /\ Post ti a' else Fail ti
     | Err e => e = UB /\ Over ti
     end) ->
  forall l, length l = length l0 ->
   (forall ti, In ti is -> nth_error l ti = nth_error l0 ti) ->
   (forall k, option_map (@erase N) (nth_error l k) = option_map (@erase N) (nth_error l0 k)) ->
   match loop_atoms f is l with
   | Ok (l', ok) => length l' = length l /\
       (forall k, ~ In k is -> nth_error l' k = nth_error l k) /\
       (forall k, option_map (@erase N) (nth_error l' k) = option_map (@erase N) (nth_error l0 k)) /\
       if ok then forall ti, In ti is -> exists a', nth_error l' ti = Some a' /\ Post ti a'
       else exists ti, In ti is /\ Fail ti
   | Err e => e = UB /\ exists ti, In ti is /\ Over ti
   end.
Proof.
  intros Hnd Hf. induction is as [|i is IH]; intros l HL Hat Hst; cbn [loop_atoms].
  - split; auto. split; auto. split; auto. intros ti [].
  - inversion Hnd as [|? ? Hni Hnd']; subst.
    pose proof (Hf i l (or_introl eq_refl) (Hat i (or_introl eq_refl)) HL Hst) as H1.
    destruct (f l i) as [[l1 ok]|e]; cbn [bind].
    + destruct H1 as (HL1 & Ho1 & He1 & H1).
      assert (Hst1 : forall k, option_map (@erase N) (nth_error l1 k) = option_map (@erase N) (nth_error l0 k)).
      { intros k. destruct (Nat.eq_dec k i) as [->|Hk]; [now rewrite He1|]. now rewrite Ho1. }
      destruct ok.
      * assert (Hf' : forall ti l, In ti is -> nth_error l ti = nth_error l0 ti -> length l = length l0 ->
           (forall k, option_map (@erase N) (nth_error l k) = option_map (@erase N) (nth_error l0 k)) ->
           match f l ti with
           | Ok (l', ok) => length l' = length l /\ (forall k, k <> ti -> nth_error l' k = nth_error l k) /\
               option_map (@erase N) (nth_error l' ti) = option_map (@erase N) (nth_error l ti) /\
               if ok then exists a', nth_error l' ti = Some a' /\ Post ti a' else Fail ti
           | Err e => e = UB /\ Over ti
           end) by (intros; apply Hf; auto; now right).
        specialize (IH Hnd' Hf' l1).
        assert (Hat1 : forall ti, In ti is -> nth_error l1 ti = nth_error l0 ti).
        { intros ti Hti. rewrite Ho1; [apply Hat; now right|]. intros ->; contradiction. }
        specialize (IH (eq_trans HL1 HL) Hat1 Hst1).
        destruct (loop_atoms f is l1) as [[l2 ok2]|e2].
        -- destruct IH as (HL2 & Ho2 & Hs2 & H2). split; [congruence|]. split.
           { intros k Hk. rewrite Ho2, Ho1; auto; intros HH; apply Hk; [now left|now right]. }
           split; auto. destruct ok2.
           ++ intros ti [<-|Hti]; [|auto]. rewrite Ho2; auto.
           ++ destruct H2 as (ti & ? & ?). exists ti. split; auto. now right.
        -- destruct IH as (? & ti & ? & ?). split; auto. exists ti. split; auto. now right.
      * split; auto. split.
        { intros k Hk. apply Ho1. intros ->. apply Hk. now left. }
        split; auto. exists i. split; auto. now left.
    + destruct H1. split; auto. exists i. split; auto. now left.
Qed.

(** ** Appending entries of one atom *)
(** The entry measured from atom [a] to atom [j]. *)
Definition arrow s (l : list (atom N)) (a : atom N) (j : nat) : option (nbr N) :=
  match nth_error l j with
  | Some b => let '(d, v) := abs_distance_ij s (a_pos a) (a_pos b) in Some (mkNbr j d n1 v)
  | None => None
  end.

Definition arrows s l a (js : list nat) : list (nbr N) :=
  flat_map (fun j => match arrow s l a j with Some e => [e] | None => [] end) js.

Lemma erase_pos a b : @erase N a = erase b -> a_pos a = a_pos b.
Proof. intros H. now apply (f_equal (@a_pos N)) in H. Qed.
Lemma erase_type a b : @erase N a = erase b -> a_type a = a_type b.
Proof. intros H. now apply (f_equal (@a_type N)) in H. Qed.

Definition erase_eq (l l' : list (atom N)) : Prop :=
  forall k, option_map (@erase N) (nth_error l k) = option_map (@erase N) (nth_error l' k).

Lemma arrow_erase s l l' a a' j : erase_eq l l' -> a_pos a = a_pos a' -> arrow s l a j = arrow s l' a' j.
Proof.
  intros H Hp. unfold arrow. specialize (H j). rewrite Hp.
  destruct (nth_error l j), (nth_error l' j); simpl in H; try discriminate; auto.
  apply Some_inj in H. now rewrite (erase_pos H).
Qed.
Lemma arrows_erase s l l' a a' js : erase_eq l l' -> a_pos a = a_pos a' -> arrows s l a js = arrows s l' a' js.
Proof. intros H Hp. apply flat_map_ext_in. intros j _. now rewrite (arrow_erase s j H Hp). Qed.

Lemma erase_upd (l : list (atom N)) i f : (forall a, erase (f a) = @erase N a) -> erase_eq (upd i f l) l.
Proof.
  intros H k. rewrite nth_error_upd. destruct (k =? i); auto. destruct (nth_error l k); simpl; auto.
  now rewrite H.
Qed.

Lemma length_arrows s l a js : (forall j, In j js -> j < length l) -> length (arrows s l a js) = length js.
Proof.
  induction js as [|j js IH]; intros H; auto.
  unfold arrows. simpl. fold (arrows s l a js). unfold arrow.
  destruct (nth_error l j) eqn:E; [|apply nth_error_None in E; specialize (H j (or_introl eq_refl)); lia].
  destruct (abs_distance_ij _ _ _). simpl. rewrite IH; auto. intros; apply H; now right.
Qed.

Lemma upd_id {A} (f : A -> A) (l : list A) i a : nth_error l i = Some a -> f a = a -> upd i f l = l.
Proof. revert i; induction l; intros [|i]; simpl; intros H Hf; inversion H; subst; f_equal; auto. Qed.
Lemma upd_upd {A} (f g : A -> A) (l : list A) i : upd i f (upd i g l) = upd i (fun a => f (g a)) l.
Proof. revert i; induction l; intros [|i]; simpl; f_equal; auto. Qed.
Lemma upd_ext {A} (f g : A -> A) (l : list A) i a : nth_error l i = Some a -> f a = g a -> upd i f l = upd i g l.
Proof. revert i; induction l; intros [|i]; simpl; intros H Hf; inversion H; subst; f_equal; auto. Qed.

Lemma fold_process s ti js : forall l a, nth_error l ti = Some a -> length (a_nbrs a) <= max_nbrs ->
  (forall j, In j js -> j < length l) ->
  foldM (fun l j => process_neighbor s l ti j) js l =
  if length (a_nbrs a) + length js <=? max_nbrs then
    Ok (upd ti (fun a0 => a0 <| a_nbrs := a_nbrs a ++ arrows s l a js |>) l)
  else Err UB.
Proof.
  induction js as [|j js IH]; intros l a Ha Hcap Hjs; cbn [foldM].
  - simpl. rewrite Nat.add_0_r. apply Nat.leb_le in Hcap. rewrite Hcap.
    f_equal. symmetry. eapply upd_id; [exact Ha|]. rewrite app_nil_r. now destruct a.
  - unfold process_neighbor at 1. rewrite (get_Ok Ha). cbn [bind].
    assert (Hj : j < length l) by (apply Hjs; now left).
    destruct (nth_error l j) as [b|] eqn:Eb; [|apply nth_error_None in Eb; lia].
    rewrite (get_Ok Eb). cbn [bind].
    assert (EA : arrow s l a j = let '(d, v) := abs_distance_ij s (a_pos a) (a_pos b) in Some (mkNbr j d n1 v)).
    { unfold arrow. now rewrite Eb. }
    destruct (abs_distance_ij s (a_pos a) (a_pos b)) as [d v].
    unfold push_nbr. rewrite (get_Ok Ha). cbn [bind].
    destruct (Nat.ltb_spec (length (a_nbrs a)) max_nbrs) as [Hlt|Hge].
    + cbn [bind]. set (e := mkNbr j d n1 v) in *.
      set (a1 := a <| a_nbrs := a_nbrs a ++ [e] |>).
      set (l1 := upd ti _ l).
      assert (Ha1 : nth_error l1 ti = Some a1).
      { unfold l1. rewrite nth_error_upd, Nat.eqb_refl, Ha. reflexivity. }
      rewrite (IH l1 a1); auto.
      * unfold a1 at 1. simpl. rewrite app_length. simpl.
        replace (length (a_nbrs a) + 1 + length js) with (length (a_nbrs a) + S (length js)) by lia.
        destruct (_ <=? max_nbrs); auto. f_equal.
        unfold l1 at 2. rewrite upd_upd. eapply upd_ext; [exact Ha|].
        assert (EE : erase_eq l1 l).
        { unfold l1. apply erase_upd. now intros []. }
        rewrite (@arrows_erase s l1 l a1 a js EE eq_refl).
        unfold arrows at 2. cbn [flat_map]. rewrite EA. unfold a1. destruct a; simpl.
        now rewrite <- app_assoc.
      * unfold a1. simpl. rewrite app_length. simpl. lia.
      * unfold l1. rewrite length_upd. intros; apply Hjs; now right.
    + cbn [bind]. simpl.
      destruct (Nat.leb_spec (length (a_nbrs a) + S (length js)) max_nbrs); auto. lia.
Qed.

End P.
