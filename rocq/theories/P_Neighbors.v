(** Proofs about the pair loops of neighbour finding, for any arithmetic. *)
From Coq Require Import Lia Permutation.
From Verif Require Import Base Num Types M_Geometry M_Container M_Neighbors P_Container S_Neighbors.
Set Implicit Arguments.
Unset Strict Implicit.
#[local] Opaque abs_distance_ij.
#[local] Arguments max_nbrs : simpl never.

(** ** Lists *)
Lemma nth_error_upd {A} (f : A -> A) (l : list A) i k :
  nth_error (upd i f l) k = if k =? i then option_map f (nth_error l k) else nth_error l k.
Proof.
  revert i k; induction l as [|a l IH]; intros [|i] [|k]; simpl; auto.
  destruct (k =? i); auto.
Qed.

Lemma length_upd {A} (f : A -> A) (l : list A) i : length (upd i f l) = length l.
Proof. revert i; induction l; intros [|i]; simpl; auto. Qed.

Lemma Some_inj {A} (a b : A) : Some a = Some b -> a = b.
Proof. congruence. Qed.

Lemma get_Ok {A} (l : list A) i a : nth_error l i = Some a -> get l i = Ok a.
Proof. intros H. unfold get. now rewrite H. Qed.
Lemma get_inv {A} (l : list A) i a : get l i = Ok a -> nth_error l i = Some a.
Proof. unfold get. destruct (nth_error l i); congruence. Qed.

Lemma flat_map_nil {A B} (f : A -> list B) l : (forall a, In a l -> f a = []) -> flat_map f l = [].
Proof. induction l; simpl; intros H; auto. rewrite H, IHl; auto. Qed.

Lemma flat_map_ext_in {A B} (f g : A -> list B) l :
  (forall a, In a l -> f a = g a) -> flat_map f l = flat_map g l.
Proof. induction l; simpl; intros H; auto. rewrite H, IHl; auto. Qed.

Lemma flat_map_map {A B C} (f : B -> list C) (g : A -> B) l :
  flat_map f (map g l) = flat_map (fun a => f (g a)) l.
Proof. induction l; simpl; auto. now rewrite IHl. Qed.

Lemma flat_map_flat_map {A B C} (f : B -> list C) (g : A -> list B) l :
  flat_map f (flat_map g l) = flat_map (fun a => flat_map f (g a)) l.
Proof. induction l; simpl; auto. now rewrite flat_map_app, IHl. Qed.

Lemma flat_map_seq_one {B} (f : nat -> list B) k n i :
  k <= i < k + n -> (forall j, k <= j < k + n -> j <> i -> f j = []) -> flat_map f (seq k n) = f i.
Proof.
  revert k; induction n as [|n IH]; intros k Hi H; [lia|]. simpl.
  destruct (Nat.eq_dec k i) as [->|Hk].
  - rewrite flat_map_nil; [apply app_nil_r|]. intros j Hj. apply in_seq in Hj. apply H; lia.
  - rewrite (H k) by lia. simpl. apply IH; [lia|]. intros; apply H; lia.
Qed.

(** The pairs that involve index [i], in loop order. *)
Lemma flat_map_pairs {B} (F : nat * nat -> list B) n i : i < n ->
  (forall a b, a <> i -> b <> i -> F (a, b) = []) ->
  flat_map F (pairs n) =
  flat_map (fun j => F (j, i)) (seq 0 i) ++ flat_map (fun j => F (i, j)) (seq (S i) (n - S i)).
Proof.
  intros Hi H. unfold pairs. rewrite flat_map_flat_map.
  replace n with (i + (1 + (n - S i))) at 1 by lia.
  rewrite seq_app, flat_map_app. f_equal.
  - apply flat_map_ext_in. intros a Ha. apply in_seq in Ha.
    unfold pairs_from. rewrite flat_map_map.
    apply (@flat_map_seq_one B (fun j => F (a, j))); [lia|]. intros; apply H; lia.
  - simpl. unfold pairs_from. rewrite flat_map_map. rewrite (@flat_map_nil _ _ (fun a => flat_map F (map (fun j : nat => (a, j)) (seq (S a) (n - S a))))).
    + rewrite app_nil_r. reflexivity.
    + intros a Ha. apply in_seq in Ha. rewrite flat_map_map.
      apply flat_map_nil. intros b Hb. apply in_seq in Hb. apply H; lia.
Qed.

Section P.
Variable N : num.
Implicit Types (s : sys N).

(** What the loops never change. *)
Definition stat (a : atom N) : atom N := a <| a_nbrs := [] |> <| a_cutoff := n0 |>.

Lemma stat_pos a b : stat a = stat b -> a_pos a = a_pos b.
Proof. intros H. now apply (f_equal (@a_pos N)) in H. Qed.
Lemma stat_type a b : stat a = stat b -> a_type a = a_type b.
Proof. intros H. now apply (f_equal (@a_type N)) in H. Qed.

(** ** Events of the pair loop *)
Definition pair_ev s (l : list (atom N)) (i : nat) (p : nat * nat) : list (nbr N) :=
  let '(ti, tj) := p in
  match nth_error l ti, nth_error l tj with
  | Some a, Some b =>
      let '(d, v) := abs_distance_ij s (a_pos a) (a_pos b) in
      if nltb d (s_nd s) && negb (filtered (s_filter s) (a_type a) (a_type b)) then
        if i =? ti then [mkNbr tj d n1 v]
        else if i =? tj then [mkNbr ti d n1 (vopp v)] else []
      else []
  | _, _ => []
  end.
Definition evs s l P i := flat_map (pair_ev s l i) P.

Definition stat_eq (l l' : list (atom N)) : Prop :=
  forall i, option_map stat (nth_error l i) = option_map stat (nth_error l' i).

Lemma stat_eq_some l l' i a : stat_eq l l' -> nth_error l i = Some a ->
  exists a', nth_error l' i = Some a' /\ stat a' = stat a.
Proof.
  intros H Ha. specialize (H i). rewrite Ha in H. destruct (nth_error l' i) as [a'|]; simpl in H;
  [|discriminate]. apply Some_inj in H. eauto.
Qed.

Lemma pair_ev_static s l l' i p : stat_eq l l' -> pair_ev s l' i p = pair_ev s l i p.
Proof.
  intros H. destruct p as [ti tj]. unfold pair_ev.
  pose proof (H ti) as Hi. pose proof (H tj) as Hj.
  destruct (nth_error l ti) as [a|], (nth_error l' ti) as [a'|]; simpl in Hi; try discriminate; auto.
  destruct (nth_error l tj) as [b|], (nth_error l' tj) as [b'|]; simpl in Hj; try discriminate; auto.
  apply Some_inj in Hi. apply Some_inj in Hj.
  rewrite (stat_pos (eq_sym Hi)), (stat_pos (eq_sym Hj)), (stat_type (eq_sym Hi)), (stat_type (eq_sym Hj)).
  reflexivity.
Qed.

Lemma evs_static s l l' i P : stat_eq l l' -> evs s l' P i = evs s l P i.
Proof.
  intros H. unfold evs. apply flat_map_ext_in. intros; now apply pair_ev_static.
Qed.

(** ** Pushing one entry *)
Lemma push_nbr_Ok (l : list (atom N)) i e l' : push_nbr l i e = Ok l' ->
  exists a, nth_error l i = Some a /\ length (a_nbrs a) < max_nbrs /\
    l' = upd i (fun a => a <| a_nbrs := a_nbrs a ++ [e] |>) l.
Proof.
  unfold push_nbr, get. destruct (nth_error l i) as [a|]; simpl; [|discriminate].
  destruct (_ <? max_nbrs) eqn:E; [|discriminate]. intros H; inversion H; subst.
  exists a. apply Nat.ltb_lt in E. auto.
Qed.

Lemma push_nbr_Err (l : list (atom N)) i a e er : nth_error l i = Some a ->
  push_nbr l i e = Err er -> er = UB /\ max_nbrs <= length (a_nbrs a).
Proof.
  unfold push_nbr, get. intros ->. simpl.
  destruct (_ <? max_nbrs) eqn:E; [discriminate|]. intros H; inversion H; subst.
  apply Nat.ltb_ge in E. auto.
Qed.

Lemma upd_app_stat (l : list (atom N)) i e :
  stat_eq l (upd i (fun a => a <| a_nbrs := a_nbrs a ++ [e] |>) l).
Proof.
  intros k. rewrite nth_error_upd. destruct (k =? i); auto. now destruct (nth_error l k).
Qed.
Lemma set_cutoff_stat (l : list (atom N)) i c : stat_eq l (set_cutoff l i c).
Proof.
  intros k. unfold set_cutoff. rewrite nth_error_upd. destruct (k =? i); auto. now destruct (nth_error l k).
Qed.
Lemma stat_eq_trans l1 l2 l3 : stat_eq l1 l2 -> stat_eq l2 l3 -> stat_eq l1 l3.
Proof. intros H1 H2 i. now rewrite H1, H2. Qed.
Lemma stat_eq_refl l : stat_eq l l.
Proof. now intros i. Qed.

(** What a batch of pushes does to atom [i]: the events are appended. *)
Definition grown (c : N) (l l' : list (atom N)) (ev : nat -> list (nbr N)) : Prop :=
  length l' = length l /\
  forall i a, nth_error l i = Some a -> exists a', nth_error l' i = Some a' /\
    stat a' = stat a /\ a_nbrs a' = a_nbrs a ++ ev i /\
    (length (a_nbrs a) <= max_nbrs -> length (a_nbrs a') <= max_nbrs) /\
    a_cutoff a' = match ev i with [] => a_cutoff a | _ => c end.

Lemma grown_stat c l l' ev : grown c l l' ev -> stat_eq l l'.
Proof.
  intros [HL H] i. destruct (nth_error l i) as [a|] eqn:Ea.
  - destruct (H _ _ Ea) as (a' & -> & Hs & _). simpl. now rewrite Hs.
  - apply nth_error_None in Ea. rewrite <- HL in Ea. apply nth_error_None in Ea. now rewrite Ea.
Qed.

Lemma add_pair_spec s l ti tj : ti < length l -> tj < length l -> ti <> tj ->
  match add_pair s l (ti, tj) with
  | Ok l' => grown (s_nd s) l l' (fun i => pair_ev s l i (ti, tj))
  | Err e => e = UB /\ exists i a, nth_error l i = Some a /\
      max_nbrs < length (a_nbrs a ++ pair_ev s l i (ti, tj))
  end.
Proof.
  intros Hi Hj Hij. unfold add_pair, get.
  destruct (nth_error l ti) as [a|] eqn:Ea; [|apply nth_error_None in Ea; lia].
  destruct (nth_error l tj) as [b|] eqn:Eb; [|apply nth_error_None in Eb; lia].
  cbn [bind]. unfold pair_ev. rewrite Ea, Eb.
  destruct (abs_distance_ij s (a_pos a) (a_pos b)) as [d v].
  destruct (nltb d (s_nd s)); cbn [andb].
  2:{ split; [reflexivity|]. intros i x Hx. exists x. rewrite app_nil_r. auto. }
  destruct (filtered (s_filter s) (a_type a) (a_type b)); cbn [negb].
  { split; [reflexivity|]. intros i x Hx. exists x. rewrite app_nil_r. auto. }
  destruct (push_nbr l ti _) as [l1|e1] eqn:E1; cbn [bind].
  2:{ destruct (push_nbr_Err Ea E1) as [-> HH]. split; auto. exists ti, a.
      rewrite Nat.eqb_refl, app_length. simpl. split; auto. lia. }
  apply push_nbr_Ok in E1. destruct E1 as (a0 & Ea0 & Hc & ->).
  rewrite Ea in Ea0. injection Ea0 as <-.
  set (l1 := upd ti _ l).
  destruct (push_nbr (set_cutoff l1 ti (s_nd s)) tj _) as [l3|e3] eqn:E3; cbn [bind].
  2:{ assert (Eb' : nth_error (set_cutoff l1 ti (s_nd s)) tj = Some b).
      { unfold set_cutoff, l1. rewrite !nth_error_upd.
        apply not_eq_sym in Hij. apply Nat.eqb_neq in Hij. now rewrite Hij. }
      destruct (push_nbr_Err Eb' E3) as [-> HH]. split; auto. exists tj, b.
      apply not_eq_sym in Hij. apply Nat.eqb_neq in Hij. rewrite Hij, Nat.eqb_refl, app_length. simpl.
      split; auto. lia. }
  apply push_nbr_Ok in E3. destruct E3 as (b0 & Eb0 & Hcb & ->).
  split.
  - unfold set_cutoff, l1. now rewrite !length_upd.
  - intros i x Hx. unfold set_cutoff, l1 in Eb0 |- *. rewrite !nth_error_upd in Eb0 |- *.
    rewrite Eb in Eb0.
    destruct (Nat.eqb_spec i tj) as [->|Htj].
    + assert (E : tj =? ti = false) by (apply Nat.eqb_neq; auto). rewrite E in *.
      simpl in Eb0. injection Eb0 as <-. rewrite ?nth_error_upd, ?E, Hx. simpl.
      eexists. split; [reflexivity|]. simpl. rewrite Eb in Hx. injection Hx as <-.
      rewrite app_length. simpl. repeat split; auto. lia.
    + rewrite ?nth_error_upd; destruct (Nat.eqb_spec i ti) as [->|Hti]; rewrite Hx; simpl.
      * eexists. split; [reflexivity|]. rewrite Ea in Hx. injection Hx as <-. simpl.
        rewrite app_length. simpl. repeat split; auto. lia.
      * exists x. rewrite app_nil_r. auto.
Qed.

Lemma fold_add_pair s P l :
  (forall p, In p P -> fst p < length l /\ snd p < length l /\ fst p <> snd p) ->
  match foldM (add_pair s) P l with
  | Ok l' => grown (s_nd s) l l' (evs s l P)
  | Err e => e = UB /\ exists i a, nth_error l i = Some a /\
      max_nbrs < length (a_nbrs a ++ evs s l P i)
  end.
Proof.
  revert l; induction P as [|[ti tj] P IH]; intros l HP; cbn [foldM].
  - split; auto. intros i a Ha. exists a. unfold evs; simpl. rewrite app_nil_r. auto.
  - destruct (HP (ti, tj)) as (Hi & Hj & Hij); [now left|]. cbn [fst snd] in *.
    pose proof (add_pair_spec s Hi Hj Hij) as H1.
    destruct (add_pair s l (ti, tj)) as [l1|e]; cbn [bind].
    + pose proof (grown_stat H1) as Hst. destruct H1 as [HL H1].
      specialize (IH l1). rewrite HL in IH. specialize (IH (fun p Hp => HP p (or_intror Hp))).
      destruct (foldM (add_pair s) P l1) as [l2|e2].
      * destruct IH as [HL2 H2]. split; [congruence|]. intros i a Ha.
        destruct (H1 _ _ Ha) as (a1 & Ha1 & S1 & N1 & B1 & C1).
        destruct (H2 _ _ Ha1) as (a2 & Ha2 & S2 & N2 & B2 & C2).
        exists a2. rewrite evs_static with (l := l) in N2, C2 by auto.
        split; [auto|]. split; [congruence|]. split.
        { rewrite N2, N1. unfold evs. simpl. now rewrite app_assoc. }
        split; [auto|]. rewrite C2, C1.
        change (evs s l ((ti, tj) :: P) i) with (pair_ev s l i (ti, tj) ++ evs s l P i).
        destruct (pair_ev s l i (ti, tj)); simpl; [now destruct (evs s l P i)|].
        now destruct (evs s l P i).
      * destruct IH as (-> & i & a1 & Ha1 & HH). split; auto.
        destruct (nth_error l i) as [a|] eqn:Ha.
        2:{ apply nth_error_None in Ha. rewrite <- HL in Ha. apply nth_error_None in Ha. congruence. }
        exists i, a. split; auto.
        destruct (H1 _ _ Ha) as (a1' & Ha1' & S1 & N1 & _). rewrite Ha1 in Ha1'. injection Ha1' as <-.
        rewrite N1, evs_static with (l := l) in HH by auto.
        unfold evs. simpl. now rewrite app_assoc.
    + destruct H1 as (-> & i & a & Ha & HH). split; auto. exists i, a. split; auto.
      change (evs s l ((ti, tj) :: P) i) with (pair_ev s l i (ti, tj) ++ evs s l P i).
      rewrite app_assoc, app_length. lia.
Qed.

(** ** Resets *)
Lemma map_first_all {A} (f : A -> A) l : map_first (length l) f l = map f l.
Proof. unfold map_first. now rewrite firstn_all, skipn_all, app_nil_r. Qed.

Lemma each_atom_stored f s : stored s -> each_atom f s = Ok (s <| s_atoms := map f (s_atoms s) |>).
Proof.
  intros H. unfold each_atom. cbv zeta.
  assert (E : Z.to_nat (s_nop s) = length (s_atoms s)) by (rewrite H; apply Nat2Z.id).
  rewrite E, Nat.leb_refl, map_first_all. reflexivity.
Qed.

(** ** The events of all pairs are the specified neighbours *)
Lemma filtered_allowed f ti tj : negb (filtered (filter_code f) ti tj) = allowed f ti tj.
Proof.
  unfold filtered, allowed, filter_code. destruct f; simpl; destruct (Z.eqb ti tj); auto.
Qed.
Lemma allowed_sym f ti tj : allowed f ti tj = allowed f tj ti.
Proof. destruct f; simpl; auto; now rewrite Z.eqb_sym. Qed.

Lemma evs_pairs s f i : s_filter s = filter_code f -> i < length (s_atoms s) ->
  evs s (s_atoms s) (pairs (length (s_atoms s))) i = neighbors_within s (s_nd s) f i.
Proof.
  intros Hf Hi. unfold evs. rewrite flat_map_pairs with (i := i); auto.
  2:{ intros a b Ha Hb. unfold pair_ev.
      destruct (nth_error _ a); auto. destruct (nth_error _ b); auto.
      destruct (abs_distance_ij _ _ _). destruct (_ && _); auto.
      apply not_eq_sym, Nat.eqb_neq in Ha. apply not_eq_sym, Nat.eqb_neq in Hb. now rewrite Ha, Hb. }
  unfold neighbors_within.
  set (n := length (s_atoms s)) in *.
  replace n with (i + (1 + (n - S i))) at 2 by lia.
  rewrite seq_app, flat_map_app. simpl.
  assert (Hii : link s i i = None).
  { unfold link. destruct (nth_error _ i); auto. now rewrite Nat.ltb_irrefl. }
  rewrite Hii. simpl. f_equal.
  - apply flat_map_ext_in. intros j Hj. apply in_seq in Hj.
    unfold pair_ev, link, type_at.
    destruct (nth_error (s_atoms s) j) as [b|] eqn:Eb; [|now destruct (nth_error _ i)].
    destruct (nth_error (s_atoms s) i) as [a|] eqn:Ea; [|reflexivity].
    assert (E1 : i <? j = false) by (apply Nat.ltb_ge; lia).
    assert (E2 : j <? i = true) by (apply Nat.ltb_lt; lia). rewrite E1, E2.
    destruct (abs_distance_ij s (a_pos b) (a_pos a)) as [d v]. cbn [nb_dist].
    rewrite Hf, filtered_allowed, (allowed_sym f (a_type b)).
    assert (E3 : i =? j = false) by (apply Nat.eqb_neq; lia). rewrite E3, Nat.eqb_refl. reflexivity.
  - apply flat_map_ext_in. intros j Hj. apply in_seq in Hj.
    unfold pair_ev, link, type_at.
    destruct (nth_error (s_atoms s) i) as [a|] eqn:Ea; [|reflexivity].
    destruct (nth_error (s_atoms s) j) as [b|] eqn:Eb; [|reflexivity].
    assert (E2 : i <? j = true) by (apply Nat.ltb_lt; lia). rewrite E2.
    destruct (abs_distance_ij s (a_pos a) (a_pos b)) as [d v]. cbn [nb_dist].
    rewrite Hf, filtered_allowed, Nat.eqb_refl. reflexivity.
Qed.

Lemma link_idx s i j e : link s i j = Some e ->
  nb_idx e = j /\ nb_weight e = n1 /\ i <> j /\ i < length (s_atoms s) /\ j < length (s_atoms s).
Proof.
  unfold link. destruct (nth_error (s_atoms s) i) eqn:Ei; [|discriminate].
  destruct (nth_error (s_atoms s) j) eqn:Ej; [|discriminate].
  assert (Li : i < length (s_atoms s)) by (apply nth_error_Some; congruence).
  assert (Lj : j < length (s_atoms s)) by (apply nth_error_Some; congruence).
  destruct (Nat.ltb_spec i j).
  - destruct (abs_distance_ij _ _ _). intros HH; inversion HH; subst. simpl. repeat split; auto; lia.
  - destruct (Nat.ltb_spec j i); [|discriminate].
    destruct (abs_distance_ij _ _ _). intros HH; inversion HH; subst. simpl. repeat split; auto; lia.
Qed.

Lemma In_neighbors_within s r f i e : In e (neighbors_within s r f i) <->
  link s i (nb_idx e) = Some e /\ nltb (nb_dist e) r = true /\
  allowed f (type_at s i) (type_at s (nb_idx e)) = true.
Proof.
  unfold neighbors_within. rewrite in_flat_map. split.
  - intros (j & Hj & He). destruct (link s i j) as [e'|] eqn:E; [|destruct He].
    destruct (nltb (nb_dist e') r) eqn:E1; simpl in He; [|destruct He].
    destruct (allowed f _ _) eqn:E2; simpl in He; [|destruct He].
    destruct He as [->|[]]. destruct (link_idx E) as (-> & _). auto.
  - intros (H1 & H2 & H3). exists (nb_idx e). destruct (link_idx H1) as (_ & _ & _ & _ & H4).
    split; [apply in_seq; lia|]. rewrite H1, H2, H3. now left.
Qed.

Lemma map_nb_idx_within s r f i :
  map (@nb_idx N) (neighbors_within s r f i) =
  filter (fun j => match link s i j with
                   | Some e => nltb (nb_dist e) r && allowed f (type_at s i) (type_at s j)
                   | None => false end) (seq 0 (length (s_atoms s))).
Proof.
  unfold neighbors_within. induction (seq 0 _) as [|j l IH]; simpl; auto.
  rewrite map_app, IH. destruct (link s i j) as [e|] eqn:E; simpl; auto.
  destruct (_ && _); simpl; auto. destruct (link_idx E) as (-> & _). auto.
Qed.

Lemma NoDup_within s r f i : NoDup (map (@nb_idx N) (neighbors_within s r f i)).
Proof. rewrite map_nb_idx_within. apply NoDup_filter, seq_NoDup. Qed.

(** ** The numeric cutoff, all pairs *)
(** The system after the first lines of find_neighbors. *)
Definition prep (s : sys N) (f : filt) (r : N) : sys N :=
  s <| s_atoms := map (@reset_atom_all N) (s_atoms s) |> <| s_filter := filter_code f |>
    <| s_nd := r |> <| s_vorused := false |>.

Lemma link_prep s f r i j : link (prep s f r) i j = link s i j.
Proof.
  unfold link, prep. simpl. rewrite !nth_error_map.
  destruct (nth_error (s_atoms s) i), (nth_error (s_atoms s) j); simpl; auto.
Qed.
Lemma type_at_prep s f r i : type_at (prep s f r) i = type_at s i.
Proof. unfold type_at, prep. simpl. rewrite nth_error_map. now destruct (nth_error _ i). Qed.

Lemma within_prep s f r f' r' i : neighbors_within (prep s f r) r' f' i = neighbors_within s r' f' i.
Proof.
  unfold neighbors_within. unfold prep at 4. simpl. rewrite map_length.
  apply flat_map_ext_in. intros j _. now rewrite link_prep, !type_at_prep.
Qed.

Definition erase (a : atom N) : atom N :=
  a <| a_nbrs := [] |> <| a_temp := [] |> <| a_cond := 0%Z |> <| a_cutoff := n0 |>.

(** What a successful numeric search leaves in a system. *)
Definition result_of s (s' : sys N) (r : N) (lst : nat -> list (nbr N)) : Prop :=
  length (s_atoms s') = length (s_atoms s) /\
  forall i a, nth_error (s_atoms s) i = Some a -> exists a', nth_error (s_atoms s') i = Some a' /\
    same_atom a' a /\ a_nbrs a' = lst i /\ a_temp a' = [] /\ length (a_nbrs a') <= max_nbrs /\
    (a_nbrs a' <> [] -> a_cutoff a' = r).

Lemma grown_result s l' f r ev :
  grown r (s_atoms (prep s f r)) l' ev ->
  forall s', s_atoms s' = l' -> result_of s s' r ev.
Proof.
  intros [HL H] s' Hs'. unfold result_of. rewrite Hs'. split.
  - rewrite HL. simpl. now rewrite map_length.
  - intros i a Ha. destruct (H i (reset_atom_all a)) as (a' & Ha' & S' & N' & B' & C').
    { simpl. now rewrite nth_error_map, Ha. }
    exists a'. split; auto. split.
    { exact (f_equal erase S'). }
    simpl in N'. split; [exact N'|]. split.
    { apply (f_equal (@a_temp N)) in S'. exact S'. }
    split. { apply B'. simpl. unfold max_nbrs; lia. }
    intros Hne. rewrite C'. rewrite <- N'. destruct (a_nbrs a'); congruence.
Qed.

Lemma pairs_ok n : forall p, In p (pairs n) -> fst p < n /\ snd p < n /\ fst p <> snd p.
Proof. intros [i j] H. apply In_pairs in H. simpl. lia. Qed.

Lemma normal_spec s f r : stored s ->
  match get_all_neighbors_normal (s <| s_atoms := map (@reset_atom_all N) (s_atoms s) |>
          <| s_filter := filter_code f |> <| s_nd := r |>) with
  | Ok s' => result_of s s' r (neighbors_within s r f) /\
             s' = prep s f r <| s_atoms := s_atoms s' |>
  | Err e => e = UB /\ exists i, i < length (s_atoms s) /\
               max_nbrs < length (neighbors_within s r f i)
  end.
Proof.
  intros Hst. unfold get_all_neighbors_normal.
  change (_ <| s_vorused := false |>) with (prep s f r).
  assert (Hn : Z.to_nat (s_nop (prep s f r)) = length (s_atoms (prep s f r))).
  { simpl. rewrite map_length, Hst. apply Nat2Z.id. }
  rewrite Hn.
  pose proof (@fold_add_pair (prep s f r) _ (s_atoms (prep s f r)) (@pairs_ok _)) as H.
  assert (EV : forall i, i < length (s_atoms s) ->
    evs (prep s f r) (s_atoms (prep s f r)) (pairs (length (s_atoms (prep s f r)))) i
    = neighbors_within s r f i).
  { intros i Hi. rewrite evs_pairs with (f := f); [|reflexivity|simpl; now rewrite map_length].
    apply within_prep. }
  destruct (foldM _ _ _) as [l'|e] eqn:E; cbn [bind].
  - split; [|reflexivity].
    assert (HR : result_of s (prep s f r <| s_atoms := l' |>) r
              (evs (prep s f r) (s_atoms (prep s f r)) (pairs (length (s_atoms (prep s f r)))))).
    { eapply grown_result; [exact H|reflexivity]. }
    destruct HR as [HL HR].
    split; [exact HL|]. intros i a Ha. destruct (HR i a Ha) as (a' & ? & ? & HN & ?).
    exists a'. rewrite EV in HN by (apply nth_error_Some; congruence). auto.
  - destruct H as (-> & i & a & Ha & HH). split; auto. exists i.
    assert (Hi : i < length (s_atoms s)).
    { apply nth_error_Some. simpl in Ha. rewrite nth_error_map in Ha. now destruct (nth_error (s_atoms s) i). }
    split; auto. rewrite EV in HH by auto.
    simpl in Ha. rewrite nth_error_map in Ha. destruct (nth_error (s_atoms s) i); inversion Ha; subst.
    exact HH.
Qed.

End P.
