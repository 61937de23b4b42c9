(** The neighbour searches over the reals, and find_neighbors. *)
From Coq Require Import Reals Lra Lia Permutation Sorted.
From Verif Require Import Base Num NumR Types M_Geometry S_Geometry P_Geometry M_Container
  M_Neighbors P_Container S_Neighbors P_Neighbors P_Temp P_Cells P_Search.
Close Scope R_scope.
Set Implicit Arguments.
Unset Strict Implicit.
#[local] Opaque abs_distance_ij.
#[local] Arguments max_nbrs : simpl never.

Lemma Forall2_length' {A B} (R : A -> B -> Prop) l l' : Forall2 R l l' -> length l = length l'.
Proof. intros H; induction H; simpl; auto. Qed.
Lemma Forall2_in_l {A B} (R : A -> B -> Prop) l l' a : Forall2 R l l' -> In a l -> exists b, In b l' /\ R a b.
Proof.
  intros H. induction H; intros Hb; [destruct Hb|]. destruct Hb as [<-|Hb].
  - eexists. split; [now left|]. auto.
  - destruct (IHForall2 Hb) as (b & ? & ?). exists b. split; auto. now right.
Qed.
Lemma Forall2_in_r {A B} (R : A -> B -> Prop) l l' b : Forall2 R l l' -> In b l' -> exists a, In a l /\ R a b.
Proof.
  intros H. induction H; intros Hb; [destruct Hb|]. destruct Hb as [<-|Hb].
  - eexists. split; [now left|]. auto.
  - destruct (IHForall2 Hb) as (a & ? & ?). exists a. split; auto. now right.
Qed.

(** ** Cells against all pairs *)
Definition pair_near (s : sys Rnum) (p : nat * nat) : bool :=
  match nth_error (s_atoms s) (fst p), nth_error (s_atoms s) (snd p) with
  | Some a, Some b => Rltb (fst (abs_distance_ij s (a_pos a) (a_pos b))) (s_nd s)
  | _, _ => false
  end.

Transparent abs_distance_ij.
Lemma fst_ij (s : sys Rnum) p q : fst (abs_distance_ij s p q) = abs_distance s q p.
Proof. reflexivity. Qed.
Opaque abs_distance_ij.

Lemma cells_same (s : sys Rnum) ps {B} (F : nat * nat -> list B) :
  stored s -> cells_ok s (s_nd s) -> cell_pairs s = Ok ps ->
  (forall p, pair_near s p = false -> F p = []) ->
  Permutation (flat_map F ps) (flat_map F (pairs (length (s_atoms s)))).
Proof.
  intros Hst Hc Hps HF. destruct (cell_pairs_ok s Hst Hc) as (ps' & E & ND & R1 & R2).
  rewrite Hps in E. injection E as <-.
  apply (@flat_map_same _ _ F (pair_near s)); auto.
  - apply NoDup_pairs.
  - intros [i j] Hn. unfold pair_near in Hn. simpl in Hn.
    destruct (nth_error (s_atoms s) i) as [a|] eqn:Ea; [|discriminate].
    destruct (nth_error (s_atoms s) j) as [b|] eqn:Eb; [|discriminate].
    apply Rltb_true in Hn. rewrite fst_ij in Hn. rewrite In_pairs. split.
    + intros H. apply R1 in H. exact H.
    + intros [H _]. eapply R2; eauto.
Qed.

Lemma evs_far (s : sys Rnum) i p : pair_near s p = false -> pair_ev s (s_atoms s) i p = [].
Proof.
  destruct p as [ti tj]. unfold pair_near, pair_ev. simpl.
  destruct (nth_error (s_atoms s) ti); auto. destruct (nth_error (s_atoms s) tj); auto.
  destruct (abs_distance_ij _ _ _) as [d v]. simpl. rnum. intros ->. reflexivity.
Qed.
Lemma tevs_far (s : sys Rnum) i p : pair_near s p = false -> temp_ev nltb s (s_atoms s) i p = [].
Proof.
  destruct p as [ti tj]. unfold pair_near, temp_ev. simpl.
  destruct (nth_error (s_atoms s) ti); auto. destruct (nth_error (s_atoms s) tj); auto.
  destruct (abs_distance_ij _ _ _) as [d v]. simpl. rnum. intros ->. reflexivity.
Qed.

Lemma cells_spec (s : sys Rnum) f r : stored s -> cells_ok s r ->
  match get_all_neighbors_cells (s <| s_atoms := map (@reset_atom_all Rnum) (s_atoms s) |>
          <| s_filter := filter_code f |> <| s_nd := r |>) with
  | Ok s' => (exists lst, result_of s s' r lst /\
               forall i, i < length (s_atoms s) -> Permutation (lst i) (neighbors_within s r f i)) /\
             s' = prep s f r <| s_atoms := s_atoms s' |>
  | Err e => e = UB /\ exists i, i < length (s_atoms s) /\ max_nbrs < length (neighbors_within s r f i)
  end.
Proof.
  intros Hst Hc. unfold get_all_neighbors_cells.
  change (_ <| s_vorused := false |>) with (prep s f r).
  assert (Hst' : stored (prep s f r)) by (unfold stored; simpl; now rewrite map_length).
  assert (Hc' : cells_ok (prep s f r) r).
  { destruct Hc as [H3 Hat]. split; [exact H3|]. intros a Ha. simpl in Ha.
    apply in_map_iff in Ha. destruct Ha as (a0 & <- & Ha0). exact (Hat a0 Ha0). }
  destruct (cell_pairs_ok (prep s f r) Hst' Hc') as (ps & E & ND & R1 & R2).
  rewrite E. cbn [bind].
  assert (EV : forall i, i < length (s_atoms s) ->
    Permutation (evs (prep s f r) (s_atoms (prep s f r)) ps i) (neighbors_within s r f i)).
  { intros i Hi. rewrite <- (within_prep s f r f r i).
    assert (E1 : evs (prep s f r) (s_atoms (prep s f r)) (pairs (length (s_atoms (prep s f r)))) i
                 = neighbors_within (prep s f r) r f i).
    { apply evs_pairs; [reflexivity|simpl; now rewrite map_length]. }
    rewrite <- E1. apply cells_same; auto. intros; now apply evs_far. }
  pose proof (@fold_add_pair _ (prep s f r) ps (s_atoms (prep s f r))) as H.
  match type of H with ?P -> _ => assert (HP : P) end.
  { intros p Hp. apply R1 in Hp. lia. }
  specialize (H HP). destruct (foldM _ _ _) as [l'|e]; cbn [bind].
  - split; [|reflexivity]. eexists. split.
    + eapply grown_result; [exact H|reflexivity].
    + exact EV.
  - destruct H as (-> & i & a & Ha & HH). split; auto. exists i.
    assert (Hi : i < length (s_atoms s)).
    { apply nth_error_Some. simpl in Ha. rewrite nth_error_map in Ha. now destruct (nth_error (s_atoms s) i). }
    split; auto. simpl in Ha. rewrite nth_error_map in Ha.
    destruct (nth_error (s_atoms s) i); inversion Ha; subst.
    rewrite <- (Permutation_length (EV i Hi)). exact HH.
Qed.

(** Candidates from the cells. *)
Lemma get_temp_cells (s : sys Rnum) : stored s -> cells_ok s (s_nd s) -> s_usecells s = true ->
  exists s2, get_temp_neighbors s = Ok s2 /\ temps_ok nltb s s2.
Proof.
  intros Hst Hc Hu. unfold get_temp_neighbors. rewrite Hu.
  destruct (cell_pairs_ok s Hst Hc) as (ps & E & ND & R1 & R2). rewrite E. cbn [bind].
  destruct (@fold_add_temp _ nltb s ps (s_atoms s)) as (l' & -> & HL & H).
  { intros p Hp. apply R1 in Hp. lia. }
  cbn [bind]. eexists. split; [reflexivity|]. split; [reflexivity|]. split; [exact HL|].
  intros i a Ha. destruct (H i a Ha) as (a' & Ha' & S' & T'). exists a'. split; [exact Ha'|].
  split; auto. rewrite T'. apply Permutation_app_head.
  rewrite <- tevs_pairs by (apply nth_error_Some; congruence).
  apply cells_same; auto. intros; now apply tevs_far.
Qed.

(** ** Entries measured from the atom itself *)
Transparent abs_distance_ij.
Lemma ij_sym (s : sys Rnum) p q : nonneg3 (s_len s) ->
  abs_distance_ij s q p = let '(d, v) := abs_distance_ij s p q in (d, vopp v).
Proof.
  intros H. rewrite !abs_distance_ij_spec by auto. rewrite (abs_distance_sym s q p) by auto.
  f_equal. unfold distance_vector. rewrite (vsub_opp q p), pbc_diff_opp by auto. reflexivity.
Qed.
Opaque abs_distance_ij.

Lemma arrow_link (s : sys Rnum) i j a : nonneg3 (s_len s) -> nth_error (s_atoms s) i = Some a -> i <> j ->
  arrow s (s_atoms s) a j = link s i j.
Proof.
  intros HL Ha Hij. unfold arrow, link. rewrite Ha.
  destruct (nth_error (s_atoms s) j) as [b|]; auto.
  destruct (Nat.ltb_spec i j); auto. destruct (Nat.ltb_spec j i); [|lia].
  rewrite (ij_sym (a_pos b) (a_pos a) HL).
  destruct (abs_distance_ij s (a_pos b) (a_pos a)). reflexivity.
Qed.

Lemma cand_link (s : sys Rnum) cmp r i d : In d (cands cmp s r i) ->
  exists e, link s i (d_idx d) = Some e /\ nb_dist e = d_dist d /\ nb_idx e = d_idx d /\
    i <> d_idx d /\ cmp (d_dist d) r = true.
Proof.
  intros H. apply In_cands in H. destruct H as (e & H1 & H2 & H3). exists e.
  destruct (link_idx H1) as (? & _ & ? & _). auto.
Qed.

(** The entries of a list of candidates. *)
Lemma arrows_cands (s : sys Rnum) cmp r i a ds : nonneg3 (s_len s) -> nth_error (s_atoms s) i = Some a ->
  (forall d, In d ds -> In d (cands cmp s r i)) ->
  let es := arrows s (s_atoms s) a (map (@d_idx Rnum) ds) in
  Forall2 (fun d e => link s i (d_idx d) = Some e /\ nb_idx e = d_idx d /\ nb_dist e = d_dist d) ds es.
Proof.
  intros HL Ha. induction ds as [|d ds IH]; intros H; simpl; [constructor|].
  destruct (cand_link (H d (or_introl eq_refl))) as (e & H1 & H2 & H3 & H4 & _).
  unfold arrows. simpl. rewrite (arrow_link HL Ha H4), H1. simpl. constructor; auto.
  apply IH. intros; apply H; now right.
Qed.

Lemma Forall2_map_eq {A B C} (R : A -> B -> Prop) (f : A -> C) (g : B -> C) l l' :
  Forall2 R l l' -> (forall a b, R a b -> g b = f a) -> map g l' = map f l.
Proof. intros H HR. induction H; simpl; f_equal; auto. Qed.

Lemma StronglySorted_firstn {A} (R : A -> A -> Prop) l n : StronglySorted R l -> StronglySorted R (firstn n l).
Proof.
  intros H; revert n; induction H; intros [|n]; simpl; constructor; auto.
  rewrite Forall_forall in *. intros x Hx. apply firstn_In in Hx. auto.
Qed.

Lemma StronglySorted_Forall2 {A B} (R : A -> A -> Prop) (Q : B -> B -> Prop) (P : A -> B -> Prop) l l' :
  Forall2 P l l' -> (forall a a' b b', P a b -> P a' b' -> R a a' -> Q b b') ->
  StronglySorted R l -> StronglySorted Q l'.
Proof.
  intros H HQ. induction H as [|a b l l' Hab HF IH]; intros HS; constructor; inversion HS; subst; auto.
  clear IH HS H1. rewrite Forall_forall in *. induction HF; intros z Hz; [destruct Hz|].
  destruct Hz as [<-|Hz].
  - eapply HQ; eauto. apply H2. now left.
  - apply IHHF; auto. intros; apply H2; now right.
Qed.

Lemma sorted_R (c : list (datom Rnum)) :
  StronglySorted (fun x y => nltb (d_dist y) (d_dist x) = false) c ->
  StronglySorted (fun x y => d_dist x <= d_dist y)%R c.
Proof.
  intros H; induction H; constructor; auto. rewrite Forall_forall in *. intros x Hx.
  apply Rltb_false. now apply H0.
Qed.

Lemma StronglySorted_split {A} (R : A -> A -> Prop) l n x y :
  StronglySorted R l -> In x (firstn n l) -> In y (skipn n l) -> R x y.
Proof.
  intros H; revert n; induction H; intros [|n]; simpl; try tauto.
  rewrite Forall_forall in *. intros [<-|Hx] Hy; eauto.
  apply H0. rewrite <- (firstn_skipn n l). apply in_or_app. now right.
Qed.

Lemma In_firstn_skipn {A} (l : list A) n x : In x l -> In x (firstn n l) \/ In x (skipn n l).
Proof. intros H. rewrite <- (firstn_skipn n l) in H. now apply in_app_or in H. Qed.

(** The first k sorted candidates are the k nearest atoms. *)
Definition cmp_ok (cmp : R -> R -> bool) : Prop :=
  (forall d r, cmp d r = true -> d <= r)%R /\ (forall d r, cmp d r = false -> r <= d)%R.

Lemma nearest_cands (s : sys Rnum) (cmp : R -> R -> bool) (r : R) i a c k : nonneg3 (s_len s) -> cmp_ok cmp ->
  nth_error (s_atoms s) i = Some a ->
  Permutation c (cands (N := Rnum) cmp s r i) ->
  StronglySorted (fun x y => nltb (d_dist y) (d_dist x) = false) c ->
  k <= length c ->
  nearest s i k (arrows s (s_atoms s) a (map (@d_idx Rnum) (firstn k c))).
Proof.
  intros HL [Hc1 Hc2] Ha Hp Hs Hk.
  assert (Hin : forall d, In d (firstn k c) -> In d (cands (N := Rnum) cmp s r i)).
  { intros d Hd. eapply Permutation_in; [exact Hp|]. eapply firstn_In; eauto. }
  pose proof (@arrows_cands s cmp r i a (firstn k c) HL Ha Hin) as F. cbv zeta in F.
  set (es := arrows s (s_atoms s) a (map (@d_idx Rnum) (firstn k c))) in *.
  assert (Eidx : map (@nb_idx Rnum) es = map (@d_idx Rnum) (firstn k c)).
  { eapply Forall2_map_eq; [exact F|]. simpl. intros; tauto. }
  assert (ND : NoDup (map (@d_idx Rnum) c)).
  { eapply Permutation_NoDup; [|apply (@cands_NoDup Rnum cmp s r i)].
    apply Permutation_map. now symmetry. }
  split; [|split; [|split; [|split]]].
  - rewrite <- (Forall2_length' F). now apply firstn_length_le.
  - intros e He. destruct (Forall2_in_r F He) as (d & Hd & H1 & H2 & H3). congruence.
  - rewrite Eidx. rewrite <- (firstn_skipn k c) in ND. rewrite map_app in ND.
    clear - ND. induction (map (@d_idx Rnum) (firstn k c)); [constructor|].
    simpl in ND. inversion ND; subst. constructor; auto. intros H; apply H1. apply in_or_app; auto.
  - eapply StronglySorted_Forall2; [exact F| |apply sorted_R, StronglySorted_firstn, Hs].
    simpl. intros d d' b b' (_ & _ & E1) (_ & _ & E2). now rewrite E1, E2.
  - intros j e He Hnot e' He'. destruct (Forall2_in_r F He') as (d & Hd & H1 & H2 & H3). rewrite H3.
    destruct (cmp (nb_dist e) r) eqn:Ec.
    + (* j is a candidate further down the list *)
      set (dj := mkDatom (N := Rnum) (nb_dist e) j).
      assert (Hj : In dj c).
      { eapply Permutation_in; [symmetry; exact Hp|]. apply In_cands. exists e. auto. }
      destruct (In_firstn_skipn k Hj) as [Hj1|Hj2].
      * exfalso. apply Hnot. rewrite Eidx. apply in_map_iff. exists dj. auto.
      * exact (StronglySorted_split (sorted_R Hs) Hd Hj2).
    + apply Hc2 in Ec. apply Rle_trans with r; auto.
      destruct (cand_link (Hin d Hd)) as (_ & _ & _ & _ & _ & HH). now apply Hc1.
Qed.

(** ** find_neighbors: number and adaptive methods *)
Definition prepT {N : num} (s : sys N) (f : filt) (uc vo : bool) (r : N) : sys N :=
  s <| s_atoms := map (@reset_atom_all N) (s_atoms s) |> <| s_filter := filter_code f |>
    <| s_usecells := uc |> <| s_vorused := vo |> <| s_nd := r |>.

Section PrepT.
Variables (N : num) (s : sys N) (f : filt) (uc vo : bool) (r : N).
Let sT := prepT s f uc vo r.

Lemma link_prepT i j : link sT i j = link s i j.
Proof.
  unfold link, sT, prepT. simpl. rewrite !nth_error_map.
  destruct (nth_error (s_atoms s) i), (nth_error (s_atoms s) j); simpl; auto.
Qed.
Lemma type_at_prepT i : type_at sT i = type_at s i.
Proof. unfold type_at, sT, prepT. simpl. rewrite nth_error_map. now destruct (nth_error _ i). Qed.
Lemma stored_prepT : stored s -> stored sT.
Proof. unfold stored, sT, prepT. simpl. now rewrite map_length. Qed.
Lemma reset_prepT a : In a (s_atoms sT) -> a_nbrs a = [] /\ a_temp a = [].
Proof. simpl. intros H. apply in_map_iff in H. destruct H as (a0 & <- & _). auto. Qed.
Lemma nth_prepT i a : nth_error (s_atoms s) i = Some a -> nth_error (s_atoms sT) i = Some (reset_atom_all a).
Proof. intros H. simpl. now rewrite nth_error_map, H. Qed.
Lemma length_prepT : length (s_atoms sT) = length (s_atoms s).
Proof. simpl. apply map_length. Qed.
End PrepT.

Lemma nearest_prepT (s : sys Rnum) f uc vo r i k l :
  nearest (prepT s f uc vo r) i k l -> nearest s i k l.
Proof.
  unfold nearest. intros (H1 & H2 & H3 & H4 & H5). split; auto. split.
  { intros e He. rewrite <- (H2 e He). symmetry. apply link_prepT. }
  split; auto. split; auto. intros j e He. apply H5. now rewrite link_prepT.
Qed.

Lemma cells_ok_prepT (s : sys Rnum) f uc vo r : cells_ok s r -> cells_ok (prepT s f uc vo r) r.
Proof.
  intros [H3 Hat]. split; [exact H3|]. intros a Ha. simpl in Ha.
  apply in_map_iff in Ha. destruct Ha as (a0 & <- & Ha0). exact (Hat a0 Ha0).
Qed.

(** Few candidates: any set of distinct atoms closer than the guess is small. *)
Definition few_within (s : sys Rnum) (r : R) (i : nat) (k : Z) : Prop :=
  forall js, NoDup js -> (forall j, In j js -> exists e, link s i j = Some e /\ (nb_dist e < r)%R) ->
  (Z.of_nat (length js) < k)%Z.

Lemma few_cands (s : sys Rnum) (cmp : R -> R -> bool) f uc vo r i k :
  cmp_ok cmp ->
  (Z.of_nat (length (cands (N := Rnum) cmp (prepT s f uc vo r) r i)) < k)%Z -> few_within s r i k.
Proof.
  intros [_ Hc] H js ND Hjs. apply Z.le_lt_trans with (2 := H). apply inj_le.
  rewrite <- (map_length (@d_idx Rnum)). apply NoDup_incl_length; auto.
  intros j Hj. destruct (Hjs j Hj) as (e & He & Hd). apply in_map_iff.
  exists (mkDatom (N := Rnum) (nb_dist e) j). split; auto. apply In_cands. exists e.
  rewrite link_prepT. simpl. repeat split; auto.
  destruct (cmp (nb_dist e) r) eqn:E; auto. apply Hc in E. lra.
Qed.

Lemma cmp_ok_leb : cmp_ok Rleb.
Proof. split; intros d r H; [now apply Rleb_true in H|]. apply Rleb_false in H. lra. Qed.
Lemma cmp_ok_ltb : cmp_ok Rltb.
Proof. split; intros d r H; [apply Rltb_true in H; lra|]. now apply Rltb_false in H. Qed.

(** The candidate search of the real system, brute force or cells. *)
Definition temp_cmp (uc : bool) : R -> R -> bool := if uc then Rltb else Rleb.
Lemma temp_cmp_ok uc : cmp_ok (temp_cmp uc).
Proof. destruct uc; [apply cmp_ok_ltb|apply cmp_ok_leb]. Qed.

Lemma get_temp_ok (s : sys Rnum) f (uc vo : bool) r : stored s -> (uc = true -> cells_ok s r) ->
  exists s2, get_temp_neighbors (prepT s f uc vo r) = Ok s2 /\
    temps_ok (N := Rnum) (temp_cmp uc) (prepT s f uc vo r) s2.
Proof.
  intros Hst Hc. destruct uc.
  - apply get_temp_cells; auto; [now apply stored_prepT|]. apply cells_ok_prepT; auto.
  - apply get_temp_brute; auto. now apply stored_prepT.
Qed.

Section Find.
Variable srt : list (datom Rnum) -> list (datom Rnum).
Hypothesis Hsrt : sorts srt.
Variable voro : nat -> option (list (nat * Rnum)).
Variable area_pow : Rnum -> Rnum.
Variable inv : m3 Rnum -> option (m3 Rnum).

Lemma reset_stored {N : num} (s : sys N) : stored s ->
  reset_all_neighbors s = Ok (s <| s_atoms := map (@reset_atom_all N) (s_atoms s) |>).
Proof. intros H. now apply each_atom_stored. Qed.

Lemma erase_same {N : num} (a a' : atom N) : erase a' = erase (reset_atom_all a) -> same_atom a' a.
Proof. intros H. exact H. Qed.

Lemma number_spec (s : sys Rnum) f (t pad : R) (nl k : Z) :
  stored s -> nonneg3 (s_len s) -> (1 <= t)%R ->
  let r := guess_distance s t in
  ((4000 < s_real s)%Z -> cells_ok s r) ->
  match find_neighbors srt voro area_pow inv s (mkArgs (N := Rnum) (MNumber _ k true) f t pad nl) with
  | Ok (s', None) => s_found s' = true /\ length (s_atoms s') = length (s_atoms s) /\
      forall i a, nth_error (s_atoms s) i = Some a -> exists a', nth_error (s_atoms s') i = Some a' /\
        same_atom a' a /\ (0 <= k)%Z /\ nearest s i (Z.to_nat k) (a_nbrs a')
  | Ok (s', Some e) => e = RuntimeError /\ s_found s' = s_found s /\
      exists i, i < length (s_atoms s) /\ ((k < 0)%Z \/ few_within s r i k)
  | Err e => e = UB /\ (300 < k)%Z
  end.
Proof.
  intros Hst HL Ht r Hc. unfold find_neighbors. rewrite (reset_stored Hst). cbn [bind]. cbv zeta.
  cbn [fa_filter fa_method fa_threshold].
  assert (Et : nltb (n := Rnum) t n1 = false) by (apply Rltb_false; exact Ht). rewrite Et.
  unfold get_all_neighbors_bynumber.
  set (uc := Z.ltb 4000 _).
  assert (Huc : uc = true -> cells_ok s r).
  { unfold uc. intros H. apply Z.ltb_lt in H. apply Hc. exact H. }
  change (guess_distance _ t) with r.
  match goal with |- context [get_temp_neighbors ?x] => change x with (prepT s f uc false r) end.
  destruct (get_temp_ok f false Hst Huc) as (s2 & -> & HT). cbn [bind].
  assert (En : Z.to_nat (s_nop s2) = length (s_atoms (prepT s f uc false r))).
  { destruct HT as (-> & _). simpl. rewrite map_length, Hst. apply Nat2Z.id. }
  rewrite En.
  pose proof (@bynumber_loop Rnum srt Hsrt _ s2 (temp_cmp uc) k HT (@reset_prepT Rnum s f uc false r)) as L.
  destruct (loop_atoms _ _ _) as [[l' ok]|e]; cbn [bind].
  - destruct ok.
    + destruct L as [HL' L]. unfold found. split; [reflexivity|].
      assert (HLs : length l' = length (s_atoms s)) by (rewrite HL'; apply length_prepT).
      split; [exact HLs|]. intros i a Ha.
      assert (Hi : i < length (s_atoms s)) by (apply nth_error_Some; congruence).
      destruct (L i) as (a' & Ha' & a0 & c & Ha0 & Er & Hp & Hs & Hk0 & Hk1 & _ & Hn).
      { now rewrite length_prepT. }
      exists a'. split; [exact Ha'|]. rewrite (nth_prepT f uc false r Ha) in Ha0. injection Ha0 as <-.
      split; [exact Er|]. split; auto. rewrite Hn.
      apply (@nearest_prepT s f uc false r).
      apply nearest_cands with (cmp := temp_cmp uc) (r := r); auto; [apply temp_cmp_ok| |lia].
      now apply nth_prepT.
    + destruct L as (i & Hi & HF). rewrite length_prepT in Hi.
      split; [reflexivity|]. split.
      { destruct HT as (-> & _). reflexivity. }
      exists i. split; auto. destruct HF as [HF|HF]; auto. right.
      eapply few_cands; [apply temp_cmp_ok|exact HF].
  - destruct L as [-> L]. auto.
Qed.

(** Sums of the nearest distances. *)
Lemma fold_left_Rplus (l : list R) (x : R) : (fold_left Rplus l x = x + fold_right Rplus 0 l)%R.
Proof. revert x; induction l; intros x; simpl; [lra|]. rewrite IHl. lra. Qed.

Lemma ad_cut_mean (s : sys Rnum) (cmp : R -> R -> bool) r i a c (k : Z) (pad : R) : nonneg3 (s_len s) ->
  nth_error (s_atoms s) i = Some a -> (1 <= k)%Z ->
  (forall d, In d (firstn (Z.to_nat k) c) -> In d (cands (N := Rnum) cmp s r i)) ->
  ad_cut (N := Rnum) k pad c =
  (pad * (sum_dist (arrows s (s_atoms s) a (map (@d_idx Rnum) (firstn (Z.to_nat k) c))) / INR (Z.to_nat k)))%R.
Proof.
  intros HL Ha Hk Hin. unfold ad_cut, nsum. rnum. change (fold_left (@nadd Rnum)) with (fold_left Rplus).
  rewrite fold_left_Rplus.
  pose proof (@arrows_cands s cmp r i a _ HL Ha Hin) as F. cbv zeta in F.
  assert (E : sum_dist (arrows s (s_atoms s) a (map (@d_idx Rnum) (firstn (Z.to_nat k) c))) =
              fold_right Rplus 0%R (map (@d_dist Rnum) (firstn (Z.to_nat k) c))).
  { induction F as [|d e l l' (_ & _ & H) F IH]; simpl; auto. rewrite H. f_equal. apply IH.
    intros; apply Hin; now right. }
  rewrite E. rewrite INR_IZR_INZ, Z2Nat.id by lia.
  assert (IZR k <> 0)%R by (apply IZR_neq; lia).
  assert (Q : forall p x y q : R, x = y -> (p * (1 / q) * (0 + x) = p * (y / q))%R)
    by (intros; subst; unfold Rdiv; ring).
  apply Q. reflexivity.
Qed.

Lemma adaptive_find (s : sys Rnum) f (t pad : R) (k : Z) :
  stored s -> nonneg3 (s_len s) -> (1 <= k)%Z ->
  let r := guess_distance s t in
  ((4000 < s_nop s)%Z -> cells_ok s r) ->
  let uc := Z.ltb 4000 (s_nop s) in
  match get_all_neighbors_adaptive srt (s <| s_atoms := map (@reset_atom_all Rnum) (s_atoms s) |>
      <| s_filter := filter_code f |> <| s_usecells := uc |>) t k pad with
  | Ok (s', true) => length (s_atoms s') = length (s_atoms s) /\
      forall i a, nth_error (s_atoms s) i = Some a -> exists a', nth_error (s_atoms s') i = Some a' /\
        same_atom a' a /\ adaptive_rule s i (Z.to_nat k) pad f (fun d => temp_cmp uc d r = true) (a_nbrs a')
  | Ok (s', false) => s_found s' = s_found s /\ exists i, i < length (s_atoms s) /\ few_within s r i k
  | Err e => e = UB /\ exists i, max_nbrs < length (cands (N := Rnum) (temp_cmp uc) s r i)
  end.
Proof.
  intros Hst HL Hk r Hc uc.
  unfold get_all_neighbors_adaptive.
  assert (Huc : uc = true -> cells_ok s r).
  { unfold uc. intros H. apply Z.ltb_lt in H. apply Hc. exact H. }
  change (guess_distance _ t) with r. cbv zeta.
  match goal with |- context [get_temp_neighbors ?x] => change x with (prepT s f uc (s_vorused s) r) end.
  set (vo := s_vorused s).
  destruct (get_temp_ok f vo Hst Huc) as (s2 & -> & HT). cbn [bind].
  assert (En : Z.to_nat (s_nop s2) = length (s_atoms (prepT s f uc vo r))).
  { destruct HT as (-> & _). simpl. rewrite map_length, Hst. apply Nat2Z.id. }
  rewrite En.
  pose proof (@adaptive_loop Rnum srt Hsrt _ s2 (temp_cmp uc) k pad HT (@reset_prepT Rnum s f uc vo r)) as L.
  assert (Ecand : forall i, cands (N := Rnum) (temp_cmp uc) (prepT s f uc vo r) r i = cands (N := Rnum) (temp_cmp uc) s r i).
  { intros i. unfold cands. rewrite length_prepT. apply flat_map_ext_in. intros j _. now rewrite link_prepT. }
  destruct (loop_atoms _ _ _) as [[l' ok]|e]; cbn [bind].
  - destruct ok.
    + destruct L as [HL' L].
      assert (HLs : length l' = length (s_atoms s)) by (rewrite HL'; apply length_prepT).
      split; [exact HLs|]. intros i a Ha.
      assert (Hi : i < length (s_atoms s)) by (apply nth_error_Some; congruence).
      destruct (L i) as (a' & Ha' & a0 & c & Ha0 & Er & Hp & Hs & Hk0 & Hk1 & _ & Hn & _).
      { now rewrite length_prepT. }
      exists a'. split; [exact Ha'|]. rewrite (nth_prepT f uc vo r Ha) in Ha0. injection Ha0 as <-.
      split; [exact Er|]. set (ar := reset_atom_all a) in *.
      set (sT := prepT s f uc vo r) in *. change (s_nd sT) with r in Hp.
      assert (HaT : nth_error (s_atoms sT) i = Some ar) by now apply nth_prepT.
      assert (HLT : nonneg3 (s_len sT)) by exact HL.
      set (near := arrows sT (s_atoms sT) ar (map (@d_idx Rnum) (firstn (Z.to_nat k) c))).
      exists near. split.
      { apply (@nearest_prepT s f uc vo r).
        apply nearest_cands with (cmp := temp_cmp uc) (r := r); auto; [apply temp_cmp_ok|lia]. }
      set (dcut := ad_cut (N := Rnum) k pad c) in *.
      assert (Edc : dcut = (pad * (sum_dist near / INR (Z.to_nat k)))%R).
      { unfold dcut, near. apply ad_cut_mean with (cmp := temp_cmp uc) (r := r) (i := i); auto.
        intros d Hd. eapply Permutation_in; [exact Hp|]. eapply firstn_In; eauto. }
      rewrite <- Edc.
      set (ks := filter (ad_keep sT (s_atoms sT) ar dcut) c) in *.
      assert (Hks : forall d, In d ks -> In d (cands (N := Rnum) (temp_cmp uc) sT r i)).
      { intros d Hd. unfold ks in Hd. apply filter_In in Hd. eapply Permutation_in; [exact Hp|]. tauto. }
      pose proof (@arrows_cands sT (temp_cmp uc) r i ar ks HLT HaT Hks) as F. cbv zeta in F. rewrite <- Hn in F.
      assert (Ekeep : forall d, ad_keep sT (s_atoms sT) ar dcut d = true <->
         (d_dist d < dcut)%R /\ allowed f (type_at s i) (type_at s (d_idx d)) = true).
      { intros d. unfold ad_keep. rewrite Bool.andb_true_iff.
        change (s_filter sT) with (filter_code f). rewrite filtered_allowed.
        rewrite <- (type_at_prepT s f uc vo r (d_idx d)). unfold type_at at 1. rewrite Ha.
        rnum. rewrite Rltb_true. reflexivity. }
      split.
      * assert (Eidx : map (@nb_idx Rnum) (a_nbrs a') = map (@d_idx Rnum) ks).
        { eapply Forall2_map_eq; [exact F|]. simpl. intros; tauto. }
        rewrite Eidx. unfold ks. apply NoDup_map_filter.
        eapply Permutation_NoDup; [|apply (@cands_NoDup Rnum (temp_cmp uc) sT r i)].
        apply Permutation_map. now symmetry.
      * intros e. split.
        -- intros He. destruct (Forall2_in_r F He) as (d & Hd & H1 & H2 & H3).
           destruct (cand_link (Hks d Hd)) as (e0 & E0 & E1 & E2 & E3 & E4).
           unfold ks in Hd. apply filter_In in Hd. destruct Hd as [_ Hd]. apply Ekeep in Hd.
           rewrite H2, H3. unfold sT in H1. rewrite link_prepT in H1. tauto.
        -- intros (H1 & H2 & H3 & H4).
           set (d := mkDatom (N := Rnum) (nb_dist e) (nb_idx e)).
           assert (Hd : In d ks).
           { unfold ks. apply filter_In. split.
             - eapply Permutation_in; [symmetry; exact Hp|]. apply In_cands. exists e. unfold sT. rewrite link_prepT. auto.
             - apply Ekeep. auto. }
           destruct (Forall2_in_l F Hd) as (e' & He' & E1 & E2 & E3). unfold sT in E1. rewrite link_prepT in E1.
           simpl in E1. rewrite H1 in E1. injection E1 as <-. exact He'.
    + destruct L as (i & Hi & HF). rewrite length_prepT in Hi. split.
      { destruct HT as (-> & _). reflexivity. }
      exists i. split; auto. destruct HF as [HF|HF]; [lia|].
      eapply few_cands; [apply temp_cmp_ok|exact HF].
  - destruct L as (-> & i & L). split; auto. exists i. change (s_nd (prepT s f uc vo r)) with r in L. now rewrite Ecand in L.
Qed.
End Find.
