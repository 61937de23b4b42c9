(** The number and the adaptive method for any machine: nearest atoms. *)
From Coq Require Import Reals Lra Lia Permutation Sorted SpecFloat.
From Verif Require Import Base Num NumR NumF Types M_Geometry S_Geometry P_Geometry M_Container
  M_Neighbors P_Container S_Neighbors P_Neighbors P_Temp P_Cells P_Search P_FindN P_Order S_Number.
Close Scope R_scope.
Set Implicit Arguments.
Unset Strict Implicit.
#[local] Opaque abs_distance_ij.
#[local] Open Scope nat_scope.
#[local] Arguments max_nbrs : simpl never.

Ltac sf_cases2 x y :=
  destruct x as [[|]|[|]| |[|] ?mx ?ex], y as [[|]|[|]| |[|] ?my ?ey];
  unfold SFleb, SFltb; rewrite ?compare_finite; cbn [SFcompare]; try discriminate; auto;
  repeat match goal with
  | |- context [exp_cmp ?a ?b ?c ?d] => destruct (exp_cmp_spec a b c d); cbn [CompOpp]
  end; try discriminate; auto; lia.
Lemma sf_le_l x y : SFleb x y = true -> SFleb x x = true.
Proof. sf_cases2 x y. Qed.
Lemma sf_total x y : SFleb x x = true -> SFleb y y = true -> SFltb y x = false -> SFleb x y = true.
Proof. sf_cases2 x y. Qed.

Lemma sf_lt_incl x y : SFltb x y = true -> SFleb x y = true.
Proof. unfold SFltb, SFleb. destruct (SFcompare x y) as [[| |]|]; auto. Qed.
Lemma sf_irrefl x : SFltb x x = false.
Proof. unfold SFltb. destruct x as [[|]|[|]| |[|] m e]; auto; rewrite compare_finite; destruct (exp_cmp_spec m e m e); auto; lia. Qed.

Lemma machine_le_l (N : num) (x y : N) : machine N -> nleb x y = true -> nleb x x = true.
Proof.
  intros [->|[L ->]]; cbn; [|apply sf_le_l]. unfold Rleb. intros _. destruct (Rle_dec x x); auto. exfalso. apply n. apply Rle_refl.
Qed.
Lemma machine_total (N : num) (x y : N) : machine N -> nleb x x = true -> nleb y y = true -> nltb y x = false -> nleb x y = true.
Proof.
  intros [->|[L ->]]; cbn; [|apply sf_total]. unfold Rleb, Rltb. intros _ _.
  destruct (Rle_dec x y), (Rlt_dec y x); auto; try discriminate. exfalso. apply n. now apply Rnot_lt_le.
Qed.

Section M.
Variable N : num.
Hypothesis HN : machine N.
Implicit Types (s : sys N).

Lemma view_idx s i j e : view s i j = Some e -> nb_idx e = j /\ i <> j /\ j < length (s_atoms s).
Proof.
  unfold view. destruct (nth_error (s_atoms s) i); [|discriminate].
  destruct (nth_error (s_atoms s) j) eqn:Ej; [|discriminate]. destruct (Nat.eqb_spec i j); [discriminate|].
  destruct (abs_distance_ij _ _ _). injection 1 as <-. repeat split; auto. apply nth_error_Some. congruence.
Qed.

(** The pair distance is the one seen from the atom. *)
Lemma view_link s i j : two_way s ->
  match view s i j, link s i j with
  | Some e, Some e' => nb_idx e = j /\ nb_dist e = nb_dist e'
  | None, None => True
  | _, _ => False
  end.
Proof.
  intros H. unfold view, link. destruct (nth_error (s_atoms s) i) as [a|] eqn:Ea; auto.
  destruct (nth_error (s_atoms s) j) as [b|] eqn:Eb; auto.
  specialize (H a b (nth_error_In _ _ Ea) (nth_error_In _ _ Eb)).
  destruct (Nat.eqb_spec i j) as [->|Hij]; [now rewrite Nat.ltb_irrefl|].
  destruct (abs_distance_ij s (a_pos a) (a_pos b)) as [d v], (abs_distance_ij s (a_pos b) (a_pos a)) as [d' v']. simpl in H.
  destruct (Nat.ltb_spec i j); [auto|]. destruct (Nat.ltb_spec j i); [auto|lia].
Qed.

Lemma arrow_view s i j a : nth_error (s_atoms s) i = Some a -> i <> j -> arrow s (s_atoms s) a j = view s i j.
Proof.
  intros Ha Hij. unfold arrow, view. rewrite Ha. destruct (nth_error (s_atoms s) j); auto.
  destruct (Nat.eqb_spec i j); [congruence|]. reflexivity.
Qed.

Lemma cands_view s r i d : two_way s -> In d (cands nleb s r i) <->
  exists e, view s i (d_idx d) = Some e /\ nb_dist e = d_dist d /\ nleb (d_dist d) r = true.
Proof.
  intros H. rewrite In_cands. unfold candidate. pose proof (view_link i (d_idx d) H) as V. split; intros (e & E & D & L); rewrite E in V.
  - destruct (view s i (d_idx d)) as [e'|]; [|tauto]. exists e'. destruct V as [_ V]. rewrite V. auto.
  - destruct (link s i (d_idx d)) as [e'|]; [|tauto]. exists e'. destruct V as [_ V]. rewrite <- V. auto.
Qed.

Lemma arrows_views s r i a ds : two_way s -> nth_error (s_atoms s) i = Some a ->
  (forall d, In d ds -> In d (cands nleb s r i)) ->
  Forall2 (fun d e => view s i (d_idx d) = Some e /\ nb_idx e = d_idx d /\ nb_dist e = d_dist d /\ nleb (nb_dist e) r = true)
    ds (arrows s (s_atoms s) a (map (@d_idx N) ds)).
Proof.
  intros HT Ha. induction ds as [|d ds IH]; intros H; simpl; [constructor|].
  destruct (proj1 (cands_view r i d HT) (H d (or_introl eq_refl))) as (e & H1 & H2 & H3).
  destruct (view_idx H1) as (H4 & H5 & _).
  unfold arrows. simpl. rewrite (arrow_view Ha H5), H1. simpl. constructor; [rewrite H2; auto|].
  apply IH. intros; apply H; now right.
Qed.

Lemma nearest_of s r i a c k : two_way s -> nth_error (s_atoms s) i = Some a ->
  Permutation c (cands nleb s r i) ->
  StronglySorted (fun x y => nltb (d_dist y) (d_dist x) = false) c ->
  k <= length c ->
  nearest_views s i k (arrows s (s_atoms s) a (map (@d_idx N) (firstn k c))).
Proof.
  intros HT Ha Hp Hs Hk.
  assert (Hin : forall d, In d (firstn k c) -> In d (cands nleb s r i)).
  { intros d Hd. eapply Permutation_in; [exact Hp|]. eapply firstn_In; eauto. }
  pose proof (@arrows_views s r i a (firstn k c) HT Ha Hin) as F.
  set (es := arrows s (s_atoms s) a (map (@d_idx N) (firstn k c))) in *.
  assert (Eidx : map (@nb_idx N) es = map (@d_idx N) (firstn k c)).
  { eapply Forall2_map_eq; [exact F|]. simpl. intros; tauto. }
  assert (ND : NoDup (map (@d_idx N) c)).
  { eapply Permutation_NoDup; [|apply (@cands_NoDup N nleb s r i)].
    apply Permutation_map. now symmetry. }
  split; [|split; [|split; [|split]]].
  - rewrite <- (Forall2_length' F). now apply firstn_length_le.
  - intros e He. destruct (Forall2_in_r F He) as (d & Hd & H1 & H2 & H3). congruence.
  - rewrite Eidx. rewrite <- (firstn_skipn k c) in ND. rewrite map_app in ND.
    clear - ND. induction (map (@d_idx N) (firstn k c)); [constructor|].
    simpl in ND. inversion ND; subst. constructor; auto. intros H; apply H1. apply in_or_app; auto.
  - eapply StronglySorted_Forall2; [exact F| |apply StronglySorted_firstn, Hs].
    simpl. intros d d' b b' (_ & _ & E1 & L1) (_ & _ & E2 & L2) Q. rewrite <- E1, <- E2 in Q.
    apply machine_total; auto; eapply machine_le_l; eauto.
  - intros j e He Hnot e' He'. destruct (Forall2_in_r F He') as (d & Hd & H1 & H2 & H3 & H4).
    destruct (nleb (nb_dist e) r) eqn:Ec.
    + set (dj := mkDatom (N := N) (nb_dist e) j).
      assert (Hj : In dj c).
      { eapply Permutation_in; [symmetry; exact Hp|]. apply cands_view; auto. exists e. auto. }
      destruct (In_firstn_skipn k Hj) as [Hj1|Hj2].
      * exfalso. apply Hnot. rewrite Eidx. apply in_map_iff. exists dj. auto.
      * rewrite H3. exact (StronglySorted_split Hs Hd Hj2).
    + destruct (nltb (nb_dist e) (nb_dist e')) eqn:El; auto.
      exfalso. assert (X : nltb (nb_dist e) r = true) by (eapply machine_lt_le; eauto).
      destruct HN as [HR|[L HS]].
      * clear - X Ec HR. revert X Ec. generalize (nb_dist e). revert r. rewrite HR. cbn. unfold Rltb, Rleb. intros r x.
        destruct (Rlt_dec x r), (Rle_dec x r); try discriminate. exfalso. apply n. now left.
      * clear - X Ec HS. revert X Ec. generalize (nb_dist e). revert r. rewrite HS. cbn. intros r x. unfold SFltb, SFleb.
        destruct (SFcompare x r) as [[| |]|]; discriminate.
Qed.

(** Preparing the system changes no distance. *)
Lemma view_prepT s f uc vo r i j : view (prepT s f uc vo r) i j = view s i j.
Proof.
  unfold view, prepT. simpl. rewrite !nth_error_map.
  destruct (nth_error (s_atoms s) i), (nth_error (s_atoms s) j); simpl; auto.
Qed.
Lemma two_way_prepT s f uc vo r : two_way s -> two_way (prepT s f uc vo r).
Proof.
  intros H a b Ha Hb. simpl in Ha, Hb. apply in_map_iff in Ha, Hb. destruct Ha as (a0 & <- & Ha), Hb as (b0 & <- & Hb).
  exact (H a0 b0 Ha Hb).
Qed.
Lemma nearest_views_prepT s f uc vo r i k l : nearest_views (prepT s f uc vo r) i k l -> nearest_views s i k l.
Proof.
  unfold nearest_views. intros (H1 & H2 & H3 & H4 & H5). split; auto. split.
  { intros e He. rewrite <- (H2 e He). symmetry. apply view_prepT. }
  split; auto. split; auto. intros j e He. apply H5. now rewrite view_prepT.
Qed.
Lemma few_of s f uc vo r i k : two_way s ->
  (Z.of_nat (length (cands nleb (prepT s f uc vo r) r i)) < k)%Z -> few_views s r i k.
Proof.
  intros HT H js ND Hjs. apply Z.le_lt_trans with (2 := H). apply inj_le.
  rewrite <- (map_length (@d_idx N)). apply NoDup_incl_length; auto.
  intros j Hj. destruct (Hjs j Hj) as (e & He & Hd). apply in_map_iff.
  exists (mkDatom (N := N) (nb_dist e) j). split; auto. apply cands_view; [now apply two_way_prepT|].
  exists e. rewrite view_prepT. auto.
Qed.

Variable srt : list (datom N) -> list (datom N).
Hypothesis Hsrt : sorts_numbers srt.
Variable voro : nat -> option (list (nat * N)).
Variable area_pow : N -> N.
Variable inv : m3 N -> option (m3 N).

Definition numbers (ds : list (datom N)) : Prop := forall d, In d ds -> nleb (d_dist d) (d_dist d) = true.
Lemma cands_numbers s r i ds : Permutation ds (cands nleb s r i) -> numbers ds.
Proof.
  intros H d Hd. apply (Permutation_in _ H), In_cands in Hd. destruct Hd as (_ & _ & _ & E). eapply machine_le_l; eauto.
Qed.

Lemma number_find s f (t pad : N) (nl k : Z) :
  stored s -> two_way s -> nltb t n1 = false -> (s_real s <= 4000)%Z ->
  match find_neighbors srt voro area_pow inv s (mkArgs (MNumber _ k true) f t pad nl) with
  | Ok (s', None) => s_found s' = true /\ length (s_atoms s') = length (s_atoms s) /\
      forall i a, nth_error (s_atoms s) i = Some a -> exists a', nth_error (s_atoms s') i = Some a' /\
        same_atom a' a /\ nearest_views s i (Z.to_nat k) (a_nbrs a')
  | Ok (s', Some e) => e = RuntimeError /\ s_found s' = s_found s /\
      exists i, i < length (s_atoms s) /\ ((k < 0)%Z \/ few_views s (guess_distance s t) i k)
  | Err e => e = UB /\ (300 < k)%Z
  end.
Proof.
  intros Hst HT2 Et Hreal. set (r := guess_distance s t). unfold find_neighbors. rewrite (reset_stored Hst). cbn [bind]. cbv zeta.
  cbn [fa_filter fa_method fa_threshold]. rewrite Et.
  unfold get_all_neighbors_bynumber.
  set (uc := Z.ltb 4000 _).
  assert (Huc : uc = false) by (apply Z.ltb_ge; exact Hreal).
  change (guess_distance _ t) with r.
  match goal with |- context [get_temp_neighbors ?x] => change x with (prepT s f uc false r) end.
  destruct (@get_temp_brute N (prepT s f uc false r) (stored_prepT f uc false r Hst) Huc) as (s2 & -> & HT). cbn [bind].
  assert (En : Z.to_nat (s_nop s2) = length (s_atoms (prepT s f uc false r))).
  { destruct HT as (-> & _). simpl. rewrite map_length, Hst. apply Nat2Z.id. }
  rewrite En.
  pose proof (@bynumber_loop_good N srt numbers Hsrt _ s2 nleb k HT (@cands_numbers _ _) (@reset_prepT N s f uc false r)) as L.
  destruct (loop_atoms _ _ _) as [[l' ok]|e]; cbn [bind].
  - destruct ok.
    + destruct L as [HL' L]. unfold found. split; [reflexivity|].
      assert (HLs : length l' = length (s_atoms s)) by (rewrite HL'; apply length_prepT).
      split; [exact HLs|]. intros i a Ha.
      assert (Hi : i < length (s_atoms s)) by (apply nth_error_Some; congruence).
      destruct (L i) as (a' & Ha' & a0 & c & Ha0 & Er & Hp & Hs & Hk0 & Hk1 & _ & Hn).
      { now rewrite length_prepT. }
      exists a'. split; [exact Ha'|]. rewrite (nth_prepT f uc false r Ha) in Ha0. injection Ha0 as <-.
      split; [exact Er|]. rewrite Hn.
      apply (@nearest_views_prepT s f uc false r).
      apply nearest_of with (r := r); auto; [now apply two_way_prepT| |lia].
      now apply nth_prepT.
    + destruct L as (i & Hi & HF). rewrite length_prepT in Hi.
      split; [reflexivity|]. split.
      { destruct HT as (-> & _). reflexivity. }
      exists i. split; auto. destruct HF as [HF|HF]; auto. right.
      eapply few_of; [exact HT2|exact HF].
  - destruct L as [-> L]. auto.
Qed.

Lemma adaptive_find_views s f (t pad : N) (k : Z) :
  stored s -> two_way s -> (s_nop s <= 4000)%Z ->
  let r := guess_distance s t in
  match get_all_neighbors_adaptive srt (s <| s_atoms := map (@reset_atom_all N) (s_atoms s) |>
      <| s_filter := filter_code f |> <| s_usecells := Z.ltb 4000 (s_nop s) |>) t k pad with
  | Ok (s', true) => length (s_atoms s') = length (s_atoms s) /\
      forall i a, nth_error (s_atoms s) i = Some a -> exists a', nth_error (s_atoms s') i = Some a' /\
        same_atom a' a /\ adaptive_views s i k pad r f (a_nbrs a')
  | Ok (s', false) => s_found s' = s_found s /\ exists i, i < length (s_atoms s) /\ ((k < 0)%Z \/ few_views s r i k)
  | Err e => e = UB /\ exists i, max_nbrs < length (cands nleb s r i)
  end.
Proof.
  intros Hst HT2 Hnop r. set (uc := Z.ltb 4000 (s_nop s)).
  assert (Huc : uc = false) by (apply Z.ltb_ge; exact Hnop).
  unfold get_all_neighbors_adaptive.
  change (guess_distance _ t) with r. cbv zeta.
  match goal with |- context [get_temp_neighbors ?x] => change x with (prepT s f uc (s_vorused s) r) end.
  set (vo := s_vorused s).
  destruct (@get_temp_brute N (prepT s f uc vo r) (stored_prepT f uc vo r Hst) Huc) as (s2 & -> & HT). cbn [bind].
  assert (En : Z.to_nat (s_nop s2) = length (s_atoms (prepT s f uc vo r))).
  { destruct HT as (-> & _). simpl. rewrite map_length, Hst. apply Nat2Z.id. }
  rewrite En.
  pose proof (@adaptive_loop_good N srt numbers Hsrt _ s2 nleb k pad HT (@cands_numbers _ _) (@reset_prepT N s f uc vo r)) as L.
  assert (Ecand : forall i, cands nleb (prepT s f uc vo r) r i = cands nleb s r i).
  { intros i. unfold cands. rewrite length_prepT. apply flat_map_ext_in. intros j _. now rewrite link_prepT. }
  destruct (loop_atoms _ _ _) as [[l' ok]|e]; cbn [bind].
  - destruct ok.
    + destruct L as [HL' L].
      assert (HLs : length l' = length (s_atoms s)) by (rewrite HL'; apply length_prepT).
      split; [exact HLs|]. intros i a Ha.
      assert (Hi : i < length (s_atoms s)) by (apply nth_error_Some; congruence).
      destruct (L i) as (a' & Ha' & a0 & c & Ha0 & Er & Hp & Hs & Hk0 & Hk1 & _ & Hn & _).
      { now rewrite length_prepT. }
      exists a'. split; [exact Ha'|]. rewrite (nth_prepT f uc vo r Ha) in Ha0. injection Ha0 as <-.
      split; [exact Er|]. set (ar := reset_atom_all a) in *.
      set (sT := prepT s f uc vo r) in *. change (s_nd sT) with r in Hp.
      assert (HaT : nth_error (s_atoms sT) i = Some ar) by now apply nth_prepT.
      assert (HTT : two_way sT) by now apply two_way_prepT.
      set (near := arrows sT (s_atoms sT) ar (map (@d_idx N) (firstn (Z.to_nat k) c))).
      assert (Hnear : forall d, In d (firstn (Z.to_nat k) c) -> In d (cands nleb sT r i)).
      { intros d Hd. eapply Permutation_in; [exact Hp|]. eapply firstn_In; eauto. }
      exists near. split.
      { apply (@nearest_views_prepT s f uc vo r). apply nearest_of with (r := r); auto. lia. }
      pose proof (@arrows_views sT r i ar _ HTT HaT Hnear) as FN. fold near in FN.
      assert (Edist : map (@nb_dist N) near = map (@d_dist N) (firstn (Z.to_nat k) c)).
      { eapply Forall2_map_eq; [exact FN|]. simpl. intros; tauto. }
      rewrite Edist. fold (ad_cut k pad c). set (dcut := ad_cut k pad c) in *.
      set (ks := filter (ad_keep sT (s_atoms sT) ar dcut) c) in *.
      assert (Hks : forall d, In d ks -> In d (cands nleb sT r i)).
      { intros d Hd. unfold ks in Hd. apply filter_In in Hd. eapply Permutation_in; [exact Hp|]. tauto. }
      pose proof (@arrows_views sT r i ar ks HTT HaT Hks) as F. rewrite <- Hn in F.
      assert (Ekeep : forall d, ad_keep sT (s_atoms sT) ar dcut d = true <->
         nltb (d_dist d) dcut = true /\ allowed f (type_at s i) (type_at s (d_idx d)) = true).
      { intros d. unfold ad_keep. rewrite Bool.andb_true_iff.
        change (s_filter sT) with (filter_code f). rewrite filtered_allowed.
        rewrite <- (type_at_prepT s f uc vo r (d_idx d)). unfold type_at at 1. rewrite Ha. reflexivity. }
      split.
      * assert (Eidx : map (@nb_idx N) (a_nbrs a') = map (@d_idx N) ks).
        { eapply Forall2_map_eq; [exact F|]. simpl. intros; tauto. }
        rewrite Eidx. unfold ks. apply NoDup_map_filter.
        eapply Permutation_NoDup; [|apply (@cands_NoDup N nleb sT r i)].
        apply Permutation_map. now symmetry.
      * intros e. split.
        -- intros He. destruct (Forall2_in_r F He) as (d & Hd & H1 & H2 & H3 & H4).
           unfold ks in Hd. apply filter_In in Hd. destruct Hd as [_ Hd]. apply Ekeep in Hd.
           rewrite H2. unfold sT in H1. rewrite view_prepT in H1. rewrite <- H3 in Hd. tauto.
        -- intros (H1 & H2 & H3 & H4).
           set (d := mkDatom (N := N) (nb_dist e) (nb_idx e)).
           assert (Hd : In d ks).
           { unfold ks. apply filter_In. split.
             - eapply Permutation_in; [symmetry; exact Hp|]. apply cands_view; auto. exists e. unfold sT. rewrite view_prepT. auto.
             - apply Ekeep. auto. }
           destruct (Forall2_in_l F Hd) as (e' & He' & E1 & E2 & E3). unfold sT in E1. rewrite view_prepT in E1.
           simpl in E1. rewrite H1 in E1. injection E1 as <-. exact He'.
    + destruct L as (i & Hi & HF). rewrite length_prepT in Hi. split.
      { destruct HT as (-> & _). reflexivity. }
      exists i. split; auto. destruct HF as [HF|HF]; auto. right.
      eapply few_of; [exact HT2|exact HF].
  - destruct L as (-> & i & L). split; auto. exists i. change (s_nd (prepT s f uc vo r)) with r in L. now rewrite Ecand in L.
Qed.

Lemma adaptive_all s f (t pad : N) (k : Z) (c : cut N) :
  c = CutAdaptive _ \/ (exists z, c = CutVal z /\ neqb z n0 = true) ->
  stored s -> two_way s -> nltb t n1 = false -> (s_nop s <= 4000)%Z ->
  match find_neighbors srt voro area_pow inv s (mkArgs (MCutoff c) f t pad k) with
  | Ok (s', None) => s_found s' = true /\ length (s_atoms s') = length (s_atoms s) /\
      forall i a, nth_error (s_atoms s) i = Some a -> exists a', nth_error (s_atoms s') i = Some a' /\
        same_atom a' a /\ adaptive_views s i k pad (guess_distance s t) f (a_nbrs a')
  | Ok (s', Some e) => e = RuntimeError /\ s_found s' = s_found s /\
      exists i, i < length (s_atoms s) /\ ((k < 0)%Z \/ few_views s (guess_distance s t) i k)
  | Err e => e = UB
  end.
Proof.
  intros Hcut St HT Et Hnop. pose proof (@adaptive_find_views s f t pad k St HT Hnop) as H. cbv zeta in H.
  assert (G : find_neighbors srt voro area_pow inv s (mkArgs (MCutoff c) f t pad k) =
    ('(s, ok) <- get_all_neighbors_adaptive srt (s <| s_atoms := map (@reset_atom_all N) (s_atoms s) |>
      <| s_filter := filter_code f |> <| s_usecells := Z.ltb 4000 (s_nop s) |>) t k pad ;;
          if ok then found s else Ok (s, Some RuntimeError))).
  { unfold find_neighbors. rewrite (reset_stored St). cbn [bind]. cbv zeta.
    cbn [fa_method fa_filter fa_threshold fa_nlimit fa_padding].
    destruct Hcut as [->|(z & -> & Ez)].
    - rewrite Et. reflexivity.
    - rewrite Ez, Et. reflexivity. }
  rewrite G. destruct (get_all_neighbors_adaptive _ _ _ _ _) as [[s' [|]]|e]; cbn [bind].
  - unfold found. destruct H as [HL' H]. split; [reflexivity|]. split; [exact HL'|exact H].
  - destruct H as [H1 H2]. auto.
  - tauto.
Qed.
End M.
