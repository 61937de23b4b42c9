(** Proofs about centrosymmetry. *)
From Coq Require Import Reals ZArith List Lia Lra Permutation Sorted.
From Verif Require Import Base Num NumR Types M_Geometry S_Geometry P_Geometry M_Container
  M_Neighbors P_Container S_Neighbors P_Neighbors P_Temp P_Cells P_Search P_FindN S_Steinhardt
  M_Steinhardt P_QRun P_Diamond M_Local S_Local.
Import ListNotations.
Close Scope R_scope.
Set Implicit Arguments.
Unset Strict Implicit.
#[local] Opaque abs_distance_ij.
#[local] Arguments max_nbrs : simpl never.

(** ** Smallest sums *)
Section Smallest.
Local Open Scope R_scope.

Lemma Rsum_app l l' : Rsum (l ++ l') = Rsum l + Rsum l'.
Proof. unfold Rsum. rewrite fold_right_app. induction l; simpl; [lra|]. rewrite IHl. lra. Qed.
Lemma Rsum_perm l l' : Permutation l l' -> Rsum l = Rsum l'.
Proof. induction 1; simpl; lra. Qed.

(** The first k of a sorted list have the smallest sum. *)
Lemma sorted_smallest (l : list R) k xs ys :
  StronglySorted Rle l -> Permutation l (xs ++ ys) -> length xs = k ->
  Rsum (firstn k l) <= Rsum xs.
Proof.
  intros HS. revert k xs ys. induction HS as [|x l HS IH Hx]; intros k xs ys P HL.
  - apply Permutation_nil in P. apply app_eq_nil in P as [-> ->]. simpl in HL. subst k. simpl. lra.
  - destruct k as [|k].
    { apply length_zero_iff_nil in HL. subst xs. simpl. lra. }
    cbn [firstn]. assert (Hin : In x (xs ++ ys)) by (eapply Permutation_in; [exact P|now left]).
    apply in_app_iff in Hin as [Hin|Hin].
    + apply in_split in Hin as (x1 & x2 & ->). rewrite app_length in HL. cbn [length] in HL.
      assert (E : Permutation l ((x1 ++ x2) ++ ys)).
      { apply Permutation_cons_inv with (a := x). etransitivity; [exact P|].
        rewrite <- !app_assoc. simpl. symmetry. apply Permutation_middle. }
      specialize (IH k _ _ E). rewrite app_length in IH. rewrite !Rsum_app in *. simpl in *.
      specialize (IH ltac:(lia)). lra.
    + destruct xs as [|y xs]; [discriminate|]. simpl in HL.
      apply in_split in Hin as (y1 & y2 & ->).
      assert (E : Permutation l (xs ++ (y :: y1 ++ y2))).
      { apply Permutation_cons_inv with (a := x). etransitivity; [exact P|].
        simpl. etransitivity; [apply perm_skip, Permutation_app_head; symmetry; apply Permutation_middle|].
        etransitivity; [apply perm_skip; symmetry; apply Permutation_middle|].
        etransitivity; [apply perm_swap|]. apply perm_skip.
        etransitivity; [|symmetry; apply Permutation_app_comm]. simpl. apply perm_skip.
        apply Permutation_app_comm. }
      specialize (IH k xs _ E ltac:(lia)).
      assert (x <= y).
      { rewrite Forall_forall in Hx. apply Hx. eapply Permutation_in; [symmetry; exact E|].
        apply in_or_app. right. now left. }
      simpl. lra.
Qed.

Lemma smallest_sum_firstn (l ws : list R) k : Permutation l ws -> StronglySorted Rle l -> (k <= length l)%nat ->
  smallest_sum k ws (Rsum (firstn k l)).
Proof.
  intros P HS Hk. split.
  - exists (firstn k l), (skipn k l). rewrite firstn_skipn. split; [now symmetry|]. split; auto.
    now apply firstn_length_le.
  - intros xs ys P2 HL. apply (@sorted_smallest l k xs ys); auto. exact (Permutation_trans P P2).
Qed.
Lemma smallest_sum_unique k ws c c' : smallest_sum k ws c -> smallest_sum k ws c' -> c = c'.
Proof.
  intros [(xs & ys & P & HL & <-) H1] [(xs' & ys' & P' & HL' & <-) H2].
  apply Rle_antisym; eauto.
Qed.
Lemma smallest_sum_perm k ws ws' c : Permutation ws ws' -> smallest_sum k ws c -> smallest_sum k ws' c.
Proof.
  intros P [(xs & ys & P' & HL & E) H]. split.
  - exists xs, ys. split; [exact (Permutation_trans (Permutation_sym P) P')|]. now split.
  - intros xs' ys' Q HL'. apply (H xs' ys'); auto. exact (Permutation_trans P Q).
Qed.

(** ** Pairings *)
Lemma sum_sq_comm u v : sum_sq u v = sum_sq v u.
Proof. unfold sum_sq, len2. ring. Qed.
Lemma sum_sq_nonneg u v : 0 <= sum_sq u v.
Proof. apply len2_nonneg. Qed.
Lemma pair_values_perm vs vs' : Permutation vs vs' -> Permutation (pair_values vs) (pair_values vs').
Proof.
  induction 1 as [|x l l' P IH|x y l|l1 l2 l3 P1 IH1 P2 IH2]; simpl; auto.
  - apply Permutation_app; auto. now apply Permutation_map.
  - rewrite sum_sq_comm. apply perm_skip. rewrite !app_assoc. apply Permutation_app_tail.
    apply Permutation_app_comm.
  - etransitivity; eauto.
Qed.
Lemma pair_values_pairing ps : exists ys,
  Permutation (pair_values (flat_map (fun p => [fst p; snd p]) ps)) (map (fun p => sum_sq (fst p) (snd p)) ps ++ ys).
Proof.
  induction ps as [|[u v] ps (ys & IH)]; [exists []; constructor|].
  cbn [flat_map app pair_values map fst snd]. eexists. apply perm_skip.
  etransitivity; [apply Permutation_app_head, Permutation_app_head; exact IH|].
  etransitivity; [apply Permutation_app_head, Permutation_app_swap_app|].
  apply Permutation_app_swap_app.
Qed.
Lemma pairing_length vs ps : pairing vs ps -> length vs = (2 * length ps)%nat.
Proof.
  intros P. rewrite (Permutation_length P). clear. induction ps; simpl; auto. rewrite IHps. lia.
Qed.
Lemma smallest_le_pairing k vs ps c : smallest_sum k (pair_values vs) c -> pairing vs ps -> length vs = (2 * k)%nat ->
  c <= pairing_value ps.
Proof.
  intros [_ H] P HL. destruct (pair_values_pairing ps) as [ys Q]. apply (H _ ys).
  - etransitivity; [apply pair_values_perm, P|exact Q].
  - rewrite map_length. apply pairing_length in P. lia.
Qed.
Lemma opposites_zero ps : opposites ps -> pairing_value ps = 0.
Proof.
  unfold pairing_value. induction 1 as [|p ps (A & B & C) _ IH]; simpl; auto. rewrite IH.
  unfold sum_sq. rewrite A, B, C. unfold len2. ring.
Qed.
Lemma pair_values_nonneg vs x : In x (pair_values vs) -> 0 <= x.
Proof.
  induction vs as [|v vs IH]; simpl; [tauto|]. rewrite in_app_iff, in_map_iff.
  intros [(w & <- & _)|H]; auto using sum_sq_nonneg.
Qed.
Lemma Rsum_nonneg l : (forall x, In x l -> 0 <= x) -> 0 <= Rsum l.
Proof. intros H. induction l; simpl; [lra|]. pose proof (H a (or_introl eq_refl)). specialize (IHl (fun x h => H x (or_intror h))). lra. Qed.
Lemma smallest_nonneg k vs c : smallest_sum k (pair_values vs) c -> 0 <= c.
Proof.
  intros [(xs & ys & P & _ & <-) _]. apply Rsum_nonneg. intros x Hx. apply (@pair_values_nonneg vs).
  eapply Permutation_in; [symmetry; exact P|]. apply in_or_app. now left.
Qed.
Lemma pair_values_length vs : (2 * length (pair_values vs) = length vs * (length vs - 1))%nat.
Proof.
  induction vs as [|v vs IH]; simpl; auto. rewrite app_length, map_length.
  destruct (length vs) as [|n]; simpl in *; [lia|]. rewrite Nat.sub_0_r in *. nia.
Qed.
Lemma pair_values_map (f : v3 Rnum -> v3 Rnum) vs : (forall u v, sum_sq (f u) (f v) = sum_sq u v) ->
  pair_values (map f vs) = pair_values vs.
Proof.
  intros H. induction vs as [|v vs IH]; simpl; auto. rewrite IH. f_equal. rewrite map_map. apply map_ext. auto.
Qed.
Lemma orthogonal_sum_sq m u v : orthogonal m -> sum_sq (mvmul m u) (mvmul m v) = sum_sq u v.
Proof.
  unfold orthogonal. destruct m as [[a b c] [d e f] [g h i]]. destruct u as [x y z], v as [x' y' z'].
  cbn. intros (A & B & C & D & E & F). unfold sum_sq, mvmul, vdot, len2; cbn. 
  change (carrier Rnum) with R in *.
  set (X := x + x'). set (Y := y + y'). set (Z := z + z').
  transitivity ((a*a+d*d+g*g) * X^2 + (b*b+e*e+h*h) * Y^2 + (c*c+f*f+i*i) * Z^2
    + 2 * (a*b+d*e+g*h) * (X*Y) + 2 * (a*c+d*f+g*i) * (X*Z) + 2 * (b*c+e*f+h*i) * (Y*Z)).
  - unfold X, Y, Z. ring.
  - rewrite A, B, C, D, E, F. unfold X, Y, Z. ring.
Qed.

(** ** The value of one atom *)
Lemma norm_sq (v : v3 Rnum) : (norm v * norm v = len2 (vx v) (vy v) (vz v))%R.
Proof. rewrite norm_eucl. unfold eucl. apply sqrt_sqrt, len2_nonneg. Qed.
Lemma pair_lengths_values (vs : list (v3 Rnum)) : map (fun d : R => d * d) (pair_lengths vs) = pair_values vs.
Proof.
  induction vs as [|v vs IH]; simpl; auto. rewrite map_app, IH. f_equal. rewrite map_map. apply map_ext.
  intros w. exact (norm_sq (vadd v w)).
Qed.
Lemma pair_lengths_nonneg (vs : list (v3 Rnum)) x : In x (pair_lengths vs) -> 0 <= x.
Proof.
  induction vs as [|v vs IH]; cbn [pair_lengths In]; [tauto|]. rewrite in_app_iff, in_map_iff.
  intros [(w & <- & _)|H]; auto. rewrite norm_eucl. apply sqrt_pos.
Qed.
End Smallest.

Lemma map_dist_temp {N : num} (a : atom N) :
  map (@d_dist N) (centro_temp a) = pair_lengths (map (@nb_vec N) (a_nbrs a)).
Proof.
  unfold centro_temp. rewrite map_map. cbn [d_dist]. generalize (pair_lengths (map (@nb_vec N) (a_nbrs a))).
  intros l. generalize 0. induction l as [|x l IH]; intros k; simpl; f_equal. apply IH.
Qed.

Lemma fold_get_sq {N : num} (temp : list (datom N)) k j (x : N) : j + k <= length temp ->
  foldM (fun csym i => t <- get temp i ;; Ok (nadd csym (nmul (d_dist t) (d_dist t)))) (seq j k) x =
  Ok (fold_left nadd (map (fun d => nmul (d_dist d) (d_dist d)) (firstn k (skipn j temp))) x).
Proof.
  revert j x. induction k as [|k IH]; intros j x H; [reflexivity|].
  destruct (nth_error temp j) as [d|] eqn:E; [|apply nth_error_None in E; lia].
  cbn [seq foldM]. rewrite (get_Ok E). cbn [bind]. rewrite IH by lia.
  assert (Q : skipn j temp = d :: skipn (S j) temp).
  { clear -E. revert j E. induction temp as [|y l IHl]; intros [|j]; simpl; try discriminate.
    - now intros [= ->].
    - intros E. apply IHl in E. exact E. }
  rewrite Q. reflexivity.
Qed.
Lemma fold_get_short {N : num} (temp : list (datom N)) k (x : N) : length temp < k ->
  foldM (fun csym i => t <- get temp i ;; Ok (nadd csym (nmul (d_dist t) (d_dist t)))) (seq 0 k) x = Err UB.
Proof.
  intros H. replace k with (length temp + (k - length temp)) by lia.
  rewrite seq_app. assert (G : forall l (y : N), foldM (fun csym i => t <- get temp i ;; Ok (nadd csym (nmul (d_dist t) (d_dist t)))) (seq 0 (length temp) ++ l) y =
    foldM (fun csym i => t <- get temp i ;; Ok (nadd csym (nmul (d_dist t) (d_dist t)))) l (fold_left nadd (map (fun d => nmul (d_dist d) (d_dist d)) temp) y)).
  { intros l y. pose proof (@fold_get_sq N temp (length temp) 0 y ltac:(lia)) as E.
    simpl skipn in E. rewrite firstn_all in E. revert y E. generalize (seq 0 (length temp)).
    intros l0 y. generalize (fold_left nadd (map (fun d => nmul (d_dist d) (d_dist d)) temp) y). revert y.
    induction l0 as [|i l0 IH]; intros y z; cbn [foldM app].
    - now intros [= ->].
    - destruct (get temp i); cbn [bind]; [apply IH|discriminate]. }
  rewrite G. destruct (k - length temp) as [|m] eqn:Em; [lia|]. cbn [seq foldM plus].
  assert (E : get temp (length temp) = Err UB).
  { unfold get. destruct (nth_error temp (length temp)) eqn:E; auto.
    assert (length temp < length temp) by (apply nth_error_Some; congruence). lia. }
  rewrite E. reflexivity.
Qed.

Section One.
Variable srt : list (datom Rnum) -> list (datom Rnum).
Hypothesis Hsrt : sorts srt.
Local Open Scope R_scope.

Lemma fold_nadd_R (l : list R) (x : R) : fold_left (@nadd Rnum) l x = (x + Rsum l).
Proof. change (fold_left (@nadd Rnum)) with (fold_left Rplus). apply fold_left_Rplus. Qed.

Theorem centro_value_run (nmax : Z) (a : atom Rnum) : 
  match centro_value srt nmax a with
  | Ok c => (Z.to_nat (nmax / 2) <= length (pair_values (map (@nb_vec Rnum) (a_nbrs a))))%nat /\
      smallest_sum (Z.to_nat (nmax / 2)) (pair_values (map (@nb_vec Rnum) (a_nbrs a))) c
  | Err e => e = UB /\ (length (pair_values (map (@nb_vec Rnum) (a_nbrs a))) < Z.to_nat (nmax / 2))%nat
  end.
Proof.
  unfold centro_value. cbv zeta. set (k := Z.to_nat (nmax / 2)). set (vs := map _ (a_nbrs a)).
  destruct (Hsrt (centro_temp a)) as [P HS].
  assert (PD : Permutation (map (fun d => d_dist d * d_dist d) (srt (centro_temp a))) (pair_values vs)).
  { rewrite <- pair_lengths_values. unfold vs. rewrite <- map_dist_temp, map_map. now apply Permutation_map. }
  assert (HL : length (srt (centro_temp a)) = length (pair_values vs)) by (rewrite <- (Permutation_length PD); now rewrite map_length).
  destruct (Nat.le_gt_cases k (length (pair_values vs))) as [Hk|Hk].
  - rewrite fold_get_sq by (rewrite HL; lia). rewrite fold_nadd_R. split; auto.
    change (@n0 Rnum) with 0. rewrite Rplus_0_l. simpl skipn. rewrite <- firstn_map.
    apply smallest_sum_firstn; auto; [|rewrite map_length; lia].
    assert (HN : forall d, In d (srt (centro_temp a)) -> 0 <= d_dist d).
    { intros d Hd. apply (Permutation_in _ P) in Hd. apply (in_map (@d_dist Rnum)) in Hd. rewrite map_dist_temp in Hd.
      eapply pair_lengths_nonneg; eauto. }
    clear -HS HN. induction HS as [|d l HS IH Hd]; cbn [map]; constructor.
    + apply IH. intros x Hx. apply HN. now right.
    + rewrite Forall_forall in *. intros y Hy. apply in_map_iff in Hy as (x & <- & Hx). specialize (Hd x Hx).
      apply Rltb_false in Hd. pose proof (HN d (or_introl eq_refl)). apply Rmult_le_compat; auto.
  - rewrite fold_get_short by lia. split; auto.
Qed.

Lemma pair_values_one vs k : length vs = (2 * k)%nat -> (k <= length (pair_values vs))%nat.
Proof. intros H. pose proof (pair_values_length vs). destruct k; nia. Qed.
End One.

(** ** The whole system *)
Section Frame.
Variable N : num.
Implicit Types l : list (atom N).
Lemma process_frame (s : sys N) l i j l' : process_neighbor s l i j = Ok l' ->
  forall k, k <> i -> nth_error l' k = nth_error l k.
Proof.
  unfold process_neighbor. destruct (get l i); cbn [bind]; [|discriminate].
  destruct (get l j); cbn [bind]; [|discriminate]. destruct (abs_distance_ij _ _ _) as [d v].
  unfold push_nbr. repeat (destruct (get _ _); cbn [bind]; [|discriminate]).
  destruct (_ <? _); [|discriminate]. intros [= <-] k Hk. rewrite nth_error_upd.
  apply Nat.eqb_neq in Hk. now rewrite Hk.
Qed.
Variable srt : list (datom N) -> list (datom N).
Lemma bynumber_frame (s : sys N) nns l i l' ok : bynumber_atom srt s nns true l i = Ok (l', ok) ->
  (ok = false -> l' = l) /\ forall k, k <> i -> nth_error l' k = nth_error l k.
Proof.
  unfold bynumber_atom. destruct (get l i) as [a|]; cbn [bind]; [|discriminate].
  destruct (size_lt _ _); [intros [= <- <-]; auto|].
  destruct (get (sort_temp srt l i) i) as [a1|]; cbn [bind]; [|discriminate].
  assert (Q : forall (ds : list (datom N)) l1 l2, foldM (fun l d => process_neighbor s l i (d_idx d)) ds l1 = Ok l2 ->
    forall k, k <> i -> nth_error l2 k = nth_error l1 k).
  { induction ds as [|d ds IH]; intros l1 l2; cbn [foldM]; [now intros [= <-]|].
    destruct (process_neighbor s l1 i (d_idx d)) eqn:E; cbn [bind]; [|discriminate].
    intros H k Hk. rewrite (IH _ _ H k Hk). eapply process_frame; eauto. }
  destruct (foldM _ _ _) eqn:E; cbn [bind]; [|discriminate]. intros [= <- <-]. split; [discriminate|].
  intros k Hk. rewrite (Q _ _ _ E k Hk). unfold sort_temp. rewrite nth_error_upd. apply Nat.eqb_neq in Hk. now rewrite Hk.
Qed.
Lemma process_len (s : sys N) l i j l' : process_neighbor s l i j = Ok l' -> length l' = length l.
Proof.
  unfold process_neighbor. destruct (get l i); cbn [bind]; [|discriminate].
  destruct (get l j); cbn [bind]; [|discriminate]. destruct (abs_distance_ij _ _ _) as [d v].
  unfold push_nbr. repeat (destruct (get _ _); cbn [bind]; [|discriminate]).
  destruct (_ <? _); [|discriminate]. intros [= <-]. apply length_upd.
Qed.
Lemma loop_len (s : sys N) nns is l l' ok : 
  loop_atoms (bynumber_atom srt s nns true) is l = Ok (l', ok) -> length l' = length l.
Proof.
  revert l. induction is as [|i is IH]; intros l; cbn [loop_atoms]; [now intros [= <- <-]|].
  destruct (bynumber_atom srt s nns true l i) as [[l1 b]|] eqn:E; cbn [bind]; [|discriminate].
  assert (E1 : length l1 = length l).
  { revert E. unfold bynumber_atom. destruct (get l i) as [a|]; cbn [bind]; [|discriminate].
    destruct (size_lt _ _); [now intros [= <- <-]|].
    destruct (get (sort_temp srt l i) i) as [a1|]; cbn [bind]; [|discriminate].
    assert (Q : forall (ds : list (datom N)) l1 l2, foldM (fun l d => process_neighbor s l i (d_idx d)) ds l1 = Ok l2 ->
      length l2 = length l1).
    { induction ds as [|d ds IH2]; intros l3 l2; cbn [foldM]; [now intros [= <-]|].
      destruct (process_neighbor s l3 i (d_idx d)) eqn:E; cbn [bind]; [|discriminate].
      intros H. rewrite (IH2 _ _ H). eapply process_len; eauto. }
    destruct (foldM _ _ _) eqn:E; cbn [bind]; [|discriminate]. intros [= <- <-]. rewrite (Q _ _ _ E). apply length_upd. }
  destruct b; [|now intros [= <- <-]]. intros H. rewrite (IH _ H). exact E1.
Qed.
Lemma bynumber_stop (s : sys N) nns is l l' : NoDup is ->
  loop_atoms (bynumber_atom srt s nns true) is l = Ok (l', false) ->
  exists i, In i is /\ nth_error l' i = nth_error l i.
Proof.
  revert l. induction is as [|i is IH]; intros l ND; cbn [loop_atoms]; [discriminate|].
  inversion ND as [|? ? Hi ND']; subst.
  destruct (bynumber_atom srt s nns true l i) as [[l1 ok]|] eqn:E; cbn [bind]; [|discriminate].
  apply bynumber_frame in E as [E1 E2]. destruct ok.
  - intros H. destruct (IH _ ND' H) as (j & Hj & Ej). exists j. split; [now right|]. rewrite Ej. apply E2. congruence.
  - intros [= <-]. exists i. split; [now left|]. now rewrite E1.
Qed.
End Frame.

From Verif Require Import S_CNA P_CNA P_CNARun.
Section System.
Variable srt : list (datom Rnum) -> list (datom Rnum).
Hypothesis Hsrt : sorts srt.

Lemma link_geo (s t : sys Rnum) i j : same_geometry s t -> link t i j = link s i j.
Proof.
  intros [HC HP]. unfold link.
  pose proof (f_equal (fun l => nth_error l i) HP) as Hi. pose proof (f_equal (fun l => nth_error l j) HP) as Hj.
  cbv beta in Hi, Hj. rewrite !nth_error_map in Hi, Hj.
  destruct (nth_error (s_atoms t) i), (nth_error (s_atoms s) i); simpl in Hi; try discriminate; auto.
  destruct (nth_error (s_atoms t) j), (nth_error (s_atoms s) j); simpl in Hj; try discriminate; auto.
  apply Some_inj in Hi, Hj. rewrite <- Hi, <- Hj, !(ce_ij _ _ HC). reflexivity.
Qed.
Lemma nearest_geo (s t : sys Rnum) i k l : same_geometry s t -> nearest t i k l -> nearest s i k l.
Proof.
  intros G (H1 & H2 & H3 & H4 & H5). split; auto. split.
  { intros e He. rewrite <- (H2 e He). symmetry. now apply link_geo. }
  split; auto. split; auto. intros j e He. apply H5. now rewrite (link_geo _ _ G).
Qed.
Lemma few_geo (s t : sys Rnum) (cmp : R -> R -> bool) r i k : same_geometry s t -> cmp_ok cmp ->
  (Z.of_nat (length (cands (N := Rnum) cmp t r i)) < k)%Z -> few_within s r i k.
Proof.
  intros G [_ Hc] H js ND Hjs. apply Z.le_lt_trans with (2 := H). apply inj_le.
  rewrite <- (map_length (@d_idx Rnum)). apply NoDup_incl_length; auto.
  intros j Hj. destruct (Hjs j Hj) as (e & He & Hd). apply in_map_iff.
  exists (mkDatom (N := Rnum) (nb_dist e) j). split; auto. apply In_cands. exists e.
  rewrite (link_geo _ _ G). simpl. repeat split; auto.
  destruct (cmp (nb_dist e) r) eqn:E; auto. apply Hc in E. lra.
Qed.

(** The search of calculate_centrosymmetry. *)
Definition cs_prep (s : sys Rnum) : sys Rnum :=
  s <| s_atoms := map (@reset_atom_all Rnum) (s_atoms s) |> <| s_vorused := false |>
    <| s_nd := guess_distance (N := Rnum) s (nofZ 3) |>.
Lemma cs_prep_geo s : same_geometry s (cs_prep s).
Proof. split; [reflexivity|]. cbn. now rewrite map_map. Qed.

Lemma cs_search (s : sys Rnum) (k : Z) : stored s -> nonneg3 (s_len s) -> (0 <= k)%Z ->
  (s_usecells s = true -> cells_ok s (guess_distance (N := Rnum) s (nofZ 3))) ->
  match s <- reset_all_neighbors s ;; get_all_neighbors_bynumber srt s (nofZ 3) k true with
  | Ok (t, true) => same_geometry s t /\
      (forall i a, nth_error (s_atoms s) i = Some a -> exists a', nth_error (s_atoms t) i = Some a' /\
        same_atom a' a /\ nearest s i (Z.to_nat k) (a_nbrs a'))
  | Ok (t, false) => stored t /\ (exists i, i < length (s_atoms s) /\ few_within s (guess_distance (N := Rnum) s (nofZ 3)) i k) /\
      exists i a, nth_error (s_atoms t) i = Some a /\ a_nbrs a = []
  | Err e => e = UB /\ (300 < k)%Z
  end.
Proof.
  intros Hst HL Hk Hc. rewrite (reset_stored Hst). cbn [bind]. unfold get_all_neighbors_bynumber. cbv zeta.
  set (r := guess_distance (N := Rnum) s (nofZ 3)) in *.
  change (guess_distance (s <| s_atoms := map (@reset_atom_all Rnum) (s_atoms s) |>) (nofZ 3)) with r.
  match goal with |- context [get_temp_neighbors ?x] => change x with (cs_prep s) end.
  pose proof (cs_prep_geo s) as G. pose proof (geo_stored G Hst) as HstT.
  assert (T : exists s2, get_temp_neighbors (cs_prep s) = Ok s2 /\ temps_ok (N := Rnum) (temp_cmp (s_usecells s)) (cs_prep s) s2).
  { unfold temp_cmp. destruct (s_usecells s) eqn:Eu.
    - apply get_temp_cells; auto. destruct (Hc eq_refl) as [W C]. split; [exact W|].
      intros a Ha. apply in_map_iff in Ha as (a0 & <- & Ha). exact (C a0 Ha).
    - now apply get_temp_brute. }
  destruct T as (s2 & -> & HT). cbn [bind].
  assert (En : Z.to_nat (s_nop s2) = length (s_atoms (cs_prep s))).
  { destruct HT as (-> & _). change (s_nop _) with (s_nop (cs_prep s)) at 1. rewrite HstT. apply Nat2Z.id. }
  rewrite En.
  assert (Hr : forall a, In a (s_atoms (cs_prep s)) -> a_nbrs a = [] /\ a_temp a = []).
  { intros a Ha. apply in_map_iff in Ha as (a0 & <- & Ha). auto. }
  pose proof (@bynumber_loop Rnum srt Hsrt _ s2 (temp_cmp (s_usecells s)) k HT Hr) as L.
  destruct (loop_atoms _ _ _) as [[l' ok]|e] eqn:EL; cbn [bind].
  - assert (EN2 : s_nop s2 = s_nop s) by (destruct HT as (-> & _); reflexivity).
    assert (EC : cell s2 = cell s) by (destruct HT as (-> & _); reflexivity).
    destruct ok.
    + destruct L as [HL' L].
      assert (HLs : length l' = length (s_atoms s)) by (rewrite HL'; apply (geo_length G)).
      assert (Q : forall i a, nth_error (s_atoms s) i = Some a -> exists a', nth_error l' i = Some a' /\
        same_atom a' a /\ nearest s i (Z.to_nat k) (a_nbrs a')).
      { intros i a Ha.
        assert (Ha1 : nth_error (s_atoms (cs_prep s)) i = Some (reset_atom_all a)).
        { unfold cs_prep. cbn. now rewrite nth_error_map, Ha. }
        destruct (L i) as (a' & Ha' & a0 & c & Ha0 & Er & Hp & Hs & Hk0 & Hk1 & _ & Hn).
        { apply nth_error_Some. congruence. }
        exists a'. split; [exact Ha'|]. rewrite Ha1 in Ha0. apply Some_inj in Ha0. subst a0.
        split; [exact Er|]. rewrite Hn. apply (nearest_geo G).
        apply nearest_cands with (cmp := temp_cmp (s_usecells s)) (r := r); auto; [apply temp_cmp_ok|lia]. }
      split; [|exact Q]. split; [symmetry; exact EC|]. cbn. apply list_by_nth; [now rewrite !map_length|].
      intros i p Hp. rewrite nth_error_map in *.
      destruct (nth_error (s_atoms s) i) as [a|] eqn:Ea.
      * destruct (Q i a Ea) as (a' & Ea' & S & _). rewrite Ea' in *. cbn in *. rewrite <- Hp. f_equal.
        first [exact (f_equal (@a_pos Rnum) S)|exact (f_equal (@a_pos Rnum) (eq_sym S))].
      * apply nth_error_None in Ea. rewrite <- HLs in Ea. apply nth_error_None in Ea. rewrite ?Ea in *. discriminate Hp.
    + split.
      { unfold stored. cbn. rewrite EN2, Hst. f_equal.
        pose proof (loop_len EL) as HH. rewrite HH. destruct HT as (_ & -> & _). symmetry. apply (geo_length G). }
      split.
      * destruct L as (i & Hi & HF). rewrite (geo_length G) in Hi. exists i. split; auto.
        destruct HF as [HF|HF]; [lia|]. eapply few_geo; [exact G|apply temp_cmp_ok|exact HF].
      * destruct (bynumber_stop (seq_NoDup _ _) EL) as (i & Hi & Ei). apply in_seq in Hi.
        destruct (nth_error_some (l := s_atoms (cs_prep s)) (i := i)) as [a Ea]; [lia|].
        destruct HT as (_ & HL2 & HT). destruct (HT i a Ea) as (a2 & Ea2 & S2 & _).
        exists i, a2. split; [now rewrite <- Ea2|]. apply (f_equal (@a_nbrs Rnum)) in S2. cbn in S2.
        rewrite S2. apply (Hr a). eapply nth_error_In; eauto.
  - destruct L as [-> L]. auto.
Qed.
End System.

(** ** Loops that update one atom at a time *)
Lemma foldM_each {A} (step : list A -> nat -> res (list A)) (f : A -> res A) :
  (forall l i a, nth_error l i = Some a -> step l i = (b <- f a ;; Ok (upd i (fun _ => b) l))) ->
  forall l1 l0, foldM step (seq (length l0) (length l1)) (l0 ++ l1) = (l <- mapM f l1 ;; Ok (l0 ++ l)).
Proof.
  intros H. induction l1 as [|a l1 IH]; intros l0; cbn [length seq foldM mapM bind]; auto.
  rewrite (H _ _ a) by (rewrite nth_error_app2, Nat.sub_diag by lia; reflexivity).
  destruct (f a) as [b|e]; cbn [bind]; auto.
  assert (E : upd (length l0) (fun _ => b) (l0 ++ a :: l1) = (l0 ++ [b]) ++ l1).
  { rewrite <- app_assoc. clear. induction l0; simpl; auto. now rewrite IHl0. }
  rewrite E. replace (S (length l0)) with (length (l0 ++ [b])) by (rewrite app_length; simpl; lia).
  rewrite IH. destruct (mapM f l1); cbn [bind]; auto. now rewrite <- app_assoc.
Qed.
Lemma foldM_each0 {A} (step : list A -> nat -> res (list A)) (f : A -> res A) l :
  (forall l i a, nth_error l i = Some a -> step l i = (b <- f a ;; Ok (upd i (fun _ => b) l))) ->
  foldM step (seq 0 (length l)) l = mapM f l.
Proof.
  intros H. etransitivity; [exact (foldM_each H l [])|]. destruct (mapM f l); reflexivity.
Qed.
Lemma upd_const {A} (f : A -> A) l i a : nth_error l i = Some a -> upd i f l = upd i (fun _ => f a) l.
Proof.
  revert i; induction l as [|x l IH]; intros [|i]; simpl; try discriminate.
  - now intros [= ->].
  - intros H. f_equal. auto.
Qed.
Lemma mapM_inv {A B} (f : A -> res B) l l' : mapM f l = Ok l' -> Forall2 (fun a b => f a = Ok b) l l'.
Proof.
  revert l'; induction l as [|a l IH]; intros l'; cbn [mapM]; [intros [= <-]; constructor|].
  destruct (f a) eqn:E; cbn [bind]; [|discriminate]. destruct (mapM f l); cbn [bind]; [|discriminate].
  intros [= <-]. constructor; auto.
Qed.
Lemma Forall2_nth_l {A B} (P : A -> B -> Prop) l l' i a : Forall2 P l l' -> nth_error l i = Some a ->
  exists b, nth_error l' i = Some b /\ P a b.
Proof.
  intros H; revert i; induction H; intros [|i]; simpl; try discriminate; eauto. intros [= <-]. eauto.
Qed.
Lemma mapM_Err {A B} (f : A -> res B) l e : mapM f l = Err e -> exists a, In a l /\ f a = Err e.
Proof.
  induction l as [|a l IH]; cbn [mapM]; [discriminate|]. destruct (f a) eqn:E; cbn [bind].
  - destruct (mapM f l); cbn [bind]; [discriminate|]. intros [= <-]. destruct IH as (x & ? & ?); auto. exists x; simpl; auto.
  - intros [= <-]. exists a; simpl; auto.
Qed.

Section Run.
Variable srt : list (datom Rnum) -> list (datom Rnum).
Hypothesis Hsrt : sorts srt.

Lemma centro_step {N : num} (s : list (datom N) -> list (datom N)) nmax l i a : nth_error l i = Some a ->
  centro_atom s nmax l i = (b <- (c <- centro_value s nmax a ;; Ok (a <| a_centro := c |>)) ;; Ok (upd i (fun _ => b) l)).
Proof.
  intros H. unfold centro_atom. rewrite (get_Ok H). cbn [bind]. destruct (centro_value s nmax a); cbn [bind]; auto.
  now rewrite (upd_const _ H).
Qed.

Theorem centro_run (s : sys Rnum) (nmax : Z) : stored s -> nonneg3 (s_len s) -> (0 < nmax)%Z -> (nmax mod 2 = 0)%Z ->
  (s_usecells s = true -> cells_ok s (guess_distance (N := Rnum) s (nofZ 3))) ->
  match calculate_centrosymmetry srt s nmax with
  | Ok t => same_geometry s t /\
      (forall i a, nth_error (s_atoms s) i = Some a -> exists a', nth_error (s_atoms t) i = Some a' /\
        nearest s i (Z.to_nat nmax) (a_nbrs a') /\
        smallest_sum (Z.to_nat (nmax / 2)) (pair_values (map (@nb_vec Rnum) (a_nbrs a'))) (a_centro a'))
  | Err e => e = UB /\ ((300 < nmax)%Z \/
      exists i, i < length (s_atoms s) /\ few_within s (guess_distance (N := Rnum) s (nofZ 3)) i nmax)
  end.
Proof.
  intros Hst HL Hk Hm Hc. pose proof (@cs_search srt Hsrt s nmax Hst HL ltac:(lia) Hc) as S.
  unfold calculate_centrosymmetry.
  destruct (reset_all_neighbors s) as [s1|e1]; cbn [bind] in *; [|destruct S as [-> S]; auto].
  destruct (get_all_neighbors_bynumber srt s1 (nofZ 3) nmax true) as [[t ok]|e]; cbn [bind]; [|destruct S as [-> S]; auto].
  assert (Hkk : (2 * Z.to_nat (nmax / 2) = Z.to_nat nmax)%nat).
  { rewrite (Z.div_mod nmax 2) at 2 by lia. rewrite Hm, Z.add_0_r, Z2Nat.inj_mul; try lia. apply Z.div_pos; lia. }
  assert (Hst2 : stored t) by (destruct ok; [exact (geo_stored (proj1 S) Hst)|apply S]).
  replace (Z.to_nat (s_nop t)) with (length (s_atoms t)) by (rewrite Hst2; symmetry; apply Nat2Z.id).
  rewrite (foldM_each0 _ (fun l i a => @centro_step Rnum srt nmax l i a)).
  destruct (mapM _ (s_atoms t)) as [l'|e] eqn:EM; cbn [bind].
  - apply mapM_inv in EM. destruct ok.
    + destruct S as [G S]. split.
      { eapply geo_trans; [exact G|]. apply geo_atoms. clear -EM. induction EM as [|x y l l' H _ IH]; cbn [map]; auto.
        rewrite IH. f_equal. destruct (centro_value srt nmax x); cbn [bind] in H; [|discriminate].
        injection H as <-. reflexivity. }
      intros i a Ha. destruct (S i a Ha) as (a2 & Ha2 & _ & Hn). destruct (Forall2_nth_l EM Ha2) as (a3 & Ha3 & E).
      exists a3. split; [exact Ha3|]. pose proof (@centro_value_run srt Hsrt nmax a2) as V.
      destruct (centro_value srt nmax a2) as [c|]; cbn [bind] in E; [|discriminate]. injection E as <-.
      split; [exact Hn|]. apply V.
    + exfalso. destruct S as (_ & _ & i & a & Ha & Hn). destruct (Forall2_nth_l EM Ha) as (a3 & Ha3 & E).
      pose proof (@centro_value_run srt Hsrt nmax a) as V. rewrite Hn in V.
      destruct (centro_value srt nmax a) as [c|]; cbn [bind] in E; [|discriminate]. destruct V as [V _].
      cbn in V. lia.
  - apply mapM_Err in EM as (a & Ha & E). pose proof (@centro_value_run srt Hsrt nmax a) as V.
    destruct (centro_value srt nmax a) as [c|]; cbn [bind] in E; [discriminate|]. injection E as <-.
    destruct V as [-> V]. split; auto. destruct ok; [exfalso|right; apply S].
    destruct S as [G S]. apply In_nth_error in Ha as [i Hi].
    destruct (nth_error_some (l := s_atoms s) (i := i)) as [a0 Ha0].
    { rewrite <- (geo_length G). apply nth_error_Some. congruence. }
    destruct (S i a0 Ha0) as (a1 & Ha1 & _ & Hn). rewrite Hi in Ha1. apply Some_inj in Ha1. subst a1.
    destruct Hn as [Hn _]. rewrite <- (map_length (@nb_vec Rnum)) in Hn. rewrite <- Hkk in Hn.
    apply pair_values_one in Hn. lia.
Qed.
End Run.

(** ** Never negative, in binary64 as well *)
From Coq Require Import Floats.SpecFloat.
From Verif Require Import NumF P_Order.
Close Scope Z_scope.
Definition nonneg_sf (x : spec_float) : Prop :=
  match x with S754_finite true _ _ | S754_infinity true => False | _ => True end.
Lemma nonneg_sf_ltb x : nonneg_sf x -> SFltb x (sf_ofZ 0) = false.
Proof. destruct x as [| [] | | []]; cbn; tauto || auto. Qed.
Lemma round_aux_nonneg p e m ex l : nonneg_sf (binary_round_aux p e false m ex l).
Proof.
  unfold binary_round_aux. destruct (shr_fexp _ _ _ _ _) as [mrs e']. destruct (shr_fexp _ _ _ _ _) as [mrs' e''].
  destruct (shr_m mrs'); cbn; auto. destruct (_ <=? _)%Z; cbn; auto.
Qed.
Lemma sf_square_nonneg x : nonneg_sf (sf_mul x x).
Proof.
  destruct x as [s|s| |s m e]; cbn; auto; rewrite ?Bool.xorb_nilpotent; cbn; auto. apply round_aux_nonneg.
Qed.
Lemma sf_add_nonneg x y : nonneg_sf x -> nonneg_sf y -> nonneg_sf (sf_add x y).
Proof.
  destruct x as [s|[]| |[] m e], y as [s'|[]| |[] m' e']; cbn [nonneg_sf]; try tauto; intros _ _;
    unfold sf_add, SFadd; try (destruct (Bool.eqb _ _)); cbn [nonneg_sf]; auto.
  match goal with |- nonneg_sf (binary_normalize _ _ ?z _ _) => destruct z as [|q|q] eqn:E end; cbn [binary_normalize nonneg_sf]; auto.
  - clear E. unfold binary_round. destruct (shl_align _ _ _) as [mz ez]. apply round_aux_nonneg.
  - exfalso. revert E. unfold cond_Zopp. lia.
Qed.

Lemma fold_sq_nonneg_sf (L : libm) (l : list (SF64 L)) (x : SF64 L) : nonneg_sf x ->
  nonneg_sf (fold_left nadd (map (fun d => nmul d d) l) x).
Proof.
  revert x. induction l as [|d l IH]; intros x H; auto. apply IH. apply sf_add_nonneg; auto. apply sf_square_nonneg.
Qed.
Lemma fold_sq_nonneg {N : num} (l : list N) : machine N ->
  nltb (fold_left nadd (map (fun d => nmul d d) l) n0) n0 = false.
Proof.
  intros [-> | [L ->]].
  - apply Rltb_false. rewrite fold_nadd_R. change (@n0 Rnum) with 0%R. rewrite Rplus_0_l. apply Rsum_nonneg.
    intros x Hx. apply in_map_iff in Hx as (d & <- & _). apply Rle_0_sqr.
  - apply nonneg_sf_ltb. apply fold_sq_nonneg_sf. exact I.
Qed.
Lemma centro_value_nonneg {N : num} srt nmax (a : atom N) c : machine N -> centro_value srt nmax a = Ok c -> nltb c n0 = false.
Proof.
  intros HN. unfold centro_value. cbv zeta. set (k := Z.to_nat _).
  destruct (Nat.le_gt_cases k (length (srt (centro_temp a)))) as [H|H].
  - rewrite fold_get_sq by lia. intros [= <-]. rewrite <- (map_map (@d_dist N) (fun d => nmul d d)). now apply fold_sq_nonneg.
  - rewrite fold_get_short by lia. discriminate.
Qed.
Theorem centro_nonneg {N : num} srt (s : sys N) nmax t : machine N -> calculate_centrosymmetry srt s nmax = Ok t ->
  forall i, i < Z.to_nat (s_nop t) -> exists a, nth_error (s_atoms t) i = Some a /\ nltb (a_centro a) n0 = false.
Proof.
  intros HN. unfold calculate_centrosymmetry. destruct (reset_all_neighbors s) as [s1|]; cbn [bind]; [|discriminate].
  destruct (get_all_neighbors_bynumber _ _ _ _ _) as [[u ok]|]; cbn [bind]; [|discriminate].
  destruct (foldM _ _ _) as [l|] eqn:E; cbn [bind]; [|discriminate]. intros [= <-]. cbn.
  assert (Q : forall is l0 l', foldM (centro_atom srt nmax) is l0 = Ok l' ->
    forall i, In i is \/ (exists a, nth_error l0 i = Some a /\ nltb (a_centro a) n0 = false) ->
      exists a, nth_error l' i = Some a /\ nltb (a_centro a) n0 = false).
  { induction is as [|j is IH]; intros l0 l'; cbn [foldM].
    - intros [= <-] i [[]|H]; auto.
    - destruct (nth_error l0 j) as [a|] eqn:Ea; [|unfold centro_atom, get at 1; rewrite Ea; discriminate].
      rewrite (centro_step _ _ Ea). destruct (centro_value srt nmax a) as [c|] eqn:Ec; cbn [bind]; [|discriminate].
      intros H i Hi. apply (IH _ _ H). rewrite nth_error_upd. destruct (Nat.eqb_spec i j) as [->|Hij].
      + right. rewrite Ea. cbn. eexists. split; [reflexivity|]. cbn. eapply centro_value_nonneg; eauto.
      + destruct Hi as [[Hi|Hi]|Hi]; auto. congruence. }
  intros i Hi. apply (Q _ _ _ E). left. apply in_seq. lia.
Qed.
