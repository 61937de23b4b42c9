(** Property C21 continued: what the sann method finds. *)
From Coq Require Import Reals Lra ZArith Lia Permutation Sorted.
From Verif Require Import Base Num NumR NumF NumP Types Ex M_Geometry M_Container M_Neighbors S_Geometry S_Neighbors
  S_Sann P_Geometry P_Box P_Neighbors P_Search P_FindN P_Sann C_Neighbors.
Close Scope R_scope. Close Scope Z_scope.

(** What a search finds.  A successful call gives every atom the list of
    [skip_rule]; it fails with RuntimeError only if some atom has fewer than
    four atoms within nine times the first guess; and it reads outside the
    candidate list, or writes outside the neighbour arrays, only if the loop
    of some atom does not stop: within all its candidates (four or more), or
    within more than 300 of them. *)
Theorem C21_what_is_found :
  forall srt, sorts srt -> forall voro area_pow inv (s : sys Rnum) (f : filt) (t pad : R) (nl : Z),
  stored s -> nonneg3 (s_len s) -> (1 <= t)%R ->
  ((4000 < s_real s)%Z -> forall z, (1 <= z <= 9)%Z -> cells_ok s (guess_distance s (t * IZR z)%R)) ->
  match find_neighbors srt voro area_pow inv s (mkArgs (N := Rnum) (MCutoff (CutSann _)) f t pad nl) with
  | Ok (s', None) => s_found s' = true /\ length (s_atoms s') = length (s_atoms s) /\
      forall i a, nth_error (s_atoms s) i = Some a ->
        exists a', nth_error (s_atoms s') i = Some a' /\ same_atom a' a /\ skip_rule s i (a_nbrs a')
  | Ok (s', Some e) => e = RuntimeError /\ s_found s' = s_found s /\
      exists i, i < length (s_atoms s) /\ few_within s (guess_distance s (t * 9)%R) i 4
  | Err e => e = UB /\ exists z i n, (1 <= z <= 9)%Z /\ i < length (s_atoms s) /\ never_stops s i n /\
      (3 < n /\ count_within s i n (fun d =>
         if Z.ltb 4000 (s_real s) then (d < guess_distance s (t * IZR z)%R)%R
         else (d <= guess_distance s (t * IZR z)%R)%R) \/ 300 < n)
  end.
Proof.
  intros srt Hs voro area_pow inv s f t pad nl St HL Ht Hc.
  pose proof (@sann_find srt Hs voro area_pow inv s f t pad nl St HL Ht Hc) as H.
  destruct (find_neighbors _ _ _ _ _ _) as [[s' [e|]]|e]; auto.
  destruct H as (-> & z & Hz & i & Hi & n & Hn & Hx). split; auto. exists z, i, n.
  split; auto. split; auto. split; auto. destruct Hx as [(H3 & js & J1 & J2 & J3)|Hx]; auto.
  left. split; auto. exists js. split; auto. split; auto. intros j. rewrite J3. unfold temp_cmp.
  destruct (Z.ltb 4000 (s_real s)); split; intros (e & He & Hd); exists e; (split; [exact He|]).
  - now apply Rltb_true in Hd.
  - now apply Rltb_true.
  - now apply Rleb_true in Hd.
  - now apply Rleb_true.
Qed.
Print Assumptions C21_what_is_found.

Lemma length_taken s i m near : 3 <= m -> nearest s i (S m) near -> length (taken near m) = m.
Proof.
  intros Hm (HL & _). unfold taken. rewrite app_length, skipn_length, !firstn_length, HL. lia.
Qed.

(** The result follows the sann rule exactly for the atoms that get three
    neighbours, i.e. when the three smallest distances add up to less than the
    fourth (distances of different atoms being different). *)
Theorem C21_right_iff :
  forall srt, sorts srt -> forall voro area_pow inv (s s' : sys Rnum) (f : filt) (t pad : R) (nl : Z) (i : nat),
  stored s -> nonneg3 (s_len s) -> (1 <= t)%R ->
  ((4000 < s_real s)%Z -> forall z, (1 <= z <= 9)%Z -> cells_ok s (guess_distance s (t * IZR z)%R)) ->
  find_neighbors srt voro area_pow inv s (mkArgs (N := Rnum) (MCutoff (CutSann _)) f t pad nl) = Ok (s', None) ->
  i < length (s_atoms s) ->
  (forall j k e e', link s i j = Some e -> link s i k = Some e' -> nb_dist e = nb_dist e' -> j = k) ->
  (sann_rule s i (nbrs_at s' i) <-> length (nbrs_at s' i) = 3) /\
  (length (nbrs_at s' i) = 3 <->
   exists near e, nearest s i 4 near /\ nth_error near 3 = Some e /\ (sum_dist (firstn 3 near) < nb_dist e)%R).
Proof.
  intros srt Hs voro area_pow inv s s' f t pad nl i St HL Ht Hc E Hi Hd.
  pose proof (@sann_find srt Hs voro area_pow inv s f t pad nl St HL Ht Hc) as H. rewrite E in H.
  destruct H as (_ & _ & H). destruct (nth_error (s_atoms s) i) as [a|] eqn:Ea; [|apply nth_error_None in Ea; lia].
  destruct (H i a Ea) as (a' & Ha' & _ & R). unfold nbrs_at. rewrite Ha'. clear H.
  destruct R as (m & near & Hm & Hn & El & Hst & Hno). rewrite El, (@length_taken s i m near Hm Hn).
  assert (T3 : forall l, taken l 3 = firstn 3 l) by (intros l; apply (@but4_3 (nbr Rnum) l)).
  assert (S3 : forall l, stops_taken l 3 <-> exists e, nth_error l 3 = Some e /\ (sum_dist (firstn 3 l) < nb_dist e)%R).
  { intros l. unfold stops_taken. rewrite T3. simpl (INR _). unfold Rdiv. rewrite Rinv_1.
    split; intros (e & ? & ?); exists e; (split; [auto|]); lra. }
  split; split.
  - intros (m' & near' & Hm' & Hn' & El' & _ & _).
    destruct (Nat.eq_dec m 3) as [|Hne]; auto. exfalso.
    pose proof Hn as (N1 & N2 & N3 & N4 & N5). pose proof Hn' as (M1 & M2 & M3 & M4 & M5).
    destruct (nth_error near 3) as [e3|] eqn:E3; [|apply nth_error_None in E3; lia].
    destruct (nth_error near m) as [em|] eqn:Em; [|apply nth_error_None in Em; lia].
    assert (Hlt : (nb_dist e3 < nb_dist em)%R).
    { assert (Hle : (nb_dist e3 <= nb_dist em)%R).
      { clear - N4 E3 Em Hm Hne. 
        rewrite <- (firstn_skipn 4 near) in N4.
        eapply (@StronglySorted_split _ (fun e e' : nbr Rnum => (nb_dist e <= nb_dist e')%R) near 4); [now rewrite firstn_skipn in N4| |].
        - apply nth_error_In with (n := 3). rewrite <- E3. clear. do 4 (destruct near as [|? near]; [reflexivity|]). reflexivity.
        - apply nth_error_In with (n := m - 4). rewrite <- Em. replace m with (4 + (m - 4)) at 2 by lia.
          generalize (m - 4) as q. clear. intros q. do 4 (destruct near as [|? near]; [now destruct q|]). reflexivity. }
      destruct Hle as [|Heq]; auto. exfalso.
      assert (EI : nb_idx e3 = nb_idx em).
      { eapply Hd; [apply N2|apply N2|exact Heq]; eapply nth_error_In; eauto. }
      apply (map_nth_error (@nb_idx Rnum)) in E3. apply (map_nth_error (@nb_idx Rnum)) in Em.
      assert (Q : 3 = m); [|lia]. eapply (proj1 (NoDup_nth_error (map (@nb_idx Rnum) near))); eauto.
      - apply nth_error_Some. congruence.
      - congruence. }
    assert (Hin : In em (taken near m)).
    { unfold taken. apply in_or_app. right. apply nth_error_In with (n := m - 4).
      rewrite <- Em. rewrite firstn_all2 by lia. replace m with (4 + (m - 4)) at 2 by lia.
      generalize (m - 4) as q. clear. intros q. do 4 (destruct near as [|? near]; [now destruct q|]). reflexivity. }
    assert (Hout : ~ In e3 (taken near m)).
    { intros Ho. unfold taken in Ho. replace (firstn (S m) near) with near in Ho by (symmetry; apply firstn_all2; lia).
      assert (Es : near = firstn 3 near ++ e3 :: skipn 4 near).
      { clear - E3. do 3 (destruct near as [|? near]; [discriminate|]). destruct near; [discriminate|].
        injection E3 as ->. reflexivity. }
      rewrite Es in N3. rewrite map_app in N3. simpl in N3. apply NoDup_remove_2 in N3. apply N3.
      rewrite <- map_app. apply in_map_iff. exists e3. auto. }
    assert (Et : taken near m = firstn m' near') by congruence. rewrite Et in Hin, Hout.
    assert (L3 : link s i (nb_idx e3) = Some e3) by (apply N2; eapply nth_error_In; eauto).
    assert (Hem : In em near') by (eapply firstn_In; eauto).
    destruct (in_dec Nat.eq_dec (nb_idx e3) (map (@nb_idx Rnum) near')) as [Hi3|Hi3].
    + apply in_map_iff in Hi3. destruct Hi3 as (e & He1 & He2).
      assert (e = e3). { pose proof (M2 e He2) as Q. rewrite He1, L3 in Q. now injection Q. }
      subst e. destruct (In_firstn_skipn m' He2) as [Hx|Hx]; [contradiction|].
      pose proof (StronglySorted_split M4 Hin Hx). simpl in *. lra.
    + pose proof (M5 _ _ L3 Hi3 em Hem). lra.
  - intros ->. exists 3, near. split; auto. split; auto. split; [apply T3|]. split.
    + destruct (proj1 (S3 near) Hst) as (e & He & Hl). exists e. split; auto. simpl (INR _). lra.
    + intros; lia.
  - intros ->. destruct (proj1 (S3 near) Hst) as (e & He & Hl). exists near, e. auto.
  - intros (near4 & e & H4 & He & Hl). destruct (Nat.eq_dec m 3) as [|Hne]; auto. exfalso.
    apply (Hno 3 ltac:(lia)). apply S3.
    assert (Eq : firstn 4 near = near4).
    { pose proof Hn as (N1 & N2 & N3 & N4 & N5). pose proof H4 as (M1 & M2 & M3 & M4 & M5).
      apply (@nearest_unique s i 4); auto. now apply (@nearest_firstn s i (S m)); [lia|]. }
    rewrite <- Eq in He, Hl. rewrite firstn_firstn in Hl. exists e. split; [|exact Hl].
    rewrite <- He. clear. do 4 (destruct near as [|? near]; [reflexivity|]). reflexivity.
Qed.
Print Assumptions C21_right_iff.

(** Example: eight atoms on a line.  Atoms 0, 1, 2, 5, 6, 7 get their three
    nearest atoms; atom 3 gets atom 5 instead of atom 4, which is nearer, and
    atom 4 gets atom 2 instead of atom 3.  The hypotheses hold of the same
    system of reals. *)
Definition line8 (N : num) : sys N :=
  cub N 60 (map (fun x => (x,1,1,1)%Z) [1;2;4;10;30;35;37;38]%Z).
Example C21_runs : lists (run (line8 P64) (sann_args P64 FNone)) =
    Some ([[1; 2; 3]; [0; 2; 3]; [1; 0; 3]; [2; 1; 0; 5]; [5; 6; 7; 2]; [6; 7; 4]; [7; 5; 4]; [6; 5; 4]], true, None).
Proof. vm_compute. reflexivity. Qed.

Lemma line8_len : s_len (line8 Rnum) = mkV (N:=Rnum) 60%R 60%R 60%R.
Proof. unfold line8, cub. cbn [set_atoms sbox s_len]. apply diag_len; simpl; lra. Qed.
Lemma line8_tri : s_tri (line8 Rnum) = false.
Proof. reflexivity. Qed.
Lemma line_dist (s : sys Rnum) x y : s_tri s = false -> s_len s = mkV (N:=Rnum) 60%R 60%R 60%R ->
  (0 <= x <= 60)%R -> (0 <= y <= 60)%R -> (x < y)%R ->
  fst (abs_distance_ij s (mkV (N := Rnum) x 1%R 1%R) (mkV (N := Rnum) y 1%R 1%R)) =
  Rmin (y - x) (60 - (y - x)).
Proof.
  intros T L Hx Hy Hxy. unfold abs_distance_ij, norm, pbc_diff. rewrite T, L.
  unfold wrap, vsub, wrap1. cbn [vx vy vz fst]. rnum.
  repeat match goal with |- context [Rltb ?a ?b] =>
    let E := fresh "E" in destruct (Rltb a b) eqn:E; [apply Rltb_true in E|apply Rltb_false in E]; try (exfalso; lra) end.
  all: match goal with |- sqrt ?e = Rmin ?p ?q =>
    first [ replace e with (p * p)%R by ring; rewrite sqrt_square by lra; rewrite Rmin_left by lra; reflexivity
          | replace e with (q * q)%R by ring; rewrite sqrt_square by lra; rewrite Rmin_right by lra; reflexivity ] end.
Qed.
Lemma line8_atom j a : nth_error (s_atoms (line8 Rnum)) j = Some a ->
  exists z, nth_error [1;2;4;10;30;35;37;38]%Z j = Some z /\ a_pos a = mkV (N := Rnum) (IZR z) 1%R 1%R.
Proof.
  change (s_atoms (line8 Rnum)) with
    (map (fun p => let '(x, y, z, t) := p in at_pos (zv Rnum x y z) <| a_type := t |>)
       (map (fun x => (x,1,1,1)%Z) [1;2;4;10;30;35;37;38]%Z)).
  rewrite map_map, nth_error_map. destruct (nth_error _ j) as [z|]; [|discriminate]. intros H. injection H as <-.
  exists z. auto.
Qed.
Lemma line8_link0 j e : link (line8 Rnum) 0 j = Some e -> 1 <= j <= 7 /\
  nb_dist e = nth j [0;1;3;9;29;26;24;23]%R 0%R.
Proof.
  unfold link. destruct (nth_error (s_atoms (line8 Rnum)) 0) as [a|] eqn:Ea; [|discriminate].
  destruct (nth_error (s_atoms (line8 Rnum)) j) as [b|] eqn:Eb; [|discriminate].
  destruct (line8_atom _ _ Ea) as (z0 & Hz0 & Pa). injection Hz0 as <-.
  destruct (line8_atom _ _ Eb) as (z & Hz & Pb). rewrite Pa, Pb.
  destruct (Nat.ltb_spec 0 j) as [Hj|Hj].
  2:{ assert (j = 0) by lia. subst j. discriminate. }
  pose proof (@line_dist (line8 Rnum) 1 (IZR z) line8_tri line8_len) as D.
  generalize dependent (abs_distance_ij (line8 Rnum)). intros F D.
  destruct j as [|j]; [lia|].
  do 7 (destruct j as [|j]; [injection Hz as <-;
    destruct (F _ _) as [d v]; intros H; injection H as <-; split; [lia|]; simpl in D |- *;
    rewrite D by lra; unfold Rmin; destruct (Rle_dec _ _); lra|]).
  destruct j; discriminate Hz.
Qed.
Example C21_hyp : exists srt, sorts (N := Rnum) srt /\ stored (line8 Rnum) /\ nonneg3 (s_len (line8 Rnum)) /\
  ((4000 < s_real (line8 Rnum))%Z -> forall z, (1 <= z <= 9)%Z -> cells_ok (line8 Rnum) (guess_distance (line8 Rnum) (5 * IZR z)%R)) /\
  0 < length (s_atoms (line8 Rnum)) /\
  (forall j k e e', link (line8 Rnum) 0 j = Some e -> link (line8 Rnum) 0 k = Some e' ->
     nb_dist e = nb_dist e' -> j = k).
Proof.
  exists isort. split; [exact isort_sorts|]. split; [reflexivity|]. split; [|split; [|split]].
  - rewrite line8_len. unfold nonneg3. cbn [vx vy vz]. lra.
  - intros H. exfalso. discriminate H.
  - simpl. lia.
  - intros j k e e' Hj Hk. destruct (line8_link0 _ _ Hj) as (Bj & ->). destruct (line8_link0 _ _ Hk) as (Bk & ->).
    destruct j as [|j]; [lia|]. destruct k as [|k]; [lia|].
    do 7 (destruct j as [|j]; [do 7 (destruct k as [|k]; [simpl; intros; try lra; auto|]); lia|]). lia.
Qed.
