(** Proofs about the analysis functions. *)
From Coq Require Import Reals Lra ZArith List Lia Permutation Sorted.
From Verif Require Import Base Num NumR Types M_Geometry M_Container M_Analysis
  S_Geometry S_Container S_Steinhardt S_Local S_Analysis P_Geometry P_Container P_Neighbors P_Harmonics P_CNA P_Centro.
Import ListNotations.
Set Implicit Arguments.

(** ** Combinations and pairs *)
Lemma combos_pairs {A} (d : A) (l : list A) :
  combos l = map (fun p => (nth (fst p) l d, nth (snd p) l d)) (pairs (length l)).
Proof.
  induction l as [|a l IH]; [reflexivity|]. cbn [combos length]. rewrite pairs_S, map_app, !map_map. f_equal.
  - change (fun x => (nth (fst (0, x)) (a :: l) d, nth (snd (0, x)) (a :: l) d)) with (fun x => (a, nth x (a :: l) d)).
    rewrite <- seq_shift, map_map. cbn [nth]. rewrite <- (map_map (fun x => nth x l d) (fun b => (a, b))). f_equal.
    clear. induction l as [|b l IH]; [reflexivity|]. cbn [length seq map nth]. f_equal. rewrite <- seq_shift, map_map. exact IH.
  - rewrite IH. apply map_ext. intros [i j]. reflexivity.
Qed.
Lemma In_combos {A} (l : list A) a b : In (a, b) (combos l) -> In a l /\ In b l.
Proof.
  induction l as [|c l IH]; [intros []|]. cbn [combos]. intros H. apply in_app_or in H as [H|H].
  - apply in_map_iff in H as (x & [= <- <-] & Hx). split; [now left|now right].
  - apply IH in H as [H1 H2]. split; now right.
Qed.
Lemma length_combos {A} (l : list A) : 2 * length (combos l) = length l * (length l - 1).
Proof.
  induction l as [|a l IH]; [reflexivity|]. cbn [combos length]. rewrite app_length, map_length.
  destruct (length l) as [|n]; [cbn in *; lia|]. cbn [Nat.sub] in *. nia.
Qed.
Lemma combos_map {A B} (f : A -> B) l : combos (map f l) = map (fun p => (f (fst p), f (snd p))) (combos l).
Proof.
  induction l as [|a l IH]; [reflexivity|]. cbn [combos map]. rewrite map_app, !map_map, IH. reflexivity.
Qed.

(** ** Histograms *)
Section Hist.
Variable N : num.
Lemma hist_from_sum (xs : list N) es : forall lo, es <> [] ->
  fold_right Z.add 0%Z (hist_from xs lo es) = (upto (last es n0) xs - lo)%Z.
Proof.
  induction es as [|e es IH]; [congruence|]. intros lo _. destruct es as [|e' es].
  - cbn. lia.
  - change (hist_from xs lo (e :: e' :: es)) with ((below e xs - lo)%Z :: hist_from xs (below e xs) (e' :: es)).
    cbn [fold_right]. rewrite IH by discriminate. change (last (e :: e' :: es) n0) with (last (e' :: es) n0). lia.
Qed.
Lemma hist_sum (xs : list N) e es : es <> [] ->
  fold_right Z.add 0%Z (histogram (e :: es) xs) = (upto (last es n0) xs - below e xs)%Z.
Proof. apply hist_from_sum. Qed.
Lemma hist_length (xs : list N) es : forall lo, length (hist_from xs lo es) = length es.
Proof.
  induction es as [|e es IH]; [reflexivity|]. intros lo. destruct es as [|e' es]; [reflexivity|].
  change (hist_from xs lo (e :: e' :: es)) with ((below e xs - lo)%Z :: hist_from xs (below e xs) (e' :: es)).
  cbn [length]. now rewrite IH.
Qed.
End Hist.

(** Strictly increasing. *)
Fixpoint incr (l : list Rnum) : Prop :=
  match l with
  | x :: (y :: _) as l' => (x <= y)%R /\ incr l'
  | _ => True
  end.
Lemma bin_open (xs : list Rnum) (lo hi : R) : (lo <= hi)%R ->
  (below (hi : Rnum) xs - below (lo : Rnum) xs)%Z = Z.of_nat (length (filter (in_bin lo hi false) xs)).
Proof.
  intros H. unfold below. induction xs as [|x xs IH]; [reflexivity|]. cbn [filter]. rnum. unfold in_bin, Rltb in *.
  destruct (Rlt_dec x hi), (Rlt_dec x lo), (Rle_dec lo x); cbn [length]; try lra; lia.
Qed.
Lemma bin_closed (xs : list Rnum) (lo hi : R) : (lo <= hi)%R ->
  (upto (hi : Rnum) xs - below (lo : Rnum) xs)%Z = Z.of_nat (length (filter (in_bin lo hi true) xs)).
Proof.
  intros H. unfold below, upto. induction xs as [|x xs IH]; [reflexivity|]. cbn [filter]. rnum. unfold in_bin, Rltb, Rleb in *.
  destruct (Rle_dec x hi), (Rlt_dec x lo), (Rle_dec lo x); cbn [length]; try lra; lia.
Qed.
Lemma hist_nth (xs : list Rnum) : forall es (e : Rnum) k, incr (e :: es) -> k < length es ->
  nth k (histogram (e :: es) xs) 0%Z =
  Z.of_nat (length (filter (in_bin (nth k (e :: es) n0) (nth (S k) (e :: es) n0) (S k =? length es)) xs)).
Proof.
  induction es as [|e1 es IH]; intros e k Hi Hk; [cbn in Hk; lia|].
  destruct Hi as [H1 Hi]. destruct es as [|e2 es].
  - destruct k as [|k]; [|cbn in Hk; lia]. apply (bin_closed xs H1).
  - change (histogram (e :: e1 :: e2 :: es) xs) with ((below e1 xs - below e xs)%Z :: histogram (e1 :: e2 :: es) xs).
    destruct k as [|k].
    + apply (bin_open xs H1).
    + cbn [nth]. rewrite (IH e1 k Hi) by (cbn [length] in *; lia). reflexivity.
Qed.
Lemma count_combos {A} (d : A) (f : A -> A -> R) (P : R -> bool) l :
  length (filter P (map (fun c => f (fst c) (snd c)) (combos l))) = count_pairs d (fun a b => P (f a b)) l.
Proof.
  unfold count_pairs. rewrite (combos_pairs d), map_map. cbn [fst snd].
  induction (pairs (length l)) as [|p ps IH]; [reflexivity|]. cbn [map filter]. destruct (P _); cbn [length]; congruence.
Qed.

(** ** Cosines *)
Lemma cos_theta_cosine (v w : v3 Rnum) : cos_theta v w = cosine v w.
Proof. reflexivity. Qed.
Lemma cosine_range (v w : v3 Rnum) : nonzero_vec v -> nonzero_vec w -> (-1 <= cosine v w <= 1)%R.
Proof.
  unfold nonzero_vec, len2, cosine. intros Hv Hw. destruct v as [a b c], w as [x y z]. cbn [vx vy vz] in *. change (carrier Rnum) with R in *.
  set (p := (a * a + b * b + c * c)%R). set (q := (x * x + y * y + z * z)%R). set (t := (a * x + b * y + c * z)%R).
  assert (Hp : (0 < p)%R).
  { unfold p. assert (0 <= a * a + b * b + c * c)%R by nra. assert (a * a + b * b + c * c <> 0)%R by (intros E; apply Hv; rewrite <- E; ring). lra. }
  assert (Hq : (0 < q)%R).
  { unfold q. assert (0 <= x * x + y * y + z * z)%R by nra. assert (x * x + y * y + z * z <> 0)%R by (intros E; apply Hw; rewrite <- E; ring). lra. }
  assert (Ht : (t * t <= p * q)%R).
  { unfold t, p, q. pose proof (Rle_0_sqr (a * y - b * x)). pose proof (Rle_0_sqr (a * z - c * x)). pose proof (Rle_0_sqr (b * z - c * y)). unfold Rsqr in *. lra. }
  set (sp := sqrt p). set (sq := sqrt q).
  assert (Esp : (sp * sp = p)%R) by (apply sqrt_sqrt; lra). assert (Esq : (sq * sq = q)%R) by (apply sqrt_sqrt; lra).
  assert (0 < sp)%R by (apply sqrt_lt_R0; auto). assert (0 < sq)%R by (apply sqrt_lt_R0; auto).
  assert (Hm : (0 < sp * sq)%R) by (apply Rmult_lt_0_compat; auto).
  assert (Ht2 : (t * t <= (sp * sq) * (sp * sq))%R) by (replace ((sp * sq) * (sp * sq))%R with ((sp * sp) * (sq * sq))%R by ring; rewrite Esp, Esq; exact Ht).
  split.
  - apply Rmult_le_reg_r with (sp * sq)%R; auto. unfold Rdiv. rewrite Rmult_assoc, Rinv_l, Rmult_1_r by lra. nra.
  - apply Rmult_le_reg_r with (sp * sq)%R; auto. unfold Rdiv. rewrite Rmult_assoc, Rinv_l, Rmult_1_r by lra. nra.
Qed.

(** ** Python indexing *)
Lemma py_get_Ok {A} (l : list A) i a : nth_error l i = Some a -> py_get l (Z.of_nat i) = Ok a.
Proof.
  intros H. unfold py_get. destruct (Z.ltb_spec (Z.of_nat i) 0); [lia|].
  destruct (Z.ltb_spec (Z.of_nat i) 0); [lia|]. now rewrite Nat2Z.id, H.
Qed.
Lemma py_get_Err {A} (l : list A) i : length l <= i -> py_get l (Z.of_nat i) = Err IndexError.
Proof.
  intros H. unfold py_get. destruct (Z.ltb_spec (Z.of_nat i) 0); [lia|].
  destruct (Z.ltb_spec (Z.of_nat i) 0); [lia|]. rewrite Nat2Z.id. now rewrite (proj2 (nth_error_None l i)).
Qed.
Lemma py_get_cases {A} (l : list A) i r : py_get l (Z.of_nat i) = r ->
  match r with Ok a => nth_error l i = Some a | Err e => e = IndexError /\ length l <= i end.
Proof.
  intros <-. destruct (nth_error l i) as [a|] eqn:E.
  - now rewrite (py_get_Ok _ _ E).
  - apply nth_error_None in E. now rewrite py_get_Err.
Qed.

(** ** Angular criterion *)
Section Angular.
Variable argsort : list Rnum -> list nat.
Hypothesis Hsort : argsorts argsort.
Implicit Types (s : sys Rnum) (a b : atom Rnum).

Lemma combos_fold (ws : list (v3 Rnum)) : forall (l : list (nat * nat)) (x : R),
  (forall i j, In (i, j) l -> i < length ws /\ j < length ws) ->
  foldM (fun costhetasum c =>
      vec1 <- py_get ws (Z.of_nat (fst c)) ;;
      vec2 <- py_get ws (Z.of_nat (snd c)) ;;
      (let x := nadd (cos_theta vec1 vec2) (ndiv n1 (nofZ 3)) in
      Ok (nadd costhetasum (nmul x x)))) l (x : Rnum) =
  Ok ((x + Rsum (map (fun c => tetra_dev (nth (fst c) ws zero_vec) (nth (snd c) ws zero_vec)) l))%R : Rnum).
Proof.
  induction l as [|[i j] l IH]; intros x H; cbn [foldM map].
  - cbn. now rewrite Rplus_0_r.
  - destruct (H i j (or_introl eq_refl)) as [Hi Hj]. cbn [fst snd].
    rewrite (py_get_Ok _ _ (nth_error_nth' ws zero_vec Hi)), (py_get_Ok _ _ (nth_error_nth' ws zero_vec Hj)). cbn [bind]. cbv zeta.
    rewrite IH by (intros; apply H; now right). rewrite Rsum_cons. f_equal. unfold tetra_dev. rewrite !cos_theta_cosine.
    rnum. match goal with |- @eq _ ?a ?b => change (@eq R a b) end. simpl. field.
Qed.

Lemma In_firstn {A} n (l : list A) x : In x (firstn n l) -> In x l.
Proof. intros H. rewrite <- (firstn_skipn n l). apply in_or_app. now left. Qed.

Lemma In_split_nth {A} (d : A) n (l : list A) x y : In x (firstn n l) -> In y (skipn n l) ->
  exists i j, i < j < length l /\ nth i l d = x /\ nth j l d = y.
Proof.
  intros Hx Hy. apply In_nth with (d := d) in Hx as (i & Hi & <-). apply In_nth with (d := d) in Hy as (j & Hj & <-).
  rewrite firstn_length in Hi. rewrite skipn_length in Hj. exists i, (n + j)%nat. split; [lia|].
  rewrite <- (firstn_skipn n l) at 1 3. rewrite app_nth1 by (rewrite firstn_length; lia). split; [reflexivity|].
  rewrite app_nth2 by (rewrite firstn_length; lia). f_equal. rewrite firstn_length. lia.
Qed.

Lemma map_nth_seq {A} (d : A) l : map (fun i => nth i l d) (seq 0 (length l)) = l.
Proof.
  induction l as [|a l IH]; [reflexivity|]. cbn [length seq map nth]. f_equal. rewrite <- seq_shift, map_map. exact IH.
Qed.
Lemma shortest_argsort (ws : list (v3 Rnum)) n :
  shortest n ws (map (fun i => nth i ws zero_vec) (firstn n (argsort (map (fun v => vlen v : Rnum) ws)))).
Proof.
  set (l := map (fun v => vlen v : Rnum) ws). destruct (Hsort l) as [Hp Hs].
  assert (HL : length l = length ws) by apply map_length.
  exists (map (fun i => nth i ws zero_vec) (skipn n (argsort l))). rewrite <- map_app, firstn_skipn. split; [|split].
  - rewrite <- (map_nth_seq zero_vec ws) at 1. apply Permutation_map. rewrite <- HL. exact Hp.
  - rewrite map_length, firstn_length. f_equal. rewrite <- (Permutation_length Hp), seq_length. exact HL.
  - intros v w Hv Hw. apply in_map_iff in Hv as (x & <- & Hx). apply in_map_iff in Hw as (y & <- & Hy).
    assert (Hr : forall z, In z (argsort l) -> z < length ws).
    { intros z Hz. apply (Permutation_in z (Permutation_sym Hp)) in Hz. apply in_seq in Hz. lia. }
    assert (Hxl : x < length ws) by (apply Hr, (In_firstn _ _ _ Hx)).
    assert (Hyl : y < length ws). { apply Hr. rewrite <- (firstn_skipn n). apply in_or_app. now right. }
    destruct (In_split_nth 0 n (argsort l) x y Hx Hy) as (i & j & Hij & <- & <-).
    rewrite <- (Permutation_length Hp), seq_length in Hij. specialize (Hs i j Hij). unfold l in Hs at 2 4.
    assert (G : forall k, k < length ws -> nth k (map (fun v => vlen v : Rnum) ws) 0%R = vlen (nth k ws zero_vec)).
    { intros k Hk. rewrite nth_indep with (d' := vlen zero_vec : Rnum) by (rewrite map_length; auto). apply map_nth. }
    fold l in Hs. unfold l in Hs at 2 4.
    rewrite (G _ Hxl), (G _ Hyl) in Hs. exact Hs.
Qed.

Lemma dv_run s atoms a : (forall e, In e (a_nbrs a) -> nb_idx e < length atoms) ->
  mapM (fun e => b <- py_get atoms (Z.of_nat (nb_idx e)) ;;
                 match get_distance s a b true with DistVec d v => Ok (d, v) | DistOnly _ => Err TypeError end) (a_nbrs a) =
  Ok (map (fun v => (vlen v : Rnum, v)) (neighbor_vectors s atoms a)).
Proof.
  unfold neighbor_vectors. induction (a_nbrs a) as [|e l IH]; intros H; [reflexivity|]. cbn [mapM map].
  destruct (nth_error atoms (nb_idx e)) as [b|] eqn:E.
  - rewrite (py_get_Ok _ _ E), IH by (intros; apply H; now right). cbn [bind get_distance].
    do 3 f_equal. unfold abs_distance, distance_vector. rewrite norm_eucl. reflexivity.
  - apply nth_error_None in E. specialize (H e (or_introl eq_refl)). lia.
Qed.

Lemma angular_run s atoms a :
  match angular_value argsort s atoms a with
  | Ok v => exists top, shortest 4 (neighbor_vectors s atoms a) top /\ (v : R) = over_pairs zero_vec tetra_dev top
  | Err e => e = IndexError /\ exists e, In e (a_nbrs a) /\ length atoms <= nb_idx e
  end.
Proof.
  unfold angular_value.
  destruct (Forall_Exists_dec (fun e => nb_idx e < length atoms) (fun e => lt_dec _ _) (a_nbrs a)) as [H|H].
  - rewrite Forall_forall in H. rewrite (dv_run s atoms a H). cbn [bind]. cbv zeta.
    rewrite !map_map. cbn [fst snd]. rewrite map_id. set (ws := neighbor_vectors s atoms a).
    set (args := argsort (map (fun v => vlen v : Rnum) ws)).
    rewrite (combos_fold ws).
    + eexists. split; [apply shortest_argsort|]. fold args. unfold over_pairs. change (@n0 Rnum) with 0%R. rewrite Rplus_0_l.
      set (top := map (fun i => nth i ws zero_vec) (firstn 4 args)).
      transitivity (Rsum (map (fun c => tetra_dev (fst c) (snd c)) (combos top))).
      * unfold top. rewrite combos_map, map_map. reflexivity.
      * rewrite (combos_pairs zero_vec top), map_map. reflexivity.
    + intros i j Hc. apply In_combos in Hc as [Hi Hj]. apply In_firstn in Hi, Hj.
      destruct (Hsort (map (fun v => vlen v : Rnum) ws)) as [Hp _].
      apply (Permutation_in _ (Permutation_sym Hp)) in Hi, Hj. apply in_seq in Hi, Hj. rewrite map_length in Hi, Hj. lia.
  - assert (Hx : exists e, In e (a_nbrs a) /\ length atoms <= nb_idx e).
    { apply Exists_exists in H as (e & He & Hn). exists e. split; auto. lia. }
    destruct (mapM _ (a_nbrs a)) as [dv|e] eqn:E; cbn [bind].
    + exfalso. apply mapM_inv in E. destruct Hx as (e & He & Hl). apply In_nth_error in He as [i He].
      destruct (Forall2_nth_l E He) as (x & _ & Hb). rewrite (py_get_Err atoms Hl) in Hb. discriminate.
    + split; [|exact Hx]. apply mapM_Err in E as (x & _ & Hb).
      destruct (py_get atoms (Z.of_nat (nb_idx x))) eqn:Ep; cbn [bind] in Hb; [discriminate|].
      injection Hb as <-. now apply py_get_cases in Ep.
Qed.
End Angular.

(** ** np.unique *)
Definition sorted_keys (l : list (Z * Z)) : Prop := StronglySorted Z.lt (map fst l).
Lemma number_cons t u l : number_of t (u :: l) = (number_of t l + if Z.eqb t u then 1 else 0)%Z.
Proof. unfold number_of. cbn [filter]. destruct (Z.eqb t u); cbn [length]; lia. Qed.
Lemma number_nonneg t l : (0 <= number_of t l)%Z.
Proof. unfold number_of. lia. Qed.
Lemma ins_count_keys t : forall l x, In x (map fst (ins_count t l)) <-> x = t \/ In x (map fst l).
Proof.
  induction l as [|[u c] l IH]; intros x; cbn [ins_count].
  - cbn. intuition congruence.
  - destruct (Z.ltb_spec t u); [cbn; intuition congruence|]. destruct (Z.eqb_spec t u).
    + subst. cbn. intuition congruence.
    + cbn [map In fst]. rewrite IH. intuition congruence.
Qed.
Lemma ins_count_sorted t : forall l, sorted_keys l -> sorted_keys (ins_count t l).
Proof.
  unfold sorted_keys. induction l as [|[u c] l IH]; intros H; cbn [ins_count].
  - repeat constructor.
  - cbn [map fst] in H. apply StronglySorted_inv in H as [H1 H2]. destruct (Z.ltb_spec t u); [|destruct (Z.eqb_spec t u)].
    + cbn [map fst]. constructor; [now constructor|]. constructor; auto. rewrite Forall_forall in *. intros x Hx. specialize (H2 x Hx). lia.
    + subst. now constructor.
    + cbn [map fst]. constructor; auto. rewrite Forall_forall in *. intros x Hx. apply ins_count_keys in Hx as [->|Hx]; [lia|auto].
Qed.
Lemma ins_count_In t : forall l x c, sorted_keys l -> (In (x, c) (ins_count t l) <->
  (x <> t /\ In (x, c) l) \/ (x = t /\ (In (t, (c - 1)%Z) l \/ (~ In t (map fst l) /\ c = 1%Z)))).
Proof.
  unfold sorted_keys. induction l as [|[u d] l IH]; intros x c H; cbn [ins_count].
  - cbn. split; [intros [[= <- <-]|[]]; right; intuition|]. intros [[_ []]|[-> [[]|[_ ->]]]]. now left.
  - cbn [map fst] in H. apply StronglySorted_inv in H as [H1 H2]. rewrite Forall_forall in H2.
    assert (K : forall y e, In (y, e) l -> (u < y)%Z) by (intros y e Hy; apply H2; apply in_map_iff; exists (y, e); auto).
    destruct (Z.ltb_spec t u); [|destruct (Z.eqb_spec t u)].
    + split.
      * intros [E|E].
        -- injection E as <- <-. right. split; auto. right. split; auto. cbn. intros [E|E]; [lia|]. specialize (H2 _ E). lia.
        -- left. split; [|exact E]. destruct E as [E|E]; [injection E as <- <-; lia|]. specialize (K _ _ E). lia.
      * intros [[Hn E]|[-> [E|[_ ->]]]]; [now right| |now left].
        exfalso. destruct E as [E|E]; [injection E; lia|]. specialize (K _ _ E). lia.
    + subst u. cbn [In]. split.
      * intros [E|E].
        -- injection E as <- <-. right. split; auto. left. left. f_equal. lia.
        -- left. split; [|now right]. specialize (K _ _ E). lia.
      * intros [[Hn [E|E]]|[-> [[E|E]|[E _]]]].
        -- injection E; congruence.
        -- now right.
        -- injection E as E. left. f_equal. lia.
        -- specialize (K _ _ E). lia.
        -- exfalso. apply E. now left.
    + cbn [In]. rewrite (IH x c H1). cbn [map In fst]. split.
      * intros [E|[[Hn E]|[-> [E|[E ->]]]]]; auto.
        -- injection E as <- <-. left. split; auto.
        -- right. split; auto. right. split; auto. intros [E'|E']; auto.
      * intros [[Hn [E|E]]|[-> [[E|E]|[E ->]]]]; auto.
        -- injection E; congruence.
        -- right. right. split; auto. right. split; auto.
Qed.
Lemma unique_spec (l : list Z) : sorted_keys (np_unique l) /\
  forall t c, In (t, c) (np_unique l) <-> (c = number_of t l /\ (0 < c)%Z).
Proof.
  induction l as [|u l [IH1 IH2]].
  - split; [constructor|]. intros t c. cbn. unfold number_of. cbn. split; [intros []|lia].
  - change (np_unique (u :: l)) with (ins_count u (np_unique l)). split; [now apply ins_count_sorted|].
    intros t c. rewrite (@ins_count_In u _ t c IH1), number_cons.
    assert (K : In u (map fst (np_unique l)) <-> (0 < number_of u l)%Z).
    { split.
      - intros H. apply in_map_iff in H as ([x d] & E & H). cbn in E. subst x. apply IH2 in H. lia.
      - intros H. apply in_map_iff. exists (u, number_of u l). split; auto. apply IH2. auto. }
    rewrite !IH2, K. pose proof (number_nonneg u l). destruct (Z.eqb_spec t u) as [->|]; split; intros H0; [|lia| |lia];
    try lia.
Qed.
Lemma unique_sum (l : list Z) : fold_right Z.add 0%Z (map snd (np_unique l)) = Z.of_nat (length l).
Proof.
  assert (G : forall t l, fold_right Z.add 0%Z (map snd (ins_count t l)) = (fold_right Z.add 0%Z (map snd l) + 1)%Z).
  { intros t. induction l0 as [|[u c] l0 IH]; [reflexivity|]. cbn [ins_count]. destruct (Z.ltb t u); [cbn [map fold_right snd]; lia|].
    destruct (Z.eqb t u); cbn [map fold_right snd]; [lia|]. rewrite IH. lia. }
  induction l as [|u l IH]; [reflexivity|]. change (np_unique (u :: l)) with (ins_count u (np_unique l)). rewrite G, IH.
  cbn [length]. lia.
Qed.
Lemma unique_keys (l : list Z) t : In t (map fst (np_unique l)) <-> In t l.
Proof.
  destruct (unique_spec l) as [_ H]. split.
  - intros K. apply in_map_iff in K as ([x c] & <- & K). apply H in K as [-> K]. unfold number_of in K. cbn [fst].
    destruct (filter (Z.eqb x) l) as [|y ys] eqn:E; [cbn in K; lia|].
    assert (Hy : In y (filter (Z.eqb x) l)) by (rewrite E; now left). apply filter_In in Hy as [Hy Ey]. apply Z.eqb_eq in Ey. now subst.
  - intros K. apply in_map_iff. exists (t, number_of t l). split; auto. apply H. split; auto. unfold number_of.
    assert (Hy : In t (filter (Z.eqb t) l)) by (apply filter_In; split; auto; apply Z.eqb_refl).
    destruct (filter (Z.eqb t) l); [destruct Hy|cbn; lia].
Qed.

(** ** Short range order *)
Section Sro.
Implicit Types (s : sys Rnum) (a b : atom Rnum).
Lemma sro_neighbors_run s atoms a :
  match sro_neighbors s atoms a with
  | Ok nds => exists bs, neighbor_atoms atoms a bs /\ nds = map (fun b => (dist_to s a b : Rnum, b)) bs
  | Err e => e = IndexError /\ exists e, In e (a_nbrs a) /\ length atoms <= nb_idx e
  end.
Proof.
  unfold sro_neighbors, neighbor_atoms. induction (a_nbrs a) as [|e l IH]; cbn [mapM].
  - exists []. split; constructor.
  - destruct (py_get atoms (Z.of_nat (nb_idx e))) as [b|x] eqn:E; cbn [bind]; apply py_get_cases in E.
    + destruct (mapM _ l) as [nds|x]; cbn [bind].
      * destruct IH as (bs & H1 & ->). exists (b :: bs). split; [now constructor|reflexivity].
      * destruct IH as (-> & y & Hy & Hl). split; auto. exists y. split; [now right|auto].
    + destruct E as [-> E]. split; auto. exists e. split; [now left|auto].
Qed.
Lemma fold_nadd (l : list Rnum) (x : R) : (fold_left (@nadd Rnum) l (x : Rnum) : R) = (x + Rsum l)%R.
Proof.
  revert x; induction l as [|y l IH]; intros x; cbn [fold_left]; [cbn; ring|]. rewrite IH. rewrite Rsum_cons. rnum. ring.
Qed.
Lemma np_mean_run s a bs : (np_mean (map fst (map (fun b => (dist_to s a b : Rnum, b)) bs)) : R) = mean_dist s a bs.
Proof.
  unfold np_mean, mean_dist. rewrite map_map. cbn [fst]. rewrite map_length.
  change (fold_left (@nadd Rnum) (map (fun b => dist_to s a b : Rnum) bs) n0 / IZR (Z.of_nat (length bs)) = Rsum (map (dist_to s a) bs) / INR (length bs))%R.
  rewrite (fold_nadd _ 0), Rplus_0_l, <- INR_IZR_INZ. reflexivity.
Qed.
Lemma shell_sets_run s a bs :
  shell_sets (map (fun b => (dist_to s a b : Rnum, b)) bs) = (first_shell s a bs, second_shell s a bs).
Proof.
  unfold shell_sets. rewrite np_mean_run. unfold first_shell, second_shell. generalize (mean_dist s a bs) as m. intros m.
  f_equal; induction bs as [|b bs IH]; auto; cbn [map filter fst]; rnum; unfold Rleb, Rltb in *.
  - destruct (Rle_dec (dist_to s a b) m); cbn [map snd]; [f_equal|]; apply IH.
  - destruct (Rlt_dec m (dist_to s a b)); cbn [map snd]; [f_equal|]; apply IH.
Qed.
Variable shell : list (atom Rnum) -> Rnum.
Variable W : list (atom Rnum) -> R.
Hypothesis HW : forall set, set <> [] -> (shell set : R) = W set.
Lemma shell_values_run s ref shells atoms a old :
  match shell_values s ref shells shell atoms (a, old) with
  | Ok new => sro_entry s atoms ref shells W a old new
  | Err e => e = IndexError /\ exists e, In e (a_nbrs a) /\ length atoms <= nb_idx e
  end.
Proof.
  unfold shell_values, sro_entry, is_type. destruct (Z.eqb (a_type a) ref); auto.
  pose proof (sro_neighbors_run s atoms a) as H. destruct (sro_neighbors s atoms a) as [nds|x]; cbn [bind]; auto.
  destruct H as (bs & Hb & ->). destruct (Z.eqb_spec shells 2) as [->|N2].
  - rewrite shell_sets_run. exists bs. split; auto. split; [|split; [discriminate|congruence]].
    intros _. do 2 eexists. split; [reflexivity|]. split; apply HW.
  - destruct (Z.eqb_spec shells 1) as [->|N1].
    + rewrite map_map. cbn [snd]. rewrite map_id. exists bs. split; auto. split; [congruence|]. split; [|congruence].
      intros _. eexists. split; [reflexivity|]. apply HW.
    + exists bs. split; auto. split; [congruence|]. split; [congruence|auto].
Qed.
Lemma sro_average_run ref atoms sros :
  match sro_average ref atoms sros with
  | Ok v => length atoms = length sros -> (fst v : R) = sro_mean ref atoms sros (fun l => nth 0 l 0%R) /\ (snd v : R) = sro_mean ref atoms sros (fun l => last l 0%R)
  | Err e => e = ValueError /\ exists a l, In (a, l) (combine atoms sros) /\ a_type a = ref /\ length l <> 1 /\ length l <> 2
  end.
Proof.
  unfold sro_average.
  assert (G : forall l (x y : R),
    match foldM (fun v p => if Z.eqb (a_type (fst p)) ref then add_sro v (snd p) else Ok v) l (x : Rnum, y : Rnum) with
    | Ok v => (fst v : R) = (x + Rsum (map (fun p => nth 0 (snd p) 0%R) (filter (fun p => is_type ref (fst p)) l)))%R /\
              (snd v : R) = (y + Rsum (map (fun p => last (snd p) 0%R) (filter (fun p => is_type ref (fst p)) l)))%R
    | Err e => e = ValueError /\ exists a sr, In (a, sr) l /\ a_type a = ref /\ length sr <> 1 /\ length sr <> 2
    end).
  { induction l as [|[a sr] l IH]; intros x y; cbn [foldM]; [cbn; split; ring|]. cbn [fst snd filter]. change (is_type ref a) with (Z.eqb (a_type a) ref).
    destruct (Z.eqb_spec (a_type a) ref) as [E|E].
    - destruct sr as [|u [|v [|w sr]]]; cbn [add_sro bind].
      + split; auto. exists a, []. cbn. intuition lia.
      + cbn [fst snd]. specialize (IH (x + u)%R (y + u)%R).
        match type of IH with match ?t with _ => _ end => match goal with |- match ?t' with _ => _ end => change t' with t end; destruct t end.
        * destruct IH as [-> ->]. cbn [map]. rewrite !Rsum_cons. cbn [nth last snd]. split; match goal with |- @eq _ ?a ?b => change (@eq R a b) end; ring.
        * destruct IH as (-> & a' & sr' & H & R). split; auto. exists a', sr'. split; [now right|auto].
      + cbn [fst snd]. specialize (IH (x + u)%R (y + v)%R).
        match type of IH with match ?t with _ => _ end => match goal with |- match ?t' with _ => _ end => change t' with t end; destruct t end.
        * destruct IH as [-> ->]. cbn [map]. rewrite !Rsum_cons. cbn [nth last snd]. split; match goal with |- @eq _ ?a ?b => change (@eq R a b) end; ring.
        * destruct IH as (-> & a' & sr' & H & R). split; auto. exists a', sr'. split; [now right|auto].
      + split; auto. exists a, (u :: v :: w :: sr). cbn [length]. intuition (try lia). now left.
    - cbn [bind]. specialize (IH x y). destruct (foldM _ l _).
      + exact IH.
      + destruct IH as (-> & a' & sr' & H & R). split; auto. exists a', sr'. split; [now right|auto]. }
  specialize (G (combine atoms sros) 0%R 0%R). change (@n0 Rnum) with (0%R : Rnum).
  destruct (foldM _ _ _) as [v|e]; cbn [bind]; [|exact G]. intros HL. destruct G as [G1 G2].
  assert (C : (nofZ (count_type atoms ref) : R) = INR (length (filter (fun p => is_type ref (fst p)) (combine atoms sros)))).
  { unfold count_type. change (IZR (Z.of_nat (length (filter (fun a => Z.eqb (a_type a) ref) atoms))) = INR (length (filter (fun p => is_type ref (fst p)) (combine atoms sros)))).
    rewrite <- INR_IZR_INZ. f_equal. clear -HL. revert sros HL. induction atoms as [|a l IH]; intros [|x sros] HL; try discriminate; auto.
    cbn [combine filter fst]. unfold is_type at 1. cbn [fst]. injection HL as HL. destruct (Z.eqb (a_type a) ref); cbn [length]; rewrite (IH sros HL); auto. }
  unfold sro_mean. cbv zeta. rewrite Rplus_0_l in G1, G2. cbn [fst snd]. split.
  - change ((fst v : R) / (nofZ (count_type atoms ref) : R) = Rsum (map (fun p => nth 0 (snd p) 0%R) (filter (fun p => is_type ref (fst p)) (combine atoms sros))) / INR (length (filter (fun p => is_type ref (fst p)) (combine atoms sros))))%R.
    now rewrite C, G1.
  - change ((snd v : R) / (nofZ (count_type atoms ref) : R) = Rsum (map (fun p => last (snd p) 0%R) (filter (fun p => is_type ref (fst p)) (combine atoms sros))) / INR (length (filter (fun p => is_type ref (fst p)) (combine atoms sros))))%R.
    now rewrite C, G2.
Qed.
End Sro.

Lemma combine_Forall2 {A B C} (P : A -> B -> C -> Prop) (l : list A) (m : list B) (r : list C) : length l = length m ->
  Forall2 (fun p c => P (fst p) (snd p) c) (combine l m) r ->
  length r = length l /\ forall i a b, nth_error l i = Some a -> nth_error m i = Some b -> exists c, nth_error r i = Some c /\ P a b c.
Proof.
  revert m r. induction l as [|a l IH]; intros [|b m] r HL H; try discriminate; cbn [combine] in H.
  - inversion H. split; auto. intros [|i]; discriminate.
  - inversion H as [|x c xs cs H1 H2]; subst. injection HL as HL. destruct (IH m cs HL H2) as [L R]. split; [cbn; congruence|].
    intros [|i] a' b'; cbn [nth_error]; [intros [= <-] [= <-]; exists c; auto|apply R].
Qed.

(** ** The calls *)
Section Calls.
Variable inv : m3 Rnum -> option (m3 Rnum).
Variable raw : Z -> atom Rnum.
Implicit Types (s t : sys Rnum) (a b : atom Rnum).

Lemma share_negb (ref : Z) (l : list (atom Rnum)) :
  (Z.of_nat (length l) - count_type l ref)%Z = Z.of_nat (length (filter (fun a => negb (is_type ref a)) l)).
Proof.
  unfold count_type. induction l as [|a l IH]; [reflexivity|]. cbn [filter length]. unfold is_type at 1.
  destruct (Z.eqb (a_type a) ref); cbn [negb length]; lia.
Qed.
Lemma sro_shell_wc ref (motr : R) all set : set <> [] -> motr = share (fun a => negb (is_type ref a)) all ->
  (sro_shell ref (motr : Rnum) set : R) = warren_cowley ref all set.
Proof.
  intros Hs Hm. unfold sro_shell, warren_cowley. cbv zeta. rewrite share_negb, <- Hm. unfold share.
  change (1 - IZR (Z.of_nat (length (filter (fun a => negb (is_type ref a)) set))) / (IZR (Z.of_nat (length set)) * motr) =
    1 - INR (length (filter (fun a => negb (is_type ref a)) set)) / INR (length set) / motr)%R.
  rewrite <- !INR_IZR_INZ. unfold Rdiv. rewrite Rinv_mult. ring.
Qed.
Lemma count_share (t : Z) (l : list (atom Rnum)) : (IZR (count_type l t) / INR (length l))%R = share (is_type t) l.
Proof. unfold share, count_type. now rewrite <- INR_IZR_INZ. Qed.
Lemma pmsro_shell_df comp (d : bool) (mcomp : R) all set : set <> [] -> mcomp = share (is_type comp) all -> mcomp <> 0%R ->
  (pmsro_shell comp d (mcomp : Rnum) set : R) = de_fontaine (if d then 1 else 0) comp all set.
Proof.
  intros Hs Hm H0. unfold pmsro_shell, de_fontaine. cbv zeta. rewrite <- Hm, <- (count_share comp set).
  set (c := count_type set comp). destruct d.
  - change ((IZR c / IZR (Z.of_nat (length set)) - mcomp) / (1 - mcomp) = (IZR c / INR (length set) - mcomp) / (1 - mcomp))%R.
    now rewrite <- INR_IZR_INZ.
  - change (1 - IZR c / (IZR (Z.of_nat (length set)) * mcomp) = (IZR c / INR (length set) - mcomp) / (0 - mcomp))%R.
    rewrite <- INR_IZR_INZ. assert (INR (length set) <> 0%R) by (destruct set; [congruence|apply not_0_INR; discriminate]).
    field. auto.
Qed.

(** The two types only. *)
Definition binary (l : list (atom Rnum)) : Prop := forall a, In a l -> a_type a = 1%Z \/ a_type a = 2%Z.
Lemma binary_count l : binary l -> (count_type l 1 + count_type l 2)%Z = Z.of_nat (length l).
Proof.
  unfold count_type, binary. induction l as [|a l IH]; intros H; [reflexivity|]. cbn [filter length].
  specialize (IH ltac:(intros; apply H; now right)). destruct (H a (or_introl eq_refl)) as [->| ->]; cbn [Z.eqb Pos.eqb length]; lia.
Qed.
Lemma motr_share ref l : binary l -> l <> [] -> ref = 1%Z \/ ref = 2%Z ->
  (1 - IZR (if Z.eqb ref 1 then count_type l 1 else count_type l 2) / IZR (count_type l 1 + count_type l 2) =
   share (fun a => negb (is_type ref a)) l)%R.
Proof.
  intros Hb Hn Hr. rewrite binary_count by auto. unfold share. rewrite !INR_IZR_INZ, <- share_negb.
  assert (IZR (Z.of_nat (length l)) <> 0%R) by (apply not_0_IZR; destruct l; [congruence|cbn; lia]).
  rewrite minus_IZR. destruct Hr as [-> | ->]; cbn [Z.eqb Pos.eqb]; field; auto.
Qed.

(** The common part of the two calls. *)
Lemma sro_run_spec s ref shells average shell W atoms olds : length olds = length atoms ->
  (forall set, set <> [] -> (shell set : Rnum) = (W set : R)) ->
  match sro_run inv raw s ref shells average shell atoms olds with
  | Ok (t, sros, v) => atoms_set inv raw s atoms = Ok t /\ length sros = length atoms /\
      (forall i a old, nth_error atoms i = Some a -> nth_error olds i = Some old -> exists new,
         nth_error sros i = Some new /\ sro_entry s atoms ref shells W a old new) /\
      v = (if average then Some (sro_mean ref atoms sros (fun l => nth 0 l 0%R) : Rnum, sro_mean ref atoms sros (fun l => last l 0%R) : Rnum) else None)
  | Err IndexError => exists a e, In a atoms /\ In e (a_nbrs a) /\ length atoms <= nb_idx e
  | Err x => atoms_set inv raw s atoms = Err x \/
      (x = ValueError /\ average = true /\ shells <> 1%Z /\ shells <> 2%Z /\
        exists a sro, In a atoms /\ a_type a = ref /\ length (sro : list Rnum) <> 1 /\ length sro <> 2 /\ In sro olds)
  end.
Proof.
  intros HL HW. unfold sro_run.
  assert (E0 : forall x, atoms_set inv raw s atoms = Err x -> x <> IndexError).
  { intros x. unfold atoms_set, repeat_cell. destruct (Z.ltb _ 200); [|discriminate]. destruct (Z.eqb _ 0); [now intros [= <-]|].
    destruct (neqb _ _); [now intros [= <-]|]. cbn [bind]. unfold box_set. destruct (nltb _ _); [|discriminate].
    destruct (inv _); [discriminate|]. now intros [= <-]. }
  destruct (mapM (shell_values s ref shells shell atoms) (combine atoms olds)) as [sros|x] eqn:EM; cbn [bind].
  - apply mapM_inv in EM.
    assert (F : Forall2 (fun p c => sro_entry s atoms ref shells W (fst p) (snd p) c) (combine atoms olds) sros).
    { eapply Forall2_impl; [|exact EM]. cbv beta. intros [a old] new E. cbn [fst snd].
      pose proof (@shell_values_run shell W HW s ref shells atoms a old) as S. rewrite E in S. exact S. }
    destruct (@combine_Forall2 _ _ _ (sro_entry s atoms ref shells W) atoms olds sros (eq_sym HL) F) as [LS FS].
    destruct (atoms_set inv raw s atoms) as [t|x] eqn:EA; cbn [bind].
    + destruct average; [|auto]. pose proof (sro_average_run ref atoms sros) as A.
      destruct (sro_average ref atoms sros) as [v|x]; cbn [bind].
      * destruct (A (eq_sym LS)) as [A1 A2]. split; auto. split; auto. split; auto. rewrite <- A1, <- A2. now destruct v.
      * destruct A as (-> & a & l & Hin & Ht & L1 & L2). right. split; auto. split; auto.
        apply In_nth_error in Hin as [i Hi].
        assert (Hi2 : nth_error atoms i = Some a /\ nth_error sros i = Some l).
        { clear -Hi. revert sros i Hi. induction atoms as [|a0 l0 IH]; intros [|x sros] [|i]; cbn [combine nth_error]; try discriminate; auto.
          now intros [= -> ->]. }
        destruct Hi2 as [Ha Hs]. assert (Hio : exists old, nth_error olds i = Some old).
        { destruct (nth_error olds i) eqn:E; eauto. apply nth_error_None in E. assert (i < length atoms) by (apply nth_error_Some; congruence). lia. }
        destruct Hio as [old Ho]. destruct (FS i a old Ha Ho) as (new & Hn & En). rewrite Hs in Hn. injection Hn as <-.
        unfold sro_entry, is_type in En. rewrite (proj2 (Z.eqb_eq _ _) Ht) in En.
        assert (NL : shells <> 1%Z /\ shells <> 2%Z /\ l = old).
        2:{ destruct NL as (N1 & N2 & ->). do 2 (split; auto). exists a, old. split; [eapply nth_error_In; eauto|]. do 3 (split; auto). eapply nth_error_In; eauto. }
        destruct En as (bs & _ & E2 & E1 & E3).
        destruct (Z.eq_dec shells 2) as [->|N2]; [destruct (E2 eq_refl) as (? & ? & -> & _); cbn in *; lia|].
        destruct (Z.eq_dec shells 1) as [->|N1]; [destruct (E1 eq_refl) as (? & -> & _); cbn in *; lia|]. auto.
    + pose proof (E0 x eq_refl). destruct x; auto. congruence.
  - apply mapM_Err in EM as ([a old] & Hin & E). pose proof (@shell_values_run shell W HW s ref shells atoms a old) as S.
    rewrite E in S. destruct S as (-> & e & He & Hl). exists a, e. split; auto. eapply in_combine_l; eauto.
Qed.
End Calls.

(** ** Radial distribution function *)
Section Rdf.
Implicit Types (s t : sys Rnum).
Definition pair_dist s (l : list (atom Rnum)) (p : nat * nat) : R :=
  match nth_error l (fst p), nth_error l (snd p) with
  | Some a, Some b => abs_distance s (a_pos b) (a_pos a)
  | _, _ => 0%R
  end.
Lemma pairdistances_run s : s_nop s = Z.of_nat (length (s_atoms s)) ->
  get_pairdistances s = Ok (map (fun p => pair_dist s (s_atoms s) p : Rnum) (pairs (length (s_atoms s)))).
Proof.
  intros Hn. unfold get_pairdistances. rewrite Hn, Nat2Z.id. set (n := length (s_atoms s)).
  assert (G : forall ps, (forall p, In p ps -> fst p < n /\ snd p < n) ->
    mapM (fun p => a <- get (s_atoms s) (fst p) ;; b <- get (s_atoms s) (snd p) ;; Ok (fst (abs_distance_ij s (a_pos a) (a_pos b)))) ps =
    Ok (map (fun p => pair_dist s (s_atoms s) p : Rnum) ps)).
  { induction ps as [|p ps IH]; intros H; [reflexivity|]. cbn [mapM map]. destruct (H p (or_introl eq_refl)) as [H1 H2].
    apply nth_error_Some in H1, H2. unfold pair_dist at 1.
    destruct (nth_error (s_atoms s) (fst p)) as [a|] eqn:E1; [|congruence]. destruct (nth_error (s_atoms s) (snd p)) as [b|] eqn:E2; [|congruence].
    rewrite (get_Ok E1), (get_Ok E2). cbn [bind]. rewrite IH by (intros; apply H; now right). reflexivity. }
  apply G. intros [i j] H. apply In_pairs in H. cbn [fst snd]. unfold n. lia.
Qed.
Lemma count_dist s l lo hi c : length (filter (in_bin lo hi c) (map (fun p => pair_dist s l p : Rnum) (pairs (length l)))) = pairs_in_bin s l lo hi c.
Proof.
  unfold pairs_in_bin. assert (G : forall ps, (forall p, In p ps -> fst p < length l /\ snd p < length l) ->
    length (filter (in_bin lo hi c) (map (fun p => pair_dist s l p : Rnum) ps)) =
    length (filter (fun p => match nth_error l (fst p), nth_error l (snd p) with
                           | Some a, Some b => in_bin lo hi c (abs_distance s (a_pos b) (a_pos a))
                           | _, _ => false end) ps)).
  { induction ps as [|p ps IH]; intros H; [reflexivity|]. cbn [map filter]. destruct (H p (or_introl eq_refl)) as [H1 H2].
    apply nth_error_Some in H1, H2. specialize (IH ltac:(intros; apply H; now right)). unfold pair_dist at 1.
    destruct (nth_error l (fst p)); [|congruence]. destruct (nth_error l (snd p)); [|congruence].
    destruct (in_bin lo hi c _); cbn [length]; congruence. }
  apply G. intros [i j] H. apply In_pairs in H. cbn [fst snd]. lia.
Qed.
Lemma py_max_run (l : list Rnum) : l <> [] -> exists m : R, py_max l = Ok (m : Rnum) /\ In m l /\ forall x, In x l -> (x <= m)%R.
Proof.
  destruct l as [|x l]; [congruence|]. intros _. cbn [py_max].
  assert (G : forall l (x : R), exists m : R, (fold_left (fun m x : Rnum => if nltb m x then x else m) l (x : Rnum)) = m /\ In m (x :: l) /\ forall y, In y (x :: l) -> (y <= m)%R).
  { induction l0 as [|y l0 IH]; intros z; cbn [fold_left].
    - exists z. split; auto. split; [now left|]. intros w [<-|[]]. lra.
    - change (nltb (n := Rnum) z y) with (Rltb z y). destruct (Rltb z y) eqn:E; [apply Rltb_true in E|apply Rltb_false in E].
      + destruct (IH y) as (m & Em & Hm & Hx). exists m. split; auto. split; [now right|].
        intros w [<-|Hw]; [|auto]. specialize (Hx y (or_introl eq_refl)). lra.
      + destruct (IH z) as (m & Em & Hm & Hx). exists m. split; auto. split.
        * destruct Hm as [Hm|Hm]; [now left|now (right; right)].
        * intros w [<-|[<-|Hw]]; [apply Hx; now left| |apply Hx; now right]. specialize (Hx z (or_introl eq_refl)). lra. }
  destruct (G l x) as (m & Em & Hm & Hx). exists m. split; [|auto]. f_equal. exact Em.
Qed.

Variables (lo hi : R) (bins : nat).
Hypothesis Hlt : (lo < hi)%R.
Hypothesis Hb : 1 <= bins.
Definition width : R := ((hi - lo) / INR bins)%R.
Definition edge (k : nat) : R := (lo + INR k * width)%R.
Lemma width_pos : (0 < width)%R.
Proof. unfold width. apply Rdiv_lt_0_compat; [lra|]. apply lt_0_INR. lia. Qed.
Lemma edge_last : edge bins = hi.
Proof. unfold edge, width. field. apply not_0_INR. lia. Qed.
Lemma edges_run : linspace_edges (N := Rnum) lo hi (Z.of_nat bins) = map (fun k => edge k : Rnum) (seq 0 (S bins)).
Proof.
  unfold linspace_edges. cbv zeta. unfold zrange. rewrite Z.sub_0_r, Nat2Z.id, map_map.
  rewrite seq_S, map_app. cbn [map plus]. rewrite edge_last. f_equal. apply map_ext. intros k. unfold edge, width.
  rnum. rewrite Z.add_0_l, <- !INR_IZR_INZ. ring.
Qed.
Lemma incr_edges n : forall k, incr (map (fun k => edge k : Rnum) (seq k n)).
Proof.
  induction n as [|n IH]; intros k; [exact I|]. destruct n as [|n]; [exact I|]. specialize (IH (S k)).
  cbn [seq map incr] in *. split; [|exact IH]. unfold edge. rewrite S_INR. pose proof width_pos. nra.
Qed.
Lemma nth_edge k n : k < n -> nth k (map (fun k => edge k : Rnum) (seq 0 n)) n0 = edge k.
Proof.
  intros H. assert (L : k < length (map (fun k => edge k : Rnum) (seq 0 n))) by (rewrite map_length, seq_length; auto).
  rewrite (nth_indep _ _ (edge 0 : Rnum) L). rewrite (map_nth (fun k => edge k : Rnum) (seq 0 n) 0 k). now rewrite seq_nth.
Qed.
Lemma hist_range_run (xs : list Rnum) :
  histogram_range (N := Rnum) (Z.of_nat bins) lo hi xs =
  Ok (map (fun k => Z.of_nat (length (filter (in_bin (edge k) (edge (S k)) (S k =? bins)) xs))) (seq 0 bins),
      map (fun k => edge k : Rnum) (seq 0 (S bins))).
Proof.
  unfold histogram_range. destruct (Z.ltb_spec (Z.of_nat bins) 1); [lia|].
  change (nltb (n := Rnum) hi lo) with (Rltb hi lo). rewrite (proj2 (Rltb_false hi lo)) by lra.
  change (neqb (n := Rnum) lo hi) with (Reqb lo hi). rewrite (proj2 (Reqb_false lo hi)) by lra. rewrite edges_run.
  do 2 f_equal. set (es := map (fun k => edge k : Rnum) (seq 1 bins)).
  change (map (fun k => edge k : Rnum) (seq 0 (S bins))) with ((edge 0 : Rnum) :: es).
  assert (Le : length es = bins) by (unfold es; rewrite map_length, seq_length; auto).
  apply nth_ext with (d := 0%Z) (d' := 0%Z).
  - cbn [histogram]. rewrite hist_length, map_length, seq_length. exact Le.
  - intros k Hk. assert (Hk' : k < length es) by (cbn [histogram] in Hk; now rewrite hist_length in Hk).
    rewrite hist_nth; [|apply (incr_edges (S bins) 0)|exact Hk'].
    change ((edge 0 : Rnum) :: es) with (map (fun k => edge k : Rnum) (seq 0 (S bins))).
    rewrite !nth_edge by lia. rewrite Le.
    assert (L : k < length (map (fun k => Z.of_nat (length (filter (in_bin (edge k) (edge (S k)) (S k =? bins)) xs))) (seq 0 bins))) by (rewrite map_length, seq_length; lia).
    set (F := fun k => Z.of_nat (length (filter (in_bin (edge k) (edge (S k)) (S k =? bins)) xs))) in *.
    rewrite (nth_indep _ _ (F 0) L), (map_nth F (seq 0 bins) 0 k), seq_nth by lia. reflexivity.
Qed.
Lemma shell_volume_pos k : (0 < shell_volume code_pi (edge k) width)%R.
Proof.
  unfold shell_volume. pose proof width_pos as Hw. set (r := edge k). set (w := width) in *.
  assert (0 < (r + w) ^ 3 - r ^ 3)%R.
  { replace ((r + w) ^ 3 - r ^ 3)%R with (w * (3 * (r + w / 2) * (r + w / 2) + w * w / 4))%R by field.
    apply Rmult_lt_0_compat; auto. pose proof (Rle_0_sqr (r + w / 2)) as H1. unfold Rsqr in H1.
    assert (0 < w * w)%R by (apply Rmult_lt_0_compat; auto). lra. }
  unfold code_pi. nra.
Qed.
Definition pair_number (n : Z) : Z := (n * (n - 1) / 2)%Z.
Lemma rdf_run s (hmax : option Rnum) : s_nop s = Z.of_nat (length (s_atoms s)) ->
  (match hmax with Some m => m = hi | None =>
     exists l, get_pairdistances s = Ok l /\ py_max l = Ok (hi : Rnum) end) ->
  calculate_rdf s (Z.of_nat bins) (lo : Rnum) hmax =
  Ok (map (fun k => (INR (pairs_in_bin s (s_atoms s) (edge k) (edge (S k)) (S k =? bins)) /
                      shell_volume code_pi (edge k) width / (IZR (pair_number (s_real s)) / cell_det (box_get s)))%R : Rnum) (seq 0 bins),
      map (fun k => edge k : Rnum) (seq 0 bins)).
Proof.
  intros Hn Hm. unfold calculate_rdf. rewrite (pairdistances_run s Hn) in *. cbn [bind].
  set (ds := map (fun p => pair_dist s (s_atoms s) p : Rnum) (pairs (length (s_atoms s)))) in *.
  assert (E : (match hmax with Some m => Ok m | None => py_max ds end) = Ok (hi : Rnum)).
  { destruct hmax as [m|]; [now rewrite Hm|]. destruct Hm as (l & [= <-] & E). exact E. }
  rewrite E. cbn [bind]. rewrite hist_range_run. cbn [bind].
  assert (B1 : nth_error (map (fun k => edge k : Rnum) (seq 0 (S bins))) 1 = Some (edge 1 : Rnum)) by (destruct bins; [lia|reflexivity]).
  assert (P0 : py_get (map (fun k => edge k : Rnum) (seq 0 (S bins))) 0 = Ok (edge 0 : Rnum)) by (apply (@py_get_Ok _ _ 0); reflexivity).
  assert (P1 : py_get (map (fun k => edge k : Rnum) (seq 0 (S bins))) 1 = Ok (edge 1 : Rnum)) by exact (py_get_Ok _ 1 B1).
  rewrite P0, P1. cbn [bind]. cbv zeta.
  assert (EW : nabs (n := Rnum) (nsub (edge 1 : Rnum) (edge 0 : Rnum)) = (width : Rnum)).
  { change (Rabs (edge 1 - edge 0) = width). unfold edge. cbn [INR]. replace (lo + 1 * width - (lo + 0 * width))%R with width by ring.
    apply Rabs_pos_eq. left. apply width_pos. }
  rewrite EW. f_equal.
  assert (ER : firstn (length (map (fun k => edge k : Rnum) (seq 0 (S bins))) - 1) (map (fun k => edge k : Rnum) (seq 0 (S bins))) = map (fun k => edge k : Rnum) (seq 0 bins)).
  { rewrite map_length, seq_length. cbn [Nat.sub]. rewrite Nat.sub_0_r, seq_S, map_app, firstn_app, map_length, seq_length, Nat.sub_diag.
    rewrite firstn_all2 by (rewrite map_length, seq_length; lia). cbn [firstn]. apply app_nil_r. }
  rewrite ER. f_equal.
  assert (EV : rdf_volume (box_get s) = cell_det (box_get s) :> R).
  { unfold rdf_volume, cell_det, vdot. rnum. cbn [vx vy vz]. ring. }
  assert (G : forall l, map (fun p : Z * Rnum =>
      ndiv (ndiv (nofZ (fst p)) (nmul (nmul (ndiv (nofZ 4) (nofZ 3)) (nlit 3141592653589793 1000000000000000))
        (nsub (nmul (nmul (nadd (snd p) (width : Rnum)) (nadd (snd p) (width : Rnum))) (nadd (snd p) (width : Rnum))) (nmul (nmul (snd p) (snd p)) (snd p)))))
        (ndiv (nofZ (s_real s * (s_real s - 1) / 2)) (rdf_volume (box_get s))))
     (combine (map (fun k => Z.of_nat (length (filter (in_bin (edge k) (edge (S k)) (S k =? bins)) ds))) l) (map (fun k => edge k : Rnum) l)) =
     map (fun k => (INR (pairs_in_bin s (s_atoms s) (edge k) (edge (S k)) (S k =? bins)) /
                      shell_volume code_pi (edge k) width / (IZR (pair_number (s_real s)) / cell_det (box_get s)))%R : Rnum) l).
  { induction l as [|k l IH]; [reflexivity|]. cbn [map combine]. rewrite IH. f_equal. cbn [fst snd].
    rewrite EV. unfold ds. rewrite count_dist. rnum. rewrite <- INR_IZR_INZ. unfold shell_volume, code_pi, pair_number. 
    match goal with |- (?a / ?b / ?c)%R = (?a / ?b' / ?c)%R => assert (b = b') as -> by (cbn [pow]; field); reflexivity end. }
  apply G.
Qed.
(** Counts over all bins. *)
Lemma bins_total (xs : list R) : fold_right Nat.add 0 (map (fun k => length (filter (in_bin (edge k) (edge (S k)) (S k =? bins)) xs)) (seq 0 bins)) =
  length (filter (in_bin lo hi true) xs).
Proof.
  pose proof (hist_range_run xs) as H. unfold histogram_range in H.
  destruct (Z.ltb_spec (Z.of_nat bins) 1); [lia|].
  change (nltb (n := Rnum) hi lo) with (Rltb hi lo) in H. rewrite (proj2 (Rltb_false hi lo)) in H by lra.
  change (neqb (n := Rnum) lo hi) with (Reqb lo hi) in H. rewrite (proj2 (Reqb_false lo hi)) in H by lra. rewrite edges_run in H.
  apply (f_equal (fun r => match r with Ok p => fst p | Err _ => [] end)) in H. cbn [fst] in H. set (es := map (fun k => edge k : Rnum) (seq 1 bins)) in *.
  assert (E0 : edge 0 = lo) by (unfold edge; cbn [INR]; ring).
  assert (Hs := @hist_sum Rnum xs (edge 0 : Rnum) es). 
  assert (H' : histogram ((edge 0 : Rnum) :: es) xs = map (fun k => Z.of_nat (length (filter (in_bin (edge k) (edge (S k)) (S k =? bins)) xs))) (seq 0 bins)) by exact H.
  rewrite H' in Hs.
  apply Nat2Z.inj. transitivity (upto (hi : Rnum) xs - below (lo : Rnum) xs)%Z.
  - rewrite <- E0. rewrite <- edge_last. assert (last es n0 = (edge bins : Rnum)) as <-.
    { unfold es. destruct bins as [|b]; [lia|]. rewrite seq_S, map_app. apply last_last. }
    rewrite <- Hs.
    + clear. induction (seq 0 bins) as [|k l IH]; [reflexivity|]. cbn [map fold_right]. rewrite Nat2Z.inj_add, IH. reflexivity.
    + unfold es. destruct bins; [lia|discriminate].
  - apply bin_closed. lra.
Qed.
End Rdf.

(** ** Types numbered from 1 *)
Lemma sorted_range : forall (n : nat) (a : Z) (K : list Z), StronglySorted Z.lt K ->
  (forall t, In t K <-> (a <= t < a + Z.of_nat n)%Z) -> K = map (fun i => (a + Z.of_nat i)%Z) (seq 0 n).
Proof.
  induction n as [|n IH]; intros a K S H.
  - destruct K as [|x K]; [reflexivity|]. specialize (H x). destruct H as [H _]. specialize (H (or_introl eq_refl)). lia.
  - destruct K as [|x K]; [exfalso; apply (H a); lia|]. inversion S as [|? ? S' F]; subst. rewrite Forall_forall in F.
    assert (x = a) as ->.
    { destruct (proj2 (H a) ltac:(lia)) as [E|E]; auto. specialize (F _ E). pose proof (proj1 (H x) (or_introl eq_refl)). lia. }
    cbn [seq map]. f_equal; [lia|]. rewrite <- seq_shift, map_map. rewrite (IH (a + 1)%Z K S').
    + apply map_ext. intros; lia.
    + intros t. split; intros Ht.
      * pose proof (F _ Ht). pose proof (proj1 (H t) (or_intror Ht)). lia.
      * destruct (proj2 (H t) ltac:(lia)) as [E|E]; auto. lia.
Qed.
Lemma unique_nth (l : list Z) (n c : Z) : (forall t, In t l <-> (1 <= t <= n)%Z) -> (1 <= c <= n)%Z ->
  py_get (map snd (np_unique l)) (c - 1) = Ok (number_of c l).
Proof.
  intros H Hc. destruct (unique_spec l) as [S U].
  assert (K : map fst (np_unique l) = map (fun i => (1 + Z.of_nat i)%Z) (seq 0 (Z.to_nat n))).
  { apply sorted_range; auto. intros t. rewrite unique_keys, H. lia. }
  replace (c - 1)%Z with (Z.of_nat (Z.to_nat (c - 1))) by lia. apply py_get_Ok.
  assert (E : nth_error (map fst (np_unique l)) (Z.to_nat (c - 1)) = Some c).
  { rewrite K, nth_error_map, (nth_error_nth' _ 0) by (rewrite seq_length; lia). rewrite seq_nth by lia. cbn [option_map]. f_equal. lia. }
  rewrite nth_error_map in *. destruct (nth_error (np_unique l) (Z.to_nat (c - 1))) as [[t k]|] eqn:Eu; [|discriminate].
  cbn in *. injection E as ->. apply nth_error_In in Eu. apply U in Eu as [-> _]. reflexivity.
Qed.
Lemma number_share (t : Z) (l : list (atom Rnum)) :
  (IZR (number_of t (map (@a_type Rnum) l)) / INR (length l))%R = share (is_type t) l.
Proof.
  rewrite <- count_share. f_equal. f_equal. unfold number_of, count_type. f_equal.
  induction l as [|a l IH]; [reflexivity|]. cbn [map filter]. rewrite Z.eqb_sym. destruct (Z.eqb t (a_type a)) eqn:E; rewrite Z.eqb_sym, E; cbn [length]; now rewrite IH.
Qed.
Lemma iter_types_run (N : num) (s : sys N) reals : get_atoms s = Ok reals -> iter_types s = Ok (map (@a_type N) reals).
Proof.
  unfold get_atoms, iter_types. generalize (seq 0 (Z.to_nat (s_real s))). intros is. revert reals.
  induction is as [|i is IH]; intros reals; cbn [mapM]; [intros [= <-]; reflexivity|].
  destruct (get (s_atoms s) i) as [a|]; cbn [bind]; [|discriminate].
  destruct (mapM (fun i => get (s_atoms s) i) is) as [l|]; cbn [bind]; [|discriminate]. intros [= <-].
  rewrite (IH _ eq_refl). reflexivity.
Qed.

Lemma share_range {A} (P : A -> bool) l : l <> [] -> (0 <= share P l <= 1)%R /\
  (share P l = 0%R <-> forall a, In a l -> P a = false).
Proof.
  intros H. unfold share.
  assert (L : (0 < INR (length l))%R) by (apply lt_0_INR; destruct l; [congruence|cbn; lia]).
  assert (F : length (filter P l) <= length l).
  { clear. induction l as [|a l IH]; [cbn; lia|]. cbn [filter]. destruct (P a); cbn [length]; lia. }
  apply le_INR in F. pose proof (pos_INR (length (filter P l))) as F0.
  split; [split|].
  - apply Rmult_le_pos; auto. left. now apply Rinv_0_lt_compat.
  - apply (Rmult_le_reg_r (INR (length l))); auto. unfold Rdiv. rewrite Rmult_assoc, Rinv_l by lra. lra.
  - split.
    + intros E. assert (Z : INR (length (filter P l)) = 0%R).
      { apply (f_equal (fun x => x * INR (length l))%R) in E. unfold Rdiv in E. rewrite Rmult_assoc, Rinv_l in E by lra. lra. }
      change 0%R with (INR 0) in Z. apply INR_eq in Z. intros a Ha. destruct (P a) eqn:Q; auto.
      assert (I : In a (filter P l)) by (apply filter_In; auto). destruct (filter P l); [destruct I|discriminate].
    + intros E. replace (filter P l) with (@nil A); [cbn; unfold Rdiv; now rewrite Rmult_0_l|].
      symmetry. clear -E. induction l as [|a l IH]; [reflexivity|]. cbn [filter]. rewrite E by (now left). apply IH. intros; apply E; now right.
Qed.
Lemma wc_range ref (all shell : list (atom Rnum)) : shell <> [] -> (exists a, In a all /\ a_type a <> ref) ->
  let x := warren_cowley ref all shell in
  (1 - 1 / share (fun a => negb (is_type ref a)) all <= x <= 1)%R /\
  (x = 1%R <-> forall b, In b shell -> a_type b = ref) /\
  (x = 0%R <-> share (fun a => negb (is_type ref a)) shell = share (fun a => negb (is_type ref a)) all).
Proof.
  intros Hs (a & Ha & Ht). cbn zeta. unfold warren_cowley. set (P := fun a : atom Rnum => negb (is_type ref a)).
  destruct (share_range P Hs) as [[A1 A2] A3].
  assert (Hall : all <> []) by (intros ->; destruct Ha).
  destruct (share_range P Hall) as [[B1 B2] B3].
  assert (B : (0 < share P all)%R).
  { destruct B1 as [B1|B1]; auto. exfalso. symmetry in B1. rewrite B3 in B1. specialize (B1 _ Ha). unfold P, is_type in B1.
    apply Bool.negb_false_iff, Z.eqb_eq in B1. auto. }
  set (y := share P shell) in *. set (c := share P all) in *.
  pose proof (Rinv_0_lt_compat _ B) as I. unfold Rdiv. rewrite Rmult_1_l. split; [|split].
  - split; [|pose proof (Rmult_le_pos y (/ c) A1 ltac:(lra)); lra].
    pose proof (Rmult_le_compat_r (/ c) y 1 ltac:(lra) A2). lra.
  - transitivity (y = 0%R).
    + split; intros E; [|rewrite E; lra]. assert (Z : (y * / c = 0)%R) by lra.
      apply Rmult_integral in Z as [Z|Z]; auto. lra.
    + rewrite A3. unfold P, is_type. split; intros E b Hb; specialize (E b Hb).
      * now apply Bool.negb_false_iff, Z.eqb_eq in E.
      * now apply Bool.negb_false_iff, Z.eqb_eq.
  - split; intros E.
    + assert (Z : (y * / c = 1)%R) by lra. apply (f_equal (fun z => z * c)%R) in Z. rewrite Rmult_assoc, Rinv_l in Z by lra. lra.
    + rewrite E, Rinv_r by lra. lra.
Qed.
