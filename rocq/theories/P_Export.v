(** Proofs about exporting loaded blocks. *)
From Coq Require Import Ascii String Lia.
From Verif Require Import Base Num Types M_Geometry M_Container M_Analysis M_Text M_Lammps M_Traj.
From Verif Require Import P_Text P_Neighbors P_Lammps P_LammpsSys P_Traj S_Lammps S_Traj.
Set Implicit Arguments.
Unset Strict Implicit.
Local Open Scope Z_scope.

(** ** Lines of words *)
Lemma uncomment_id s : ~ In "#"%char s -> uncomment s = s.
Proof.
  induction s as [|c s IH]; intros H; [reflexivity|]. cbn [uncomment]. destruct (Ascii.eqb_spec c "#") as [->|_]; [exfalso; apply H; left; reflexivity|].
  rewrite IH; [reflexivity|]. intros K. apply H. right. exact K.
Qed.
Lemma plain_word w : plain w -> word w.
Proof. intros [H _]. apply is_word_word, H. Qed.
Lemma line_words ws : Forall plain ws -> ws <> [] -> words (uncomment (join (tx " ") ws ++ [nl])) = ws.
Proof.
  intros H NE. assert (W : Forall word ws) by (eapply Forall_impl; [|exact H]; intros w; apply plain_word).
  rewrite uncomment_id.
  - rewrite words_join by (auto; reflexivity). apply app_nil_r.
  - intros K. apply in_app_iff in K. destruct K as [K|[K|[]]]; [|discriminate]. apply in_join in K. destruct K as [K|(w & Hw & K)]; [discriminate|].
    rewrite Forall_forall in H. destruct (H w Hw) as [_ N]. contradiction.
Qed.
Lemma line_one ws : Forall plain ws -> one_line (join (tx " ") ws ++ [nl]).
Proof.
  intros H. exists (join (tx " ") ws). split; [reflexivity|]. intros K. apply in_join in K. destruct K as [K|(w & Hw & K)]; [discriminate|].
  rewrite Forall_forall in H. destruct (H w Hw) as [[_ B] _]. specialize (B _ K). discriminate.
Qed.
Lemma table_lines (rows : list (list text)) : Forall (fun ws => Forall plain ws /\ ws <> []) rows ->
  table (map (fun ws => join (tx " ") ws ++ [nl]) rows) = rows.
Proof.
  unfold table. induction 1 as [|ws rows [H NE] HR IH]; [reflexivity|]. cbn [map filter]. rewrite line_words by assumption.
  destruct ws as [|w ws]; [congruence|]. cbn [List.length Nat.eqb negb]. rewrite IH. reflexivity.
Qed.
Lemma join_app a b : a <> [] -> b <> [] -> join (tx " ") (a ++ b) = join (tx " ") a ++ tx " " ++ join (tx " ") b.
Proof.
  intros Ha Hb. induction a as [|x a IH]; [congruence|]. destruct a as [|y a].
  - cbn [app]. destruct b as [|z b]; [congruence|]. reflexivity.
  - change ((x :: y :: a) ++ b) with (x :: (y :: a) ++ b). change (join (tx " ") (x :: (y :: a) ++ b)) with (x ++ tx " " ++ join (tx " ") ((y :: a) ++ b)).
    rewrite IH by discriminate. change (join (tx " ") (x :: y :: a)) with (x ++ tx " " ++ join (tx " ") (y :: a)). rewrite !app_assoc. reflexivity.
Qed.
Lemma mapM_map {A B C} (f : B -> res C) (g : A -> B) l : mapM f (map g l) = mapM (fun x => f (g x)) l.
Proof. induction l as [|x l IH]; [reflexivity|]. cbn. rewrite IH. reflexivity. Qed.
Lemma mapM_ext_in {A B} (f g : A -> res B) l : (forall x, In x l -> f x = g x) -> mapM f l = mapM g l.
Proof. induction l as [|x l IH]; intros H; [reflexivity|]. cbn. rewrite H by (left; reflexivity). rewrite IH by (intros y Hy; apply H; right; exact Hy). reflexivity. Qed.

Lemma is_int_key_spec k : is_int_key k = true <-> int_name k.
Proof. unfold is_int_key, int_name. rewrite Bool.orb_true_iff, !teqb_true. reflexivity. Qed.
Lemma is_int_key_false k : is_int_key k = false <-> ~ int_name k.
Proof. rewrite <- is_int_key_spec. destruct (is_int_key k); split; intros H; try reflexivity; try discriminate; try (exfalso; apply H; reflexivity). Qed.

Lemma parts9 {A} (h5 b3 : list A) h r : List.length h5 = 5%nat -> List.length b3 = 3%nat ->
  firstn 3 (skipn 5 (h5 ++ b3 ++ [h] ++ r)) = b3 /\ skipn 9 (h5 ++ b3 ++ [h] ++ r) = r /\ firstn 1 (skipn 8 (h5 ++ b3 ++ [h] ++ r)) = [h].
Proof.
  intros L5 L3. destruct h5 as [|? [|? [|? [|? [|? [|? ?]]]]]]; try discriminate. destruct b3 as [|? [|? [|? [|? ?]]]]; try discriminate. auto.
Qed.

Section E.
Variable N : num.
Variable T : textnum N.
Variable repr : N -> text.
Implicit Types dd : block N.

Lemma dget_parts (p : text -> bool) (d : dict (list N)) k :
  dget (filter (fun x => p (fst x)) d ++ filter (fun x => negb (p (fst x))) d) k = dget d k.
Proof.
  assert (G : forall (d1 d2 : dict (list N)), dget (d1 ++ d2) k = match dget d1 k with Some v => Some v | None => dget d2 k end).
  { clear. induction d1 as [|[k' v] d1 IH]; intros d2; [reflexivity|]. cbn. destruct (teqb k k'); [reflexivity|apply IH]. }
  rewrite G. clear G.
  assert (F : forall (q : text -> bool) (d : dict (list N)), dget (filter (fun x => q (fst x)) d) k = if q k then dget d k else None).
  { clear. intros q. induction d as [|[k' v] d IH]; [destruct (q k); reflexivity|]. cbn. destruct (q k') eqn:Q.
    - cbn. destruct (teqb k k') eqn:E; [apply teqb_true in E; subst; rewrite Q; reflexivity|exact IH].
    - rewrite IH. destruct (q k) eqn:Q2; [|reflexivity]. destruct (teqb k k') eqn:E; [apply teqb_true in E; subst; congruence|reflexivity]. }
  rewrite (F p), (F (fun x => negb (p x))). destruct (p k); cbn; [destruct (dget d k); reflexivity|reflexivity].
Qed.

(** The text of the i-th number of a column. *)
Definition cell (p : text * list N) (i : nat) : text :=
  match nth_error (snd p) i with
  | Some x => if is_int_key (fst p) then show_int (ntrunc x) else repr x
  | None => []
  end.
Definition value_at (p : text * list N) (i : nat) : N := match nth_error (snd p) i with Some x => x | None => n0 end.

Lemma rectangular_all {A} m (rows : list (list A)) : Forall (fun r => List.length r = m) rows -> rectangular rows = true.
Proof.
  intros H. destruct H as [|r rows H1 H2]; [reflexivity|]. cbn. apply forallb_forall. intros r' Hr'. rewrite Forall_forall in H2. apply Nat.eqb_eq.
  rewrite H2 by exact Hr'. symmetry. exact H1.
Qed.
Lemma squeeze_A2 m (rows : list (list N)) : (2 <= List.length rows)%nat -> (2 <= m)%nat -> Forall (fun r => List.length r = m) rows -> squeeze rows = A2 rows.
Proof.
  intros L M H. destruct rows as [|r1 [|r2 rows]]; cbn [List.length] in L; try lia. inversion H as [|? ? H1 H2]; subst.
  destruct r1 as [|x [|y r1]]; cbn [List.length] in M; try lia. reflexivity.
Qed.
Lemma seq_map_nth {A} (l : list A) (d : A) n : List.length l = n -> map (fun i => match nth_error l i with Some x => x | None => d end) (seq 0 n) = l.
Proof.
  intros <-. induction l as [|x l IH]; [reflexivity|]. cbn [List.length seq map nth_error]. f_equal. rewrite <- seq_shift, map_map. exact IH.
Qed.

Section Data.
Variable n : nat.
Variable atoms : dict (list N).
Hypothesis (Hcols : Forall (fun p => List.length (snd p) = n) atoms).
Hypothesis (Hf : forall k c, In (k, c) atoms -> ~ int_name k -> Forall (reads_back T repr) c).
Hypothesis (Hd : forall k c, In (k, c) atoms -> int_name k -> Forall (integral T) c).

Lemma cell_plain p i : In p atoms -> (i < n)%nat -> plain (cell p i) /\ parse_float T (cell p i) = Ok (value_at p i).
Proof.
  intros Hp Hi. destruct p as [k c]. pose proof Hcols as HC. rewrite Forall_forall in HC. specialize (HC _ Hp). cbn in HC.
  unfold cell, value_at. cbn [snd fst]. destruct (nth_error c i) as [x|] eqn:E; [|apply nth_error_None in E; lia].
  apply nth_error_In in E. destruct (is_int_key k) eqn:K.
  - apply is_int_key_spec in K. pose proof (Hd Hp K) as H. rewrite Forall_forall in H. destruct (H x E) as [_ P]. split; [|exact P].
    split; [apply is_word_word, show_int_word|]. unfold show_int. intros Q.
    destruct (Z.ltb_spec (ntrunc x) 0) as [L|L].
    + destruct Q as [Q|Q]; [discriminate|]. destruct (show_nat_spec (- ntrunc x)) as (D & _ & _); [lia|]. apply D in Q. discriminate.
    + destruct (show_nat_spec (ntrunc x)) as (D & _ & _); [lia|]. apply D in Q. discriminate.
  - apply is_int_key_false in K. pose proof (Hf Hp K) as H. rewrite Forall_forall in H. apply (H x E).
Qed.
End Data.

Lemma convert_lines natoms n dd : good_data n dd -> good_numbers T repr dd ->
  exists rows, b_box dd = A2 rows /\
  let xd := filter (fun p => is_int_key (fst p)) (b_atoms dd) in
  let xf := filter (fun p => negb (is_int_key (fst p))) (b_atoms dd) in
  let line ws := join (tx " ") ws ++ [nl] in
  convert repr natoms dd = Ok ([tx "ITEM: TIMESTEP" ++ [nl]; show_int 0 ++ [nl]; tx "ITEM: NUMBER OF ATOMS" ++ [nl]; show_int natoms ++ [nl];
       tx "ITEM: BOX BOUNDS pp pp pp" ++ [nl]] ++ map (fun r => line (map repr r)) rows ++
       [line (tx "ITEM:" :: tx "ATOMS" :: map fst (xd ++ xf))] ++
       map (fun i => line (map (fun p => cell p i) (xd ++ xf))) (seq 0 n)).
Proof.
  intros G (Gb & Gf & Gd). destruct (gd_box G) as (rows & m & EB & LB & LM & FB). exists rows. split; [exact EB|]. intros xd xf line.
  destruct (gd_int G) as (ki & Iki & Hki). destruct (gd_other G) as (ko & Iko & Hko).
  assert (NXd : xd <> []).
  { apply in_map_iff in Hki. destruct Hki as ([k c] & <- & Hp). intros E. assert (H : In (k, c) xd); [|rewrite E in H; destruct H]. apply filter_In. split; [exact Hp|]. apply is_int_key_spec, Iki. }
  assert (NXf : xf <> []).
  { apply in_map_iff in Hko. destruct Hko as ([k c] & <- & Hp). intros E. assert (H : In (k, c) xf); [|rewrite E in H; destruct H]. apply filter_In. split; [exact Hp|]. cbn [fst] in *. apply is_int_key_false in Iko. rewrite Iko. reflexivity. }
  pose proof (gd_cols G) as HC. rewrite Forall_forall in HC.
  assert (Sd : forall p, In p xd -> In p (b_atoms dd) /\ is_int_key (fst p) = true) by (intros p Hp; apply filter_In in Hp; exact Hp).
  assert (Sf : forall p, In p xf -> In p (b_atoms dd) /\ is_int_key (fst p) = false).
  { intros p Hp. apply filter_In in Hp. destruct Hp as [Hp K]. split; [exact Hp|]. destruct (is_int_key (fst p)); [discriminate|reflexivity]. }
  unfold convert. rewrite EB. cbn [box_text bind]. fold xd xf.
  assert (Ed : match xd with [] => Ok [] | (_, c) :: _ => mapM (fun i => w <- mapM (fun p => x <- at_ i (snd p) ;; show_d x) xd ;; Ok (join (tx " ") w)) (seq 0 (List.length c)) end
             = Ok (map (fun i => join (tx " ") (map (fun p => cell p i) xd)) (seq 0 n))).
  { destruct xd as [|[k c] xd'] eqn:EX; [congruence|]. assert (Lc : List.length c = n). { apply (HC (k, c)). apply Sd. left. reflexivity. } rewrite Lc.
    apply mapM_Ok. intros i Hi. apply in_seq in Hi. rewrite (@mapM_Ok _ _ _ (fun p => cell p i)); [reflexivity|]. intros [k' c'] Hp. destruct (Sd _ Hp) as [Hp' K].
    specialize (HC _ Hp'). cbn [snd fst] in *. unfold cell, at_. cbn [snd fst]. destruct (nth_error c' i) as [x|] eqn:E; [|apply nth_error_None in E; lia]. cbn [bind].
    apply nth_error_In in E. rewrite K. apply is_int_key_spec in K. pose proof (Gd _ _ Hp' K) as H. rewrite Forall_forall in H. destruct (H x E) as [F _]. unfold show_d. rewrite F. reflexivity. }
  rewrite Ed. cbn [bind]. clear Ed.
  rewrite (@rectangular_all _ n). 2:{ apply Forall_forall. intros r Hr. apply in_map_iff in Hr. destruct Hr as (p & <- & Hp). apply HC, Sf, Hp. }
  cbn [bind].
  assert (Ef : match xf with [] => Ok [] | (_, c) :: _ => mapM (fun i => w <- mapM (fun p => x <- at_ i (snd p) ;; Ok (repr x)) xf ;; Ok (line_of w)) (seq 0 (List.length c)) end
             = Ok (map (fun i => line (map (fun p => cell p i) xf)) (seq 0 n))).
  { destruct xf as [|[k c] xf'] eqn:EX; [congruence|]. assert (Lc : List.length c = n). { apply (HC (k, c)). apply Sf. left. reflexivity. } rewrite Lc.
    apply mapM_Ok. intros i Hi. apply in_seq in Hi. rewrite (@mapM_Ok _ _ _ (fun p => cell p i)); [reflexivity|]. intros [k' c'] Hp. destruct (Sf _ Hp) as [Hp' K].
    specialize (HC _ Hp'). cbn [snd fst] in *. unfold cell, at_. cbn [snd fst]. destruct (nth_error c' i) as [x|] eqn:E; [|apply nth_error_None in E; lia]. cbn [bind]. rewrite K. reflexivity. }
  rewrite Ef. cbn [bind]. clear Ef. rewrite map_length, seq_length.
  rewrite (@mapM_Ok _ _ _ (fun i => line (map (fun p => cell p i) (xd ++ xf)))).
  2:{ intros i Hi. apply in_seq in Hi. unfold at_. rewrite !nth_error_map.
      assert (E : nth_error (seq 0 n) i = Some i).
      { rewrite (nth_error_nth' _ 0%nat) by (rewrite seq_length; lia). rewrite seq_nth by lia. reflexivity. }
      rewrite E. cbn [option_map bind]. f_equal. unfold line. rewrite map_app, join_app; [|destruct xd; [congruence|discriminate]|destruct xf; [congruence|discriminate]].
      cbn [join]. rewrite !app_nil_r || idtac. rewrite <- !app_assoc. reflexivity. }
  cbn [bind]. f_equal. f_equal. f_equal. f_equal. unfold line. cbn [app].
  change (tx "ITEM:" :: tx "ATOMS" :: map fst (xd ++ xf)) with ([tx "ITEM:"; tx "ATOMS"] ++ map fst (xd ++ xf)).
  rewrite map_app, join_app; [|discriminate|destruct xd; [congruence|discriminate]].
  rewrite join_app; [|destruct xd; [congruence|discriminate]|destruct xf; [congruence|discriminate]].
  f_equal.
Qed.

Lemma fold_columns rows : forall (d : dict (list N)) acc (m : nat),
  (forall i p, nth_error d i = Some p -> column (A2 rows) (m + i) = Ok (snd p)) ->
  NoDup (map fst (acc ++ d)) ->
  foldM (fun d p => c <- column (A2 rows) (fst p) ;; Ok (dset d (snd p) c)) (combine (seq m (List.length (map fst d))) (map fst d)) acc = Ok (acc ++ d).
Proof.
  induction d as [|[k c] d IH]; intros acc m H ND; [cbn; rewrite app_nil_r; reflexivity|].
  cbn [map List.length seq combine foldM fst snd]. rewrite <- (Nat.add_0_r m) at 1. rewrite (H 0%nat (k, c) eq_refl). cbn [bind].
  assert (NI : ~ In k (map fst acc)).
  { rewrite map_app in ND. cbn [map fst] in ND. apply NoDup_remove_2 in ND. intros K. apply ND, in_or_app. left. exact K. }
  rewrite dset_fresh by exact NI. cbn [snd]. rewrite (IH (acc ++ [(k, c)]) (S m)).
  - rewrite <- app_assoc. reflexivity.
  - intros i p Hp. replace (S m + i)%nat with (m + S i)%nat by lia. apply H. exact Hp.
  - rewrite <- app_assoc. exact ND.
Qed.

Lemma load_header_line ks (line := join (tx " ") (tx "ITEM:" :: tx "ATOMS" :: ks) ++ [nl]) : Forall plain (tx "ITEM:" :: tx "ATOMS" :: ks) -> load_header [line] = Ok ks.
Proof.
  intros H. unfold load_header. pose proof (@table_lines [tx "ITEM:" :: tx "ATOMS" :: ks]) as TH. cbn [map] in TH. fold line in TH.
  rewrite TH; [|constructor; [split; [exact H|discriminate]|constructor]]. reflexivity.
Qed.
Lemma block_of_parts (h5 b3 : list text) h r : List.length h5 = 5%nat -> List.length b3 = 3%nat ->
  block_of T (h5 ++ b3 ++ [h] ++ r) =
    (box <- loadtxt T b3 ;; columns <- loadtxt T r ;; header <- load_header [h] ;;
     atoms <- foldM (fun d p => c <- column columns (fst p) ;; Ok (dset d (snd p) c)) (combine (seq 0 (List.length header)) header) [] ;;
     Ok (mkBlock box atoms)).
Proof. intros H5 H3. unfold block_of. destruct (parts9 h r H5 H3) as (-> & -> & ->). reflexivity. Qed.

Theorem export_back natoms n dd : good_data n dd -> good_numbers T repr dd ->
  exists ls dd', convert repr natoms dd = Ok ls /\ Forall one_line ls /\ List.length ls = (9 + n)%nat /\
    nth_error ls 1 = Some (show_int 0 ++ [nl]) /\ nth_error ls 3 = Some (show_int natoms ++ [nl]) /\
    block_of T ls = Ok dd' /\ same_data dd' dd.
Proof.
  intros G GN. destruct (convert_lines natoms G GN) as (rows & EB & EC). cbv beta zeta in EC. destruct GN as (Gb & Gf & Gd).
  destruct (gd_box G) as (rows' & m & EB' & LB & LM & FB). rewrite EB in EB'. injection EB' as <-.
  set (xd := filter (fun p => is_int_key (fst p)) (b_atoms dd)) in *. set (xf := filter (fun p => negb (is_int_key (fst p))) (b_atoms dd)) in *.
  assert (SA : forall p, In p (xd ++ xf) -> In p (b_atoms dd)).
  { intros p Hp. apply in_app_iff in Hp. destruct Hp as [Hp|Hp]; apply filter_In in Hp; apply Hp. }
  assert (PB : Forall (fun ws => Forall plain ws /\ ws <> []) (map (map repr) rows)).
  { apply Forall_forall. intros ws Hw. apply in_map_iff in Hw. destruct Hw as (r & <- & Hr). pose proof (Gb rows EB) as H. rewrite Forall_forall in H. specialize (H r Hr). split.
    - apply Forall_map. eapply Forall_impl; [|exact H]. intros x [P _]. exact P.
    - rewrite Forall_forall in FB. specialize (FB r Hr). destruct r; [cbn in FB; lia|discriminate]. }
  assert (LX : (2 <= List.length (xd ++ xf))%nat).
  { destruct (gd_int G) as (ki & Iki & Hki). destruct (gd_other G) as (ko & Iko & Hko). rewrite app_length.
    apply in_map_iff in Hki. destruct Hki as ([k c] & <- & Hp). apply in_map_iff in Hko. destruct Hko as ([k' c'] & <- & Hp').
    assert (H1 : In (k, c) xd) by (apply filter_In; split; [exact Hp|apply is_int_key_spec, Iki]).
    assert (H2 : In (k', c') xf). { apply filter_In. split; [exact Hp'|]. cbn [fst] in *. apply is_int_key_false in Iko. rewrite Iko. reflexivity. }
    destruct xd; [destruct H1|]. destruct xf; [destruct H2|]. cbn. lia. }
  assert (CP : forall p i, In p (xd ++ xf) -> (i < n)%nat -> plain (cell p i) /\ parse_float T (cell p i) = Ok (value_at p i)).
  { intros p i Hp Hi. apply (@cell_plain n (b_atoms dd)); auto. apply (gd_cols G). }
  set (rowsA := map (fun i => map (fun p => cell p i) (xd ++ xf)) (seq 0 n)).
  assert (PA : Forall (fun ws => Forall plain ws /\ ws <> []) rowsA).
  { apply Forall_forall. intros ws Hw. apply in_map_iff in Hw. destruct Hw as (i & <- & Hi). apply in_seq in Hi. split.
    - apply Forall_map, Forall_forall. intros p Hp. apply CP; [exact Hp|lia].
    - destruct (xd ++ xf); [cbn in LX; lia|discriminate]. }
  assert (PK : Forall plain (tx "ITEM:" :: tx "ATOMS" :: map fst (xd ++ xf))).
  { constructor; [|constructor].
    - split; [split; [discriminate|]|]; cbn; intuition (subst; try reflexivity; discriminate).
    - split; [split; [discriminate|]|]; cbn; intuition (subst; try reflexivity; discriminate).
    - apply Forall_forall. intros k Hk. apply in_map_iff in Hk. destruct Hk as (p & <- & Hp). destruct (gd_keys G) as [_ HK]. rewrite Forall_forall in HK. apply HK, in_map, SA, Hp. }
  assert (ND : NoDup (map fst (xd ++ xf))).
  { destruct (gd_keys G) as [ND _]. unfold xd, xf. clear - ND. generalize (b_atoms dd) ND. clear. intros d. 
    assert (G : forall (q : text -> bool) (d : dict (list N)), NoDup (map fst d) -> NoDup (map fst (filter (fun p => q (fst p)) d))).
    { clear. intros q. induction d as [|[k c] d IH]; intros ND; [constructor|]. inversion ND as [|? ? NI ND']; subst. cbn. destruct (q k); [|apply IH, ND'].
      cbn. constructor; [|apply IH, ND']. intros K. apply NI. apply in_map_iff in K. destruct K as (p & E & Hp). apply filter_In in Hp. apply in_map_iff. exists p. split; [exact E|apply Hp]. }
    intros ND. rewrite map_app. apply P_Container.NoDup_app_intro; [apply (G is_int_key), ND|apply (G (fun k => negb (is_int_key k))), ND|].
    intros k H1 H2. apply in_map_iff in H1. destruct H1 as (p & <- & Hp). apply filter_In in Hp. apply in_map_iff in H2. destruct H2 as (p' & E & Hp'). apply filter_In in Hp'.
    destruct Hp as [_ Q]. destruct Hp' as [_ Q']. rewrite E, Q in Q'. discriminate. }
  eexists _, (mkBlock (A2 rows) (xd ++ xf)). split; [exact EC|].
  assert (EL : map (fun r : list N => join (tx " ") (map repr r) ++ [nl]) rows = map (fun ws => join (tx " ") ws ++ [nl]) (map (map repr) rows)) by (rewrite map_map; reflexivity).
  assert (EL2 : map (fun i => join (tx " ") (map (fun p => cell p i) (xd ++ xf)) ++ [nl]) (seq 0 n) = map (fun ws => join (tx " ") ws ++ [nl]) rowsA) by (unfold rowsA; rewrite map_map; reflexivity).
  rewrite EL, EL2. split; [|split; [|split; [|split; [|split]]]].
  - assert (O : forall w, plain w -> one_line (w ++ [nl])). { intros w Hw. apply (@line_one [w]). constructor; [exact Hw|constructor]. }
    assert (SI : forall z, one_line (show_int z ++ [nl])).
    { intros z. exists (show_int z). split; [reflexivity|]. intros K. destruct (show_int_word z) as [_ S]. specialize (S _ K). discriminate. }
    assert (CL : forall w, ~ In nl w -> one_line (w ++ [nl])) by (intros w H; exists w; split; [reflexivity|exact H]).
    repeat (apply Forall_app; split).
    + constructor; [apply CL; cbn; intuition discriminate|]. constructor; [apply SI|]. constructor; [apply CL; cbn; intuition discriminate|]. constructor; [apply SI|].
      constructor; [apply CL; cbn; intuition discriminate|constructor].
    + apply Forall_map. eapply Forall_impl; [|exact PB]. intros ws [H _]. apply line_one, H.
    + constructor; [apply line_one, PK|constructor].
    + apply Forall_map. eapply Forall_impl; [|exact PA]. intros ws [H _]. apply line_one, H.
  - rewrite !app_length, !map_length. unfold rowsA. rewrite map_length, seq_length. cbn. lia.
  - reflexivity.
  - reflexivity.
  -
    etransitivity; [apply (@block_of_parts (_ :: _ :: _ :: _ :: _ :: nil) (map (fun ws => join (tx " ") ws ++ [nl]) (map (map repr) rows)) _ (map (fun ws => join (tx " ") ws ++ [nl]) rowsA) eq_refl); rewrite !map_length; exact LB|].
    unfold loadtxt. rewrite !table_lines by assumption. rewrite mapM_map.
    rewrite (@mapM_Ok _ _ _ (fun r => r)). 2:{ intros r Hr. rewrite mapM_map. rewrite (@mapM_Ok _ _ _ (fun x => x)); [rewrite map_id; reflexivity|].
      intros x Hx. pose proof (Gb rows EB) as H. rewrite Forall_forall in H. specialize (H r Hr). rewrite Forall_forall in H. apply (H x Hx). }
    rewrite map_id. cbn [bind]. rewrite (rectangular_all FB), (squeeze_A2 (m := m)) by (auto; lia). cbn [bind].
    unfold rowsA. rewrite mapM_map. set (vals := map (fun i => map (fun p => value_at p i) (xd ++ xf)) (seq 0 n)).
    rewrite (@mapM_Ok _ _ _ (fun i => map (fun p => value_at p i) (xd ++ xf))).
    2:{ intros i Hi. apply in_seq in Hi. rewrite mapM_map. apply mapM_Ok. intros p Hp. apply CP; [exact Hp|lia]. }
    fold vals. cbn [bind]. assert (FV : Forall (fun r => List.length r = List.length (xd ++ xf)) vals).
    { apply Forall_map, Forall_forall. intros i _. apply map_length. }
    rewrite (rectangular_all FV), (squeeze_A2 (m := List.length (xd ++ xf))); auto.
    2:{ unfold vals. rewrite map_length, seq_length. apply (gd_n G). }
    cbn [bind]. match goal with |- context [load_header ?l] => assert (HL : load_header l = Ok (map fst (xd ++ xf))) by (exact (load_header_line PK)); rewrite HL end. cbn [bind].
    rewrite (@fold_columns vals (xd ++ xf) [] 0%nat); [reflexivity| |exact ND].
    intros j p Hp. cbn [Nat.add column]. unfold vals. rewrite mapM_map.
    rewrite (@mapM_Ok _ _ _ (fun i => value_at p i)).
    + f_equal. unfold value_at. apply seq_map_nth. pose proof (gd_cols G) as HC. rewrite Forall_forall in HC. apply HC, SA. apply nth_error_In in Hp. exact Hp.
    + intros i _. rewrite nth_error_map, Hp. reflexivity.
  - split; [symmetry; exact EB|]. intros k. cbn [b_atoms]. apply (dget_parts is_int_key).
Qed.
End E.
