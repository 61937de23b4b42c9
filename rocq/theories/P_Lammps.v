(** Writing and reading LAMMPS dump files. *)
From Coq Require Import ZArith List Bool Ascii String Lia.
From Verif Require Import Base Num Types M_Geometry M_Container M_Steinhardt M_Analysis M_Text M_Lammps S_Lammps P_Text.
Import ListNotations.
Set Implicit Arguments.
Unset Strict Implicit.
Local Open Scope Z_scope.

Lemma blank_space c : blank c = is_space c.
Proof. destruct c as [[|] [|] [|] [|] [|] [|] [|] [|]]; reflexivity. Qed.
Lemma is_word_word w : is_word w <-> word w.
Proof. unfold is_word, word. split; intros [H K]; (split; [exact H|]); intros c Hc; specialize (K c Hc); rewrite ?blank_space in *; exact K. Qed.

(** ** The header dictionary *)
Lemma dget_dset {A} (d : dict A) k v k' : dget (dset d k v) k' = if teqb k' k then Some v else dget d k'.
Proof.
  induction d as [|[k0 v0] d IH]; cbn [dset dget].
  - destruct (teqb k' k); reflexivity.
  - destruct (teqb k k0) eqn:E.
    + apply teqb_true in E. subst k0. cbn [dget]. destruct (teqb k' k); reflexivity.
    + cbn [dget]. destruct (teqb k' k0) eqn:E0; [|exact IH]. apply teqb_true in E0. subst k0.
      destruct (teqb k' k) eqn:E1; [|reflexivity]. apply teqb_true in E1. subst k'. rewrite teqb_refl in E. discriminate.
Qed.
Lemma header_of_app w a : header_of (w ++ [a]) = dset (header_of w) a (Z.of_nat (List.length w) - 2).
Proof.
  unfold header_of. rewrite app_length. cbn [List.length]. rewrite seq_app, map_app. cbn [seq map].
  assert (E : forall (u : list text) (v : list Z), List.length u = List.length v -> forall x y, combine (u ++ [x]) (v ++ [y]) = combine u v ++ [(x, y)]).
  { clear. induction u as [|p u IH]; intros [|q v] H x y; try discriminate; [reflexivity|]. cbn [app combine]. rewrite IH by (injection H; auto). reflexivity. }
  rewrite E by (rewrite map_length, seq_length; reflexivity). rewrite fold_left_app. reflexivity.
Qed.
Lemma dget_header w i k : nth_error w i = Some k -> (forall j, (i < j)%nat -> nth_error w j <> Some k) ->
  dget (header_of w) k = Some (Z.of_nat i - 2).
Proof.
  induction w as [|a w IH] using rev_ind; intros Hi Hj; [destruct i; discriminate|].
  rewrite header_of_app, dget_dset. destruct (teqb k a) eqn:E.
  - apply teqb_true in E. subst a.
    assert (L : (i < List.length (w ++ [k]))%nat) by (apply nth_error_Some; congruence). rewrite app_length in L. cbn in L.
    destruct (Nat.eq_dec i (List.length w)) as [->|N]; [reflexivity|].
    exfalso. apply (Hj (List.length w)); [lia|]. rewrite nth_error_app2, Nat.sub_diag by lia. reflexivity.
  - apply IH.
    + destruct (Nat.lt_ge_cases i (List.length w)) as [L|L]; [rewrite nth_error_app1 in Hi by exact L; exact Hi|].
      rewrite nth_error_app2 in Hi by exact L. destruct (i - List.length w)%nat as [|m]; [|destruct m; discriminate].
      cbn in Hi. injection Hi as ->. rewrite teqb_refl in E. discriminate.
    + intros j Lj K. apply (Hj j Lj). rewrite nth_error_app1; [exact K|]. apply nth_error_Some. congruence.
Qed.

Definition std : list text := [tx "ITEM:"; tx "ATOMS"; tx "id"; tx "type"; tx "x"; tx "y"; tx "z"].
Lemma std_lookup keys i k : good_keys keys -> nth_error std (S (S i)) = Some k -> dget (header_of (std ++ keys)) k = Some (Z.of_nat i).
Proof.
  intros (_ & _ & HR) Hi. replace (Z.of_nat i) with (Z.of_nat (S (S i)) - 2) by lia. apply dget_header.
  - rewrite nth_error_app1; [exact Hi|]. apply nth_error_Some. congruence.
  - assert (I : In k reserved).
    { do 5 (destruct i as [|i]; [cbn in Hi; injection Hi as <-; cbn; tauto|]). destruct i; discriminate. }
    intros j Lj K. destruct (Nat.lt_ge_cases j (List.length std)) as [L|L].
    + rewrite nth_error_app1 in K by exact L.
      assert (ND : NoDup std) by (repeat (constructor; [cbn; intuition discriminate|]); constructor).
      rewrite NoDup_nth_error in ND. specialize (ND j (S (S i)) L). rewrite K, Hi in ND. specialize (ND eq_refl). lia.
    + rewrite nth_error_app2 in K by exact L. apply nth_error_In in K. exact (HR k K I).
Qed.
Lemma key_lookup keys j k : good_keys keys -> nth_error keys j = Some k -> dget (header_of (std ++ keys)) k = Some (Z.of_nat (5 + j)).
Proof.
  intros (_ & ND & HR) Hj. replace (Z.of_nat (5 + j)) with (Z.of_nat (List.length std + j) - 2) by (cbn [std List.length]; lia). apply dget_header.
  - rewrite nth_error_app2 by lia. replace (List.length std + j - List.length std)%nat with j by lia. exact Hj.
  - intros i Li K. rewrite nth_error_app2 in K by lia. rewrite NoDup_nth_error in ND.
    assert (i - List.length std = j)%nat; [|lia]. apply ND; [apply nth_error_Some; intros K'; assert (Q : Some k = None) by (transitivity (nth_error keys (i - List.length std)); [symmetry; exact K|exact K']); discriminate|].
    transitivity (Some k); [exact K|symmetry; exact Hj].
Qed.

Section Dump.
Variable N : num.
Variable T : textnum N.
Variable raw raw' : Z -> atom N.
Variable inv : m3 N -> option (m3 N).
Hypothesis HT : forall x, dec_ok 6 (tn_fix T 6 x).

Definition six (x : N) : N := tn_dec T (tn_fix T 6 x).
Lemma f6_word x : word (f6 T x).
Proof. apply parse_show_dec, HT. Qed.
Lemma parse_f6 x : parse_float T (f6 T x) = Ok (six x).
Proof. unfold parse_float, f6, show_float. destruct (parse_show_dec 6 _ (HT x)) as [_ ->]. reflexivity. Qed.

Lemma py_get_nat {A} (l : list A) i x : nth_error l i = Some x -> py_get l (Z.of_nat i) = Ok x.
Proof.
  intros H. unfold py_get. destruct (Z.ltb_spec (Z.of_nat i) 0) as [L|_]; [lia|]. destruct (Z.ltb_spec (Z.of_nat i) 0) as [L|_]; [lia|].
  rewrite Nat2Z.id, H. reflexivity.
Qed.

(** ** One atom *)
Definition atom_words (a : atom N) (row : list text) : list text :=
  [show_int (a_id a); show_int (a_type a); f6 T (vx (a_pos a)); f6 T (vy (a_pos a)); f6 T (vz (a_pos a))] ++ row.
Lemma atom_words_word a row : Forall word row -> Forall word (atom_words a row).
Proof.
  intros H. unfold atom_words. repeat (apply Forall_cons; [first [apply show_int_word|apply f6_word]|]). exact H.
Qed.
Definition got (count : Z) (a : atom N) : atom N :=
  atom_ctor (raw (count - 9)) (mkV n0 n0 n0) 0 0
        <| a_pos := mkV (six (vx (a_pos a))) (six (vy (a_pos a))) (six (vz (a_pos a))) |> <| a_id := a_id a |> <| a_type := a_type a |> <| a_loc := count - 8 |>.

Lemma dset_fresh {A} (d : dict A) k v : ~ In k (map fst d) -> dset d k v = d ++ [(k, v)].
Proof.
  induction d as [|[k0 v0] d IH]; [reflexivity|]. cbn [dset map fst app]. intros H. destruct (teqb k k0) eqn:E.
  - apply teqb_true in E. destruct H. left. auto.
  - rewrite IH; [reflexivity|]. intros K. apply H. right. exact K.
Qed.
Lemma custom_fold (field : text -> res text) : forall ks rs d, List.length ks = List.length rs ->
  (forall j k, nth_error ks j = Some k -> exists r, nth_error rs j = Some r /\ field k = Ok r) ->
  NoDup (map fst d ++ ks) -> foldM (fun c k => v <- field k ;; Ok (dset c k v)) ks d = Ok (d ++ combine ks rs).
Proof.
  induction ks as [|k ks IH]; intros rs d L H ND.
  - destruct rs; [|discriminate]. cbn. rewrite app_nil_r. reflexivity.
  - destruct rs as [|r rs]; [discriminate|]. cbn [foldM]. destruct (H 0%nat k eq_refl) as (r' & E & F). cbn in E. injection E as <-.
    rewrite F. cbn [bind].
    assert (NK : ~ In k (map fst d)).
    { intros K. apply in_split in K. destruct K as (p & q & E). rewrite E in ND. rewrite <- app_assoc in ND. cbn in ND.
      apply NoDup_remove_2 in ND. apply ND. apply in_app_iff. right. apply in_app_iff. right. left. reflexivity. }
    rewrite dset_fresh by exact NK. rewrite (IH rs).
    + rewrite <- app_assoc. reflexivity.
    + injection L. auto.
    + intros j k' Hj. apply (H (S j)). exact Hj.
    + rewrite map_app. cbn [map fst]. rewrite <- app_assoc. exact ND.
Qed.

Lemma read_atom keys a row count : good_keys keys -> Forall word row -> List.length row = List.length keys ->
  atom_line T raw keys (header_of (std ++ keys)) count (join (tx " ") (atom_words a row) ++ [nl]) = Ok (got count a, combine keys row).
Proof.
  intros GK HW HL. unfold atom_line.
  assert (EW : words (join (tx " ") (atom_words a row) ++ [nl]) = atom_words a row).
  { rewrite words_join; [cbn [words]; apply app_nil_r|apply atom_words_word, HW|discriminate|reflexivity]. }
  rewrite EW.
  assert (SF : forall i k w, nth_error std (S (S i)) = Some k -> nth_error (atom_words a row) i = Some w -> (j <- dref (header_of (std ++ keys)) k ;; py_get (atom_words a row) j) = Ok w).
  { intros i k w Hk Hw. unfold dref. rewrite (std_lookup GK Hk). cbn [bind]. apply py_get_nat, Hw. }
  rewrite (SF 0%nat (tx "id") _ eq_refl eq_refl). cbn [bind]. rewrite parse_show_int. cbn [bind].
  rewrite (SF 1%nat (tx "type") _ eq_refl eq_refl). cbn [bind]. rewrite parse_show_int. cbn [bind].
  rewrite (SF 2%nat (tx "x") _ eq_refl eq_refl). cbn [bind]. rewrite parse_f6. cbn [bind].
  rewrite (SF 3%nat (tx "y") _ eq_refl eq_refl). cbn [bind]. rewrite parse_f6. cbn [bind].
  rewrite (SF 4%nat (tx "z") _ eq_refl eq_refl). cbn [bind]. rewrite parse_f6. cbn [bind].
  rewrite (custom_fold (field := fun k => i <- dref (header_of (std ++ keys)) k ;; py_get (atom_words a row) i) (rs := row) (d := [])).
  - reflexivity.
  - symmetry. exact HL.
  - intros j k Hj. destruct (nth_error row j) as [r|] eqn:Er.
    + exists r. split; [reflexivity|]. unfold dref. rewrite (key_lookup GK Hj). cbn [bind]. apply py_get_nat. exact Er.
    + apply nth_error_None in Er. assert (j < List.length keys)%nat by (apply nth_error_Some; congruence). lia.
  - apply GK.
Qed.

(** ** The loop over the atoms *)
Fixpoint gots (keys : list text) (count : Z) (l : list (atom N)) (rows : list (list text)) : list (catom N) :=
  match l, rows with
  | a :: l, r :: rows => (got count a, combine keys r) :: gots keys (count + 1) l rows
  | _, _ => []
  end.
Lemma read_atoms keys : good_keys keys -> forall l rows st count, r_read st = true -> r_header st = header_of (std ++ keys) ->
  List.length rows = List.length l -> Forall (fun r => Forall word r /\ List.length r = List.length keys) rows ->
  count + Z.of_nat (List.length l) = r_nblock st ->
  read_loop T raw keys st count (map (fun p => join (tx " ") (atom_words (fst p) (snd p)) ++ [nl]) (combine l rows)) =
  Ok (mkR (r_read st) (r_nblock st) (r_bx st) (r_by st) (r_bz st) (r_xy st) (r_xz st) (r_tilts st) (r_header st) (r_scaled st)
        (rev (gots keys count l rows) ++ r_atoms st)).
Proof.
  intros GK. induction l as [|a l IH]; intros rows st count Hr Hh HL HW Hn.
  - destruct rows; [|discriminate]. destruct st. reflexivity.
  - destruct rows as [|r rows]; [discriminate|]. inversion HW as [|? ? [W1 W2] HW']; subst. cbn [combine map fst snd read_loop].
    destruct st as [rd nb bx by_ bz xy xz ti hd sc at_]. cbn [r_read r_header r_nblock] in *. subst rd hd.
    unfold read_line at 1. cbn [negb]. cbn [List.length] in Hn. destruct (Z.eqb_spec count nb) as [E|E]; [lia|].
    rewrite (read_atom (keys := keys)) by assumption. cbn [bind].
    rewrite IH by (cbn [r_read r_header r_nblock List.length] in *; try reflexivity; try assumption; try (injection HL; auto); lia).
    cbn [r_read r_nblock r_bx r_by r_bz r_xy r_xz r_tilts r_header r_scaled r_atoms gots rev]. rewrite <- app_assoc. reflexivity.
Qed.

(** ** The whole file *)
Lemma in_join c ws : In c (join (tx " ") ws) -> c = " "%char \/ exists w, In w ws /\ In c w.
Proof.
  induction ws as [|w ws IH]; [intros []|]. destruct ws as [|w' ws].
  - cbn [join]. intros H. right. exists w. split; [left; reflexivity|exact H].
  - change (join (tx " ") (w :: w' :: ws)) with (w ++ tx " " ++ join (tx " ") (w' :: ws)). intros H.
    apply in_app_iff in H. destruct H as [H|H]; [right; exists w; split; [left; reflexivity|exact H]|].
    apply in_app_iff in H. destruct H as [[<-|[]]|H]; [left; reflexivity|].
    destruct (IH H) as [->|(v & Hv & Hc)]; [left; reflexivity|]. right. exists v. split; [right; exact Hv|exact Hc].
Qed.
Definition clean (l : text) : Prop := is_line l /\ ~ In cr l.
Lemma clean_join ws : Forall word ws -> clean (join (tx " ") ws ++ [nl]).
Proof.
  intros H. rewrite Forall_forall in H.
  assert (K : forall c, c = nl \/ c = cr -> ~ In c (join (tx " ") ws)).
  { intros c Hc I. apply in_join in I. destruct I as [->|(w & Hw & I)]; [destruct Hc; discriminate|].
    apply H in Hw. destruct Hw as [_ Hw]. specialize (Hw c I). destruct Hc; subst c; discriminate. }
  split; [exists (join (tx " ") ws); split; [reflexivity|apply K; auto]|].
  intros I. apply in_app_iff in I. destruct I as [I|[I|[]]]; [revert I; apply K; auto|discriminate].
Qed.
Lemma clean_concat ls : Forall clean ls -> lines (univ (concat ls)) = ls.
Proof.
  intros H. assert (C : ~ In cr (concat ls)).
  { intros I. apply in_concat in I. destruct I as (l & Hl & I). rewrite Forall_forall in H. apply (H l Hl) in I. exact I. }
  rewrite univ_id by exact C. rewrite <- (app_nil_r (concat ls)), lines_concat; [apply app_nil_r|].
  eapply Forall_impl; [|exact H]. intros l [K _]. exact K.
Qed.

Variable V : Type.
Variable astype : list V -> list text.
Variable of_text : text -> V.
Variable of_num : N -> V.
Variable getattr : atom N -> text -> option V.

Definition row_texts (keys : list text) (rows : list (list V)) (n : nat) : list (list text) :=
  match keys with [] => repeat [] n | _ => map astype rows end.
Definition atom_lines (l : list (atom N)) (rows : list (list text)) : list text :=
  map (fun p => join (tx " ") (atom_words (fst p) (snd p)) ++ [nl]) (combine l rows).
Lemma out_atom_words keys row a : (keys = [] \/ astype row <> []) ->
  out_atom T astype keys row a = join (tx " ") (atom_words a (match keys with [] => [] | _ => astype row end)) ++ [nl].
Proof.
  intros H. unfold out_atom, atom_words, sp. destruct keys as [|k keys].
  - cbn [app join]. rewrite <- !app_assoc. reflexivity.
  - destruct H as [H|H]; [discriminate|]. destruct (astype row) as [|r rs]; [congruence|].
    change (join (tx " ") ([show_int (a_id a); show_int (a_type a); f6 T (vx (a_pos a)); f6 T (vy (a_pos a)); f6 T (vz (a_pos a))] ++ r :: rs))
      with (show_int (a_id a) ++ tx " " ++ show_int (a_type a) ++ tx " " ++ f6 T (vx (a_pos a)) ++ tx " " ++ f6 T (vy (a_pos a)) ++ tx " " ++ f6 T (vz (a_pos a)) ++ tx " " ++ join (tx " ") (r :: rs)).
    rewrite <- !app_assoc. reflexivity.
Qed.
Lemma out_atoms_lines keys : forall l (customs : list (dict text)) rows, List.length customs = List.length l ->
  (keys = [] \/ List.length rows = List.length l /\ Forall (fun r => astype r <> []) rows) ->
  out_atoms T astype keys rows (combine l customs) = Ok (atom_lines l (row_texts keys rows (List.length l))).
Proof.
  induction l as [|a l IH]; intros customs rows HC HR; [destruct customs; [|discriminate]|].
  - reflexivity.
  - destruct customs as [|d customs]; [discriminate|]. cbn [combine out_atoms]. injection HC as HC. destruct keys as [|k keys].
    + cbn [bind]. rewrite IH by auto. cbn [bind]. rewrite out_atom_words by auto. reflexivity.
    + destruct HR as [HR|[HR HF]]; [discriminate|]. destruct rows as [|r rows]; [discriminate|]. inversion HF as [|? ? F1 F2]; subst. cbn [bind].
      rewrite IH; [|exact HC|right; split; [injection HR; auto|exact F2]]. cbn [bind]. rewrite out_atom_words by auto. reflexivity.
Qed.

Definition bound_line (v : v3 N) : text := join (tx " ") [f6 T n0; f6 T (vlen v)] ++ [nl].
Definition head_lines (box : m3 N) (keys : list text) (timestep : Z) (n : nat) : list text :=
  [tx "ITEM: TIMESTEP" ++ [nl]; show_int timestep ++ [nl]; tx "ITEM: NUMBER OF ATOMS" ++ [nl]; show_int (Z.of_nat n) ++ [nl];
   tx "ITEM: BOX BOUNDS" ++ [nl]; bound_line (r0 box); bound_line (r1 box); bound_line (r2 box); join (tx " ") (std ++ keys) ++ [nl]].
Lemma write_lines s l customs keys vals timestep rows : get_atoms s = Ok l -> List.length customs = List.length l ->
  custom_rows of_text of_num getattr (combine l customs) keys vals = Ok rows ->
  (keys = [] \/ List.length rows = List.length l /\ Forall (fun r => astype r <> []) rows) ->
  write_snap T astype of_text of_num getattr s customs keys vals timestep =
    Ok (concat (head_lines (box_get s) keys timestep (List.length l) ++ atom_lines l (row_texts keys rows (List.length l)))).
Proof.
  intros Hl HC HR Hrows. unfold write_snap. rewrite Hl. cbn [bind]. rewrite HR. cbn [bind]. rewrite out_atoms_lines by assumption. cbn [bind].
  f_equal. rewrite concat_app. rewrite combine_length, HC, Nat.min_id.
  assert (HK : (match keys with [] => tx "ITEM: ATOMS id type x y z" ++ [nl] | _ => tx "ITEM: ATOMS id type x y z " ++ join sp keys ++ [nl] end) = join (tx " ") (std ++ keys) ++ [nl]).
  { destruct keys as [|k ks]; reflexivity. }
  rewrite HK. unfold head_lines, bound_line, sp. cbn [concat join]. rewrite <- !app_assoc. reflexivity.
Qed.
Lemma word_tx s : word (tx s) -> word (tx s). Proof. auto. Qed.
Ltac is_word_tac := split; [discriminate|]; let c := fresh in let H := fresh in intros c H; cbn in H; repeat destruct H as [H|H]; try (subst c; reflexivity); contradiction.
Lemma head_clean box keys timestep n : Forall word keys -> Forall clean (head_lines box keys timestep n).
Proof.
  intros HK. unfold head_lines.
  apply Forall_cons; [apply (clean_join (ws := [tx "ITEM:"; tx "TIMESTEP"])); repeat (apply Forall_cons; [is_word_tac|]); constructor|].
  apply Forall_cons; [apply (clean_join (ws := [show_int timestep])); apply Forall_cons; [apply show_int_word|constructor]|].
  apply Forall_cons; [apply (clean_join (ws := [tx "ITEM:"; tx "NUMBER"; tx "OF"; tx "ATOMS"])); repeat (apply Forall_cons; [is_word_tac|]); constructor|].
  apply Forall_cons; [apply (clean_join (ws := [show_int (Z.of_nat n)])); apply Forall_cons; [apply show_int_word|constructor]|].
  apply Forall_cons; [apply (clean_join (ws := [tx "ITEM:"; tx "BOX"; tx "BOUNDS"])); repeat (apply Forall_cons; [is_word_tac|]); constructor|].
  do 3 (apply Forall_cons; [apply clean_join; repeat (apply Forall_cons; [apply f6_word|]); constructor|]).
  apply Forall_cons; [|constructor]. apply clean_join. apply Forall_app. split; [|exact HK].
  unfold std. repeat (apply Forall_cons; [is_word_tac|]). constructor.
Qed.

Lemma box_line_bound v : box_line T (bound_line v) = Ok (six n0, six (vlen v), None).
Proof.
  unfold box_line, bound_line. rewrite words_join; [|repeat (apply Forall_cons; [apply f6_word|]); constructor|discriminate|reflexivity].
  cbn [words]. rewrite app_nil_r. change (py_get [f6 T n0; f6 T (vlen v)] 0) with (Ok (f6 T n0)). cbn [bind]. rewrite parse_f6. cbn [bind].
  change (py_get [f6 T n0; f6 T (vlen v)] 1) with (Ok (f6 T (vlen v))). cbn [bind]. rewrite parse_f6. reflexivity.
Qed.
Lemma header_line_std keys : good_keys keys -> header_line keys (join (tx " ") (std ++ keys) ++ [nl]) = Ok (header_of (std ++ keys), false).
Proof.
  intros GK. unfold header_line. rewrite words_join.
  2:{ apply Forall_app. split; [unfold std; repeat (apply Forall_cons; [is_word_tac|]); constructor|].
      destruct GK as [H _]. eapply Forall_impl; [|exact H]. intros w. apply is_word_word. }
  2: discriminate. 2: reflexivity.
  cbn [words]. rewrite app_nil_r.
  assert (HM : forallb (dmem (header_of (std ++ keys))) keys = true).
  { apply forallb_forall. intros k Hk. apply In_nth_error in Hk. destruct Hk as [j Hj]. unfold dmem. rewrite (key_lookup GK Hj). reflexivity. }
  rewrite HM. rewrite andb_false_r. unfold dmem at 1. rewrite (std_lookup (i := 2) GK (eq_refl : nth_error std 4 = Some (tx "x"))). reflexivity.
Qed.

Definition read_box (box : m3 N) : m3 N :=
  let w v := nsub (six (vlen v)) (six n0) in
  mkM (mkV (w (r0 box)) n0 n0) (mkV n0 (w (r1 box)) n0) (mkV n0 n0 (w (r2 box))).

Lemma read_skip keys st count line f : r_read st = false -> (count = 0 \/ count = 1 \/ count = 2 \/ count = 4) ->
  read_loop T raw keys st count (line :: f) = read_loop T raw keys st (count + 1) f.
Proof.
  destruct st as [rd nb bx by_ bz xy xz ti hd sc at_]. cbn [r_read]. intros -> H. cbn [read_loop]. unfold read_line. cbn [negb].
  destruct H as [E | [E | [E | E ]]]; subst count; reflexivity.
Qed.
Lemma read_written box keys timestep l rows : good_keys keys -> List.length rows = List.length l ->
  Forall (fun r => Forall word r /\ List.length r = List.length keys) rows ->
  read_lines T raw inv keys (head_lines box keys timestep (List.length l) ++ atom_lines l rows) = Ok (gots keys 9 l rows, read_box box, false).
Proof.
  intros GK HL HW. unfold read_lines, head_lines. cbn [app].
  do 3 (rewrite read_skip by (try reflexivity; lia); cbn [Z.add Pos.add Pos.succ]).
  cbn [read_loop]. unfold read_line at 1, r_init. cbn [negb].
  change (3 =? 3) with true. cbn iota. rewrite lstrip_app_nl by apply show_int_word. rewrite parse_show_int. cbn [bind]. change (3 + 1) with 4.
  change (0 + 1) with 1; change (1 + 1) with 2.
  cbn [read_loop]. unfold read_line at 1. cbn [negb]. change (4 =? 3) with false; change (4 =? 5) with false; change (4 =? 6) with false; change (4 =? 7) with false; change (4 =? 8) with false. cbn iota. cbn [bind]. change (4 + 1) with 5.
  unfold read_line at 1. cbn [negb]. change (5 =? 3) with false; change (5 =? 5) with true. cbn iota. rewrite box_line_bound. cbn [bind]. change (5 + 1) with 6.
  unfold read_line at 1. cbn [negb]. change (6 =? 3) with false; change (6 =? 5) with false; change (6 =? 6) with true. cbn iota. rewrite box_line_bound. cbn [bind]. change (6 + 1) with 7.
  unfold read_line at 1. cbn [negb]. change (7 =? 3) with false; change (7 =? 5) with false; change (7 =? 6) with false; change (7 =? 7) with true. cbn iota. rewrite box_line_bound. cbn [bind]. change (7 + 1) with 8.
  unfold read_line at 1. cbn [negb]. change (8 =? 3) with false; change (8 =? 5) with false; change (8 =? 6) with false; change (8 =? 7) with false; change (8 =? 8) with true. cbn iota. rewrite header_line_std by exact GK. cbn [bind]. change (8 + 1) with 9.
  unfold atom_lines. rewrite (read_atoms (keys := keys)); [|exact GK|reflexivity|reflexivity|exact HL|exact HW|cbn [r_nblock]; lia].
  cbn [bind r_read r_nblock r_bx r_by r_bz r_xy r_xz r_tilts r_header r_scaled r_atoms]. unfold read_end.
  cbn [bind the r_read r_nblock r_bx r_by r_bz r_xy r_xz r_tilts r_header r_scaled r_atoms]. rewrite app_nil_r, rev_involutive. reflexivity.
Qed.
End Dump.

(** ** Splitting *)
Lemma one_line_is_line l : one_line l <-> is_line l.
Proof. reflexivity. Qed.
Lemma lines_last l : l <> [] -> ~ In nl l -> lines l = [l].
Proof.
  induction l as [|c l IH]; [congruence|]. intros _ H. cbn [lines]. destruct (Ascii.eqb_spec c nl) as [->|E]; [destruct H; left; reflexivity|].
  destruct l as [|d l]; [reflexivity|]. rewrite IH; [reflexivity|discriminate|]. intros K. apply H. right. exact K.
Qed.
Lemma file_lines_lines content ls : file_lines content ls -> lines content = ls.
Proof.
  intros (-> & init & last & -> & H & K). rewrite concat_app, lines_concat by exact H. f_equal.
  destruct K as [->|(l & -> & N & I)]; [reflexivity|]. cbn [concat]. rewrite app_nil_r. apply lines_last; assumption.
Qed.
Lemma file_lines_of content : file_lines content (lines content).
Proof.
  split; [symmetry; apply concat_lines|]. destruct (lines_shape content) as (ls & t & E & H & K). exists ls, t. auto.
Qed.
Definition snap_name (infile : text) (i : Z) : text := join (tx ".") [infile; tx "snap"; show_int i; tx "dat"].
Lemma split_fill infile nb start : forall b c cur g, 2 <= c -> c <= nb -> Z.of_nat (List.length b) = nb - c + 1 ->
  split_loop infile nb c start cur (b ++ g) = (snap_name infile start, concat (rev cur ++ b)) :: split_loop infile nb 1 (start + 1) (rev b ++ cur) g.
Proof.
  induction b as [|x b IH]; intros c cur g Hc Hb HL; cbn [List.length] in HL; [lia|].
  cbn [app split_loop]. destruct (Z.eqb_spec c 1) as [E|_]; [lia|]. destruct (Z.ltb_spec c nb) as [L|L].
  - rewrite IH by lia. cbn [rev]. rewrite <- !app_assoc. reflexivity.
  - destruct b as [|y b]; [|cbn [List.length] in HL; lia]. cbn [rev app]. reflexivity.
Qed.
Lemma split_short infile nb start : forall f c cur, 2 <= c -> Z.of_nat (List.length f) < nb - c + 1 -> split_loop infile nb c start cur f = [].
Proof.
  induction f as [|x f IH]; intros c cur Hc HL; [reflexivity|]. cbn [List.length] in HL. cbn [split_loop].
  destruct (Z.eqb_spec c 1) as [E|_]; [lia|]. destruct (Z.ltb_spec c nb) as [L|L]; [|lia]. apply IH; lia.
Qed.
Lemma split_blocks infile nb rest : 2 <= nb -> Z.of_nat (List.length rest) < nb -> forall snaps start cur,
  Forall (fun b => Z.of_nat (List.length b) = nb) snaps ->
  split_loop infile nb 1 start cur (concat snaps ++ rest) =
  map (fun p => (snap_name infile (start + Z.of_nat (fst p)), concat (snd p))) (combine (seq 0 (List.length snaps)) snaps).
Proof.
  intros Hnb Hr. induction snaps as [|b snaps IH]; intros start cur H.
  - cbn [concat app]. destruct rest as [|x rest]; [reflexivity|]. cbn [List.length] in Hr. cbn [split_loop].
    change (1 =? 1) with true. cbn iota. apply split_short; lia.
  - inversion H as [|? ? Hb Hs]; subst. cbn [concat]. rewrite <- app_assoc. destruct b as [|x b]; [cbn in Hnb; lia|].
    cbn [app split_loop]. change (1 =? 1) with true. cbn iota. cbn [List.length] in *.
    rewrite split_fill by lia. cbn [rev app List.length seq combine map fst snd]. change (Z.of_nat 0) with 0. rewrite Z.add_0_r. f_equal.
    rewrite IH by exact Hs. rewrite <- seq_shift.
    assert (E : forall (u : list nat) (v : list (list text)), combine (map S u) v = map (fun p => (S (fst p), snd p)) (combine u v)).
    { clear. induction u as [|p u IH]; intros [|q v]; try reflexivity. cbn [map combine]. rewrite IH. reflexivity. }
    rewrite E, map_map. apply map_ext. intros [i q]. cbn [fst snd]. do 2 f_equal. lia.
Qed.
Lemma parse_int_strip s : parse_int (strip s) = parse_int s.
Proof. unfold parse_int. rewrite strip_idem. reflexivity. Qed.
Lemma snap_name_inj infile i j : snap_name infile i = snap_name infile j -> i = j.
Proof.
  unfold snap_name. cbn [join]. intros H. apply app_inv_head in H. apply app_inv_head in H. apply app_inv_head in H. apply app_inv_head in H.
  apply app_inv_tail in H. assert (K : parse_int (show_int i) = parse_int (show_int j)) by (rewrite H; reflexivity). rewrite !parse_show_int in K. injection K. auto.
Qed.
Lemma pre_read_nth f l : nth_error f 3 = Some l -> pre_read f = parse_int l.
Proof. destruct f as [|? [|? [|? [|x f]]]]; try discriminate. cbn. intros H. injection H as ->. apply parse_int_strip. Qed.
Lemma pre_read_short f : (List.length f < 4)%nat -> pre_read f = Err NameError.
Proof. destruct f as [|? [|? [|? [|x f]]]]; cbn [List.length]; try lia; reflexivity. Qed.
