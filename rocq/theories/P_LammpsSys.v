(** A dump written and read back, as a system. *)
From Coq Require Import Ascii String Reals Lra Lia.
From Coq.Floats Require Import SpecFloat.
From Flocq Require Import Core.
From Verif Require Import Base Num NumR NumF Types Ex M_Geometry M_Container M_Steinhardt M_Analysis M_Text M_Lammps.
From Verif Require Import P_Text P_Neighbors P_Container P_Centro P_Box P_CrystalSys S_Container S_Lammps P_Lammps P_Round.
Set Implicit Arguments.
Unset Strict Implicit.
Close Scope R_scope.
Close Scope Z_scope.

Section Back.
Variable N : num.
Variable T : textnum N.
Variable raw : Z -> atom N.
Variable inv : m3 N -> option (m3 N).
Hypothesis HT : forall x, dec_ok 6 (tn_fix T 6 x).
Variable V : Type.
Variable astype : list V -> list text.
Variable of_text : text -> V.
Variable of_num : N -> V.
Variable getattr : atom N -> text -> option V.

Lemma own_row (a : atom N) (c : dict text) : forall keys r, List.length r = List.length keys ->
  (forall j k t, nth_error keys j = Some k -> nth_error r j = Some t -> dget c k = Some t) ->
  mapM (get_custom1 of_text of_num getattr (a, c)) keys = Ok (map of_text r).
Proof.
  induction keys as [|k keys IH]; intros [|t r] L H; try discriminate; [reflexivity|].
  cbn [mapM map]. unfold get_custom1 at 1. cbn [snd]. rewrite (H 0 k t eq_refl eq_refl). cbn [bind].
  rewrite (IH r); [reflexivity|injection L; auto|]. intros j. apply (H (S j)).
Qed.
Lemma own_rows keys : forall l customs texts, List.length customs = List.length l ->
  Forall (fun r => List.length r = List.length keys) texts ->
  Forall2 (fun c r => (forall j k t, nth_error keys j = Some k -> nth_error r j = Some t -> dget c k = Some t) /\ astype (map of_text r) = r) customs texts ->
  mapM (fun a => get_custom of_text of_num getattr a keys) (combine l customs) = Ok (map (map of_text) texts) /\ map astype (map (map of_text) texts) = texts.
Proof.
  induction l as [|a l IH]; intros [|c customs] texts L HF H; try discriminate; inversion H as [|? r ? texts' [H1 H2] H3]; subst; [split; reflexivity|].
  inversion_clear HF as [|? ? F1 F2]. destruct (IH customs texts') as [I1 I2]; [injection L; auto|exact F2|exact H3|].
  cbn [combine mapM map]. unfold get_custom at 1. rewrite (own_row a F1 H1). cbn [bind]. rewrite I1. split; [reflexivity|].
  rewrite H2. f_equal. exact I2.
Qed.
Lemma column_rows keys vals l customs texts : List.length customs = List.length l ->
  column_texts astype of_text keys vals customs texts ->
  exists rows, custom_rows of_text of_num getattr (combine l customs) keys vals = Ok rows /\
    row_texts astype keys rows (List.length l) = texts /\
    (keys = [] \/ List.length rows = List.length l /\ Forall (fun r => astype r <> []) rows).
Proof.
  intros L (H1 & H2 & H3). destruct keys as [|k keys].
  - exists []. split; [reflexivity|]. split; [|left; reflexivity]. cbn [row_texts].
    rewrite <- L, <- H1. clear - H2. induction texts as [|r texts IH]; [reflexivity|]. inversion_clear H2 as [|? ? [_ E] F].
    cbn [repeat List.length]. rewrite (IH F). destruct r; [reflexivity|discriminate].
  - destruct H3 as [H3|H3]; [discriminate|].
    assert (NE : Forall (fun r : list text => r <> []) texts).
    { eapply Forall_impl; [|exact H2]. intros r [_ E] ->. discriminate. }
    destruct vals as [rows|].
    + destruct H3 as (R1 & R2 & R3). exists rows. assert (LR : List.length rows = List.length l) by (rewrite <- L, <- H1, R3, map_length; reflexivity).
      split; [|split; [symmetry; exact R3|right; split; [exact LR|]]].
      * assert (LC : @List.length (catom N) (combine l customs) = List.length l) by (unfold catom; rewrite combine_length, L; apply Nat.min_id).
        cbn [custom_rows]. rewrite LC, LR, Nat.eqb_refl. cbn [andb].
        replace (forallb _ rows) with true; cycle 1.
        { symmetry. apply forallb_forall. intros r Hr. apply Nat.eqb_eq. rewrite Forall_forall in R2. apply R2, Hr. }
        rewrite <- LR. destruct rows; [congruence|]. reflexivity.
      * rewrite R3 in NE. rewrite Forall_map in NE. exact NE.
    + destruct (@own_rows (k :: keys) l customs texts L) as [E1 E2].
      { eapply Forall_impl; [|exact H2]. intros r [_ E]. exact E. }
      { exact H3. }
      exists (map (map of_text) texts). split; [exact E1|]. split; [exact E2|right]. split.
      * rewrite map_length. lia.
      * rewrite <- E2 in NE. rewrite Forall_map in NE. exact NE.
Qed.

Lemma gots_same keys : forall l texts count, List.length texts = List.length l ->
  same_atoms (fun x y => y = six T x) keys texts l (map fst (gots T raw keys count l texts)) (map snd (gots T raw keys count l texts)) /\
  (forall i a, nth_error (map fst (gots T raw keys count l texts)) i = Some a -> a_loc a = (count - 8 + Z.of_nat i)%Z) /\
  all_real (map fst (gots T raw keys count l texts)).
Proof.
  induction l as [|a l IH]; intros [|r texts] count L; try discriminate.
  - cbn [gots map]. split; [split; [reflexivity|split; [reflexivity|]]; intros [|i]; discriminate|]. split; [intros [|i]; discriminate|intros ? []].
  - destruct (IH texts (count + 1)%Z) as ((A1 & A2 & A3) & B & C); [injection L; auto|]. cbn [gots map]. split; [|split].
    + split; [cbn [List.length]; f_equal; exact A1|]. split; [cbn [List.length]; f_equal; exact A2|].
      intros [|i] b H; [|exact (A3 i b H)]. injection H as <-. eexists _, _, r. cbn [nth_error fst snd]. repeat (split; [reflexivity|]). reflexivity.
    + intros [|i] b H; [injection H as <-; unfold got; cbn; lia|]. cbn [nth_error] in H. rewrite (B i b H). lia.
    + intros b [<-|H]; [reflexivity|apply C, H].
Qed.

(** What is written reads back. *)
Lemma write_read s l customs keys vals ts texts : get_atoms s = Ok l -> List.length customs = List.length l -> good_keys keys ->
  column_texts astype of_text keys vals customs texts ->
  exists f, write_snap T astype of_text of_num getattr s customs keys vals ts = Ok f /\
    read_lines T raw inv keys (lines (univ f)) = Ok (gots T raw keys 9 l texts, read_box T (box_get s), false).
Proof.
  intros HG HL GK HC. destruct (@column_rows keys vals l customs texts HL HC) as (rows & E1 & E2 & E3).
  eexists. split; [exact (write_lines T ts HG HL E1 E3)|]. rewrite E2. destruct HC as (C1 & C2 & _).
  assert (W : Forall (fun r => Forall word r /\ List.length r = List.length keys) texts).
  { eapply Forall_impl; [|exact C2]. intros r [Hr Er]. split; [|exact Er]. eapply Forall_impl; [|exact Hr]. intros w. apply is_word_word. }
  rewrite clean_concat; [apply (read_written raw inv HT); [exact GK|congruence|exact W]|].
  apply Forall_app. split.
  - apply (head_clean HT). destruct GK as [K _]. eapply Forall_impl; [|exact K]. intros w. apply is_word_word.
  - unfold atom_lines. rewrite Forall_map. apply Forall_forall. intros [a r] Hr. apply clean_join. apply (atom_words_word HT).
    apply in_combine_r in Hr. rewrite Forall_forall in W. apply (W r Hr).
Qed.
End Back.

(** Systems over the reals. *)
Lemma R_six_0 : six R_text (0%R : Rnum) = 0%R.
Proof.
  unfold six. destruct (R_six 0%R) as [H (z & E)]. rewrite E in *. apply Rabs_le_inv in H.
  assert (z = 0%Z) as ->; [|lra]. assert (-1 < z < 1)%Z; [|lia]. split; apply lt_IZR; lra.
Qed.
Lemma R_read_box (b : m3 Rnum) :
  read_box R_text b = diag (N := Rnum) (six R_text (row_length (r0 b) : Rnum)) (six R_text (row_length (r1 b) : Rnum)) (six R_text (row_length (r2 b) : Rnum)).
Proof.
  unfold read_box, diag. change (n0 (N := Rnum)) with (0%R : Rnum). rewrite R_six_0.
  assert (E : forall v : v3 Rnum, vlen v = row_length v) by reflexivity. rewrite !E. rnum. rewrite !Rminus_0_r. reflexivity.
Qed.
Lemma R_six_pos x : (1 / 1000000 <= x)%R -> (0 < six R_text (x : Rnum))%R.
Proof. intros H. destruct (R_six x) as [K _]. unfold six. apply Rabs_le_inv in K. lra. Qed.

Lemma atoms_set_diag inv raw (s : sys Rnum) (x y z : R) l : l <> [] -> (0 < x)%R -> (0 < y)%R -> (0 < z)%R -> box_get s = diag (N := Rnum) x y z ->
  exists s', atoms_set inv raw s l = Ok s'.
Proof.
  intros Hl X Y Z HB. unfold atoms_set. destruct (_ <? 200)%Z; [|eexists; reflexivity].
  destruct (Z.eqb_spec (Z.of_nat (List.length l)) 0) as [E|_]; [destruct l; [congruence|discriminate]|].
  rewrite HB. replace (neqb (box_sum (diag (N:=Rnum) x y z)) n0) with false; cycle 1.
  { symmetry. unfold box_sum, diag. cbn [vx vy vz r0 r1 r2]. rnum. apply Reqb_false. lra. }
  unfold repeat_cell. cbn [bind]. rewrite HB, scale_diag, box_set_diag. cbn [bind]. eexists. reflexivity.
Qed.
Section SysBack.
Variable raw raw' : Z -> atom Rnum.
Variable inv : m3 Rnum -> option (m3 Rnum).
Variable V : Type.
Variable astype : list V -> list text.
Variable of_text : text -> V.
Variable of_num : Rnum -> V.
Variable getattr : atom Rnum -> text -> option V.
Lemma system_back (s s0 : sys Rnum) l customs keys vals ts texts (b := box_get s) : get_atoms s = Ok l -> l <> [] -> List.length customs = List.length l -> good_keys keys ->
  column_texts astype of_text keys vals customs texts ->
  (1 / 1000000 <= row_length (r0 b))%R -> (1 / 1000000 <= row_length (r1 b))%R -> (1 / 1000000 <= row_length (r2 b))%R -> s_actual s0 = None ->
  exists f s' l' customs' x' y' z',
    write_snap R_text astype of_text of_num getattr s customs keys vals ts = Ok f /\
    read_inputfile R_text raw raw' inv s0 keys (lines (univ f)) = Ok (s', customs') /\
    get_atoms s' = Ok l' /\ same_atoms six_decimals keys texts l l' customs' /\
    box_get s' = diag (N := Rnum) x' y' z' /\ six_decimals (row_length (r0 b)) x' /\ six_decimals (row_length (r1 b)) y' /\ six_decimals (row_length (r2 b)) z'.
Proof.
  intros HG Hl HL GK HC X Y Z HA.
  destruct (@write_read Rnum R_text raw inv (R_dec_ok 6) V astype of_text of_num getattr s l customs keys vals ts texts HG HL GK HC) as (f & E1 & E2).
  destruct (@gots_same Rnum R_text raw keys l texts 9) as (A & _ & AR); [destruct HC as (C1 & _); congruence|].
  set (g := gots R_text raw keys 9 l texts) in *.
  assert (A' := A). destruct A' as (A1 & A2 & A3).
  fold b in E2. rewrite (R_read_box b) in E2.
  set (x := row_length (r0 b)) in *. set (y := row_length (r1 b)) in *. set (z := row_length (r2 b)) in *.
  destruct (@atoms_set_diag inv raw' (sbox s0 (diag (N := Rnum) (six R_text (x : Rnum)) (six R_text (y : Rnum)) (six R_text (z : Rnum))))
     (six R_text (x : Rnum)) (six R_text (y : Rnum)) (six R_text (z : Rnum)) (map fst g)) as (s' & E3); try (apply R_six_pos; assumption).
  { intros K. rewrite K in A1. destruct l; [congruence|discriminate]. }
  { unfold box_get, sbox. cbn. rewrite HA. reflexivity. }
  destruct (atoms_set_spec AR E3) as (gh & _ & G2 & _ & _ & _ & G6 & _).
  exists f, s', (map fst g), (map snd g), (six R_text (x : Rnum)), (six R_text (y : Rnum)), (six R_text (z : Rnum)).
  split; [exact E1|]. split; [unfold read_inputfile; rewrite E2; cbn [bind]; rewrite box_set_diag; cbn [bind]; rewrite E3; reflexivity|].
  split; [exact G2|]. split.
  - split; [exact A1|]. split; [exact A2|]. intros i a Hi. destruct (A3 i a Hi) as (a' & c & r & B1 & B2 & B3 & B4 & B5 & B6 & B7 & B8 & B9).
    exists a', c, r. rewrite B6, B7, B8. repeat (split; [first [assumption|apply R_six]|]). exact B9.
  - split; [|split; [apply R_six|split; apply R_six]]. rewrite G6. unfold box_get, sbox. cbn. rewrite HA. reflexivity.
Qed.
Lemma empty_back (s s0 : sys Rnum) keys ts : get_atoms s = Ok [] -> good_keys keys ->
  exists f, write_snap R_text astype of_text of_num getattr s [] keys None ts = Ok f /\
    read_inputfile R_text raw raw' inv s0 keys (lines (univ f)) = Err ZeroDivisionError.
Proof.
  intros HG GK.
  destruct (@write_read Rnum R_text raw inv (R_dec_ok 6) V astype of_text of_num getattr s [] [] keys None ts []) as (f & E1 & E2); auto.
  { split; [reflexivity|]. split; [constructor|]. right. constructor. }
  exists f. split; [exact E1|]. unfold read_inputfile. rewrite E2. cbn [bind gots]. rewrite R_read_box, box_set_diag. cbn [bind]. reflexivity.
Qed.
End SysBack.

(** ** Stored indices of the atoms of any file *)
Section Locs.
Variable N : num.
Variable T : textnum N.
Variable raw raw' : Z -> atom N.
Variable inv : m3 N -> option (m3 N).

Definition numbered (l : list (catom N)) : Prop := forall i a, nth_error l i = Some a -> a_loc (fst a) = Z.of_nat (S i) /\ a_ghost (fst a) = 0%Z.
Lemma numbered_snoc l a : numbered l -> a_loc (fst a) = Z.of_nat (S (List.length l)) -> a_ghost (fst a) = 0%Z -> numbered (l ++ [a]).
Proof.
  intros H L G i b Hb. destruct (Nat.lt_ge_cases i (List.length l)) as [K|K].
  - rewrite nth_error_app1 in Hb by exact K. apply H, Hb.
  - rewrite nth_error_app2 in Hb by exact K. destruct (i - List.length l) as [|d] eqn:E.
    + injection Hb as <-. replace i with (List.length l) by lia. auto.
    + destruct d; discriminate.
Qed.
Lemma bind_Ok {A B} (x : res A) (f : A -> res B) b : bind x f = Ok b -> exists a, x = Ok a /\ f a = Ok b.
Proof. destruct x as [a|]; [|discriminate]. exists a. auto. Qed.
Lemma atom_line_loc keys d count line a : atom_line T raw keys d count line = Ok a -> a_loc (fst a) = (count - 8)%Z /\ a_ghost (fst a) = 0%Z.
Proof.
  unfold atom_line. intros H. repeat (apply bind_Ok in H; destruct H as (? & _ & H)). injection H as <-. split; reflexivity.
Qed.
Lemma read_line_head keys st count line st1 : r_read st = false -> read_line T raw keys st count line = Ok (Some st1) ->
  r_atoms st1 = r_atoms st /\ (r_read st1 = true -> count = 8%Z).
Proof.
  destruct st as [rd nb bx by_ bz xy xz ti hd sc at_]. cbn [r_read r_atoms]. intros -> H. unfold read_line in H. cbn [negb] in H.
  destruct (Z.eqb count 3).
  { apply bind_Ok in H. destruct H as (n & _ & H). injection H as <-. cbn. split; [reflexivity|discriminate]. }
  destruct (Z.eqb count 5).
  { apply bind_Ok in H. destruct H as ([[lo hi] t] & _ & H). injection H as <-. cbn. split; [reflexivity|discriminate]. }
  destruct (Z.eqb count 6).
  { apply bind_Ok in H. destruct H as ([[lo hi] t] & _ & H). injection H as <-. cbn. split; [reflexivity|discriminate]. }
  destruct (Z.eqb count 7).
  { apply bind_Ok in H. destruct H as ([[lo hi] [t|]] & _ & H).
    - apply bind_Ok in H. destruct H as (u & _ & H). apply bind_Ok in H. destruct H as (v & _ & H). injection H as <-. cbn. split; [reflexivity|discriminate].
    - injection H as <-. cbn. split; [reflexivity|discriminate]. }
  destruct (Z.eqb_spec count 8) as [E|E].
  { apply bind_Ok in H. destruct H as ([d s] & _ & H). injection H as <-. cbn. auto. }
  injection H as <-. cbn. split; [reflexivity|discriminate].
Qed.
Lemma read_loop_locs keys : forall f st count st', read_loop T raw keys st count f = Ok st' ->
  numbered (rev (r_atoms st)) -> (if r_read st then count = (9 + Z.of_nat (List.length (r_atoms st)))%Z else r_atoms st = []) ->
  numbered (rev (r_atoms st')).
Proof.
  induction f as [|line f IH]; intros st count st' H HN HC; cbn [read_loop] in H; [injection H as <-; exact HN|].
  apply bind_Ok in H. destruct H as (o & Ho & H). destruct o as [st1|]; [|injection H as <-; exact HN].
  destruct (r_read st) eqn:Er.
  - destruct st as [rd nb bx by_ bz xy xz ti hd sc at_]; cbn [r_read r_atoms] in *; subst rd. unfold read_line in Ho. cbn [negb] in Ho.
    destruct (Z.eqb count nb); [discriminate|]. apply bind_Ok in Ho. destruct Ho as (a & Ha & Ho). injection Ho as <-.
    destruct (atom_line_loc Ha) as [L G]. apply (IH _ _ _ H); cbn [r_read r_atoms].
    + cbn [rev]. apply numbered_snoc; [exact HN| |exact G]. rewrite rev_length, L. lia.
    + cbn [List.length]. lia.
  - destruct (read_line_head Er Ho) as [E1 E2]. apply (IH _ _ _ H).
    + rewrite E1. exact HN.
    + rewrite E1, HC. destruct (r_read st1); [|reflexivity]. rewrite (E2 eq_refl). reflexivity.
Qed.
Lemma numbered_move f l : numbered l -> numbered (map (move f) l).
Proof.
  intros H i a Ha. rewrite nth_error_map in Ha. destruct (nth_error l i) as [b|] eqn:E; [|discriminate]. injection Ha as <-. exact (H i b E).
Qed.
Lemma read_lines_locs keys f atoms box tri : read_lines T raw inv keys f = Ok (atoms, box, tri) -> numbered atoms.
Proof.
  unfold read_lines. intros H. apply bind_Ok in H. destruct H as (st & H1 & H2).
  assert (K : numbered (rev (r_atoms st))).
  { apply (read_loop_locs H1); [intros [|i]; discriminate|reflexivity]. }
  unfold read_end in H2. apply bind_Ok in H2. destruct H2 as ([at1 b1] & H2 & H3). apply bind_Ok in H3. destruct H3 as (sc & _ & H3).
  assert (K1 : numbered at1).
  { destruct (r_tilts st) as [[[xy xz] yz]|].
    - apply bind_Ok in H2. destruct H2 as ([? ?] & _ & H2). apply bind_Ok in H2. destruct H2 as ([? ?] & _ & H2). apply bind_Ok in H2. destruct H2 as ([? ?] & _ & H2).
      destruct (inv _); [|discriminate]. injection H2 as <- _. apply numbered_move, K.
    - apply bind_Ok in H2. destruct H2 as ([? ?] & _ & H2). apply bind_Ok in H2. destruct H2 as ([? ?] & _ & H2). apply bind_Ok in H2. destruct H2 as ([? ?] & _ & H2).
      injection H2 as <- _. exact K. }
  injection H3 as <- _ _. destruct sc; [apply numbered_move|]; exact K1.
Qed.
Lemma inputfile_locs s0 keys f s' cs i a : read_inputfile T raw raw' inv s0 keys f = Ok (s', cs) ->
  (i < s_real s')%Z -> get_atom s' i = Ok a -> a_loc a = (i + 1)%Z /\ s_nop s' = Z.of_nat (List.length (s_atoms s')).
Proof.
  unfold read_inputfile. intros H Hi Ha. apply bind_Ok in H. destruct H as ([[atoms box] tri] & H1 & H). apply bind_Ok in H. destruct H as (s1 & H2 & H).
  apply bind_Ok in H. destruct H as (s2 & H3 & H). injection H as <- _. pose proof (read_lines_locs H1) as K.
  assert (AR : all_real (map fst atoms)).
  { intros b Hb. apply in_map_iff in Hb. destruct Hb as (c & <- & Hc). apply In_nth_error in Hc. destruct Hc as [j E]. apply (K j c E). }
  destruct (atoms_set_spec AR H3) as (gh & G1 & _ & _ & G4 & G5 & _).
  split; [|exact G5]. unfold get_atom in Ha. destruct (Z.ltb_spec i 0) as [L|L]; [discriminate|]. rewrite G1 in Ha. unfold get in Ha.
  rewrite G4 in Hi. rewrite nth_error_app1 in Ha by lia. pose proof (map_length fst atoms) as ML. destruct (nth_error (map fst atoms) (Z.to_nat i)) as [b|] eqn:E; [|discriminate]. inversion Ha; subst b.
  destruct (nth_error atoms (Z.to_nat i)) as [c|] eqn:Ec; [|exfalso; apply nth_error_None in Ec; assert (KK : Z.to_nat i < List.length (map fst atoms)) by (apply nth_error_Some; rewrite E; discriminate); rewrite map_length in KK; unfold catom in *; lia].
  rewrite (map_nth_error fst _ _ Ec) in E. apply Some_inj in E. subst a. destruct (K _ _ Ec) as [-> _]. lia.
Qed.
Lemma set_atom_at (s : sys N) a i : a_loc a = i -> (0 <= i)%Z -> 
  if (i <? Z.of_nat (List.length (s_atoms s)))%Z then exists s', set_atom s a = Ok s' /\ get_atom s' i = Ok a /\ (forall j, j <> i -> get_atom s' j = get_atom s j)
  else set_atom s a = Err UB.
Proof.
  intros HL Hi. unfold set_atom, get_atom, put. rewrite HL. destruct (Z.ltb_spec i 0) as [K|_]; [lia|].
  destruct (Z.ltb_spec i (Z.of_nat (List.length (s_atoms s)))) as [L|L].
  - destruct (Nat.ltb_spec (Z.to_nat i) (List.length (s_atoms s))) as [_|K]; [|lia]. cbn [bind]. eexists. split; [reflexivity|]. cbn. split.
    + unfold get. rewrite nth_error_upd, Nat.eqb_refl.
      destruct (nth_error (s_atoms s) (Z.to_nat i)) eqn:E; [reflexivity|]. apply nth_error_None in E. lia.
    + intros j Hj. destruct (Z.ltb_spec j 0) as [_|Lj]; [reflexivity|]. unfold get. rewrite nth_error_upd.
      destruct (Nat.eqb_spec (Z.to_nat j) (Z.to_nat i)) as [E|E]; [lia|]. reflexivity.
  - destruct (Nat.ltb_spec (Z.to_nat i) (List.length (s_atoms s))) as [K|_]; [lia|]. reflexivity.
Qed.
End Locs.
