(** Proofs about trajectory files: blocks outside, iteration and exported files. *)
From Coq Require Import Ascii String Lia Sorted Permutation.
From Verif Require Import Base Num Types M_Geometry M_Container M_Analysis M_Text M_Lammps M_Traj.
From Verif Require Import P_Text P_Neighbors P_Lammps P_LammpsSys P_Traj P_Export P_ExportNum S_Lammps S_Traj.
Set Implicit Arguments.
Unset Strict Implicit.
Close Scope R_scope.
Local Open Scope Z_scope.

Section F.
Variable N : num.
Variable T : textnum N.
Variable repr : N -> text.
Implicit Types t : traj N.

Lemma open_at content l n : nth_error (lines content) 3 = Some l -> parse_int l = Ok n -> n + 9 <> 0 ->
  exists t, traj_open N content = Ok t /\ t_natoms t = n /\ t_blocksize t = n + 9 /\ t_nblocks t = Z.of_nat (List.length (lines content)) / (n + 9) /\
    t_stray t = Z.of_nat (List.length (lines content)) - Z.of_nat (List.length (lines content)) / (n + 9) * (n + 9).
Proof.
  intros Hl Hn H9. unfold traj_open. destruct (lines content) as [|? [|? [|? [|l' f]]]] eqn:E; try discriminate. cbn in Hl. injection Hl as ->. rewrite Hn. cbn [bind].
  destruct (Z.eqb_spec (n + 9) 0) as [|_]; [contradiction|]. eexists. split; [reflexivity|]. auto.
Qed.

(** Blocks outside the file. *)
Lemma get_block_after content t i : of_file content t -> t_nblocks t <= i ->
  let bs := Z.to_nat (t_blocksize t) in
  let rest := skipn (Z.to_nat i * bs) (lines content) in
  get_block t i = if Nat.eqb (List.length rest) 0 then Err IndexError else Ok (rest ++ repeat [] (bs - List.length rest)).
Proof.
  intros F Hi bs rest. pose proof F as (F1 & F2 & F3 & F4 & _). assert (NN : 0 <= t_nblocks t) by (rewrite F4; apply Z.div_pos; lia).
  assert (EI : Z.of_nat (Z.to_nat i * bs) = i * t_blocksize t) by (unfold bs; rewrite Nat2Z.inj_mul, !Z2Nat.id by lia; reflexivity).
  assert (LR : List.length rest = (List.length (lines content) - Z.to_nat i * bs)%nat) by (unfold rest; apply skipn_length).
  assert (LT : Z.of_nat (List.length (lines content)) < (t_nblocks t + 1) * t_blocksize t).
  { rewrite F4. set (a := Z.of_nat _). pose proof (Z.div_mod a (t_blocksize t)) as D. pose proof (Z.mod_pos_bound a _ F3) as M. specialize (D ltac:(lia)). lia. }
  assert (IB : t_nblocks t * t_blocksize t <= i * t_blocksize t) by (apply Z.mul_le_mono_nonneg_r; lia).
  assert (NN' : 0 <= t_nblocks t * t_blocksize t) by (apply Z.mul_nonneg_nonneg; lia).
  destruct (Nat.eqb_spec (List.length rest) 0) as [E0|NE0].
  - unfold get_block, py_get. destruct (Z.ltb_spec (i * t_blocksize t) 0) as [|_]; [lia|]. destruct (Z.ltb_spec (i * t_blocksize t) 0) as [|_]; [lia|].
    destruct (nth_error (t_offset t) (Z.to_nat (i * t_blocksize t))) eqn:E; [|reflexivity]. exfalso.
    assert (K : (Z.to_nat (i * t_blocksize t) < List.length (t_offset t))%nat) by (apply nth_error_Some; congruence). rewrite F2, length_offsets in K. lia.
  - destruct (nth_error (t_offset t) (Z.to_nat (i * t_blocksize t))) as [off|] eqn:E.
    2:{ apply nth_error_None in E. rewrite F2, length_offsets in E. lia. }
    assert (G : py_get (t_offset t) (i * t_blocksize t) = Ok off).
    { unfold py_get. destruct (Z.ltb_spec (i * t_blocksize t) 0) as [|_]; [lia|]. destruct (Z.ltb_spec (i * t_blocksize t) 0) as [|_]; [lia|]. rewrite E. reflexivity. }
    destruct (get_block_at F G) as (k & _ & -> & K). destruct (Z.ltb_spec (i * t_blocksize t) 0) as [|_]; [lia|].
    assert (k = (Z.to_nat i * bs)%nat) as -> by lia. fold rest bs. f_equal. rewrite firstn_app. rewrite firstn_all2 by (unfold bs; lia). f_equal. apply firstn_repeat_le. lia.
Qed.
Lemma get_block_negative content t k : of_file content t -> 0 < k <= t_nblocks t ->
  get_block t (- k) = Ok (firstn (Z.to_nat (t_blocksize t)) (skipn (Z.to_nat (Z.of_nat (List.length (lines content)) - k * t_blocksize t)) (lines content))).
Proof.
  intros F Hk. pose proof F as (F1 & F2 & F3 & F4 & _).
  assert (LE : k * t_blocksize t <= Z.of_nat (List.length (lines content))).
  { apply Z.le_trans with (t_nblocks t * t_blocksize t); [apply Z.mul_le_mono_nonneg_r; lia|]. rewrite F4, Z.mul_comm. apply Z.mul_div_le. exact F3. }
  assert (KB : t_blocksize t <= k * t_blocksize t). { rewrite <- (Z.mul_1_l (t_blocksize t)) at 1. apply Z.mul_le_mono_nonneg_r; lia. }
  set (j := Z.of_nat (List.length (lines content)) - k * t_blocksize t).
  destruct (nth_error (t_offset t) (Z.to_nat j)) as [off|] eqn:E.
  2:{ apply nth_error_None in E. rewrite F2, length_offsets in E. lia. }
  assert (G : py_get (t_offset t) (- k * t_blocksize t) = Ok off).
  { unfold py_get. destruct (Z.ltb_spec (- k * t_blocksize t) 0) as [_|]; [|lia]. rewrite F2, length_offsets.
    replace (Z.of_nat (List.length (lines content)) + - k * t_blocksize t) with j by (unfold j; lia). destruct (Z.ltb_spec j 0) as [|_]; [lia|]. rewrite <- F2, E. reflexivity. }
  destruct (get_block_at F G) as (k' & _ & -> & K). destruct (Z.ltb_spec (- k * t_blocksize t) 0) as [_|]; [|lia].
  assert (k' = Z.to_nat j) as -> by lia. f_equal. rewrite firstn_app. replace (Z.to_nat (t_blocksize t) - _)%nat with 0%nat by (rewrite skipn_length; lia). cbn [firstn]. apply app_nil_r.
Qed.

(** Iteration. *)
Lemma shuffle_take (shuffle : list Z -> list Z) (Hs : forall l, Permutation l (shuffle l)) nb n : 0 <= n <= nb ->
  let l := py_take n (shuffle (py_range 0 nb 1)) in
  List.length l = Z.to_nat n /\ NoDup l /\ forall x, In x l -> 0 <= x < nb.
Proof.
  intros Hn l. pose proof (Hs (py_range 0 nb 1)) as P. unfold l. clear l. rewrite range_1 in *. remember (shuffle (map Z.of_nat (seq 0 (Z.to_nat nb)))) as r eqn:Er. clear Er.
  assert (L : List.length r = Z.to_nat nb) by (rewrite <- (Permutation_length P), map_length; apply seq_length).
  unfold py_take. destruct (Z.ltb_spec n 0) as [|_]; [lia|]. split; [apply firstn_length_le; lia|].
  assert (ND : NoDup r). { apply (Permutation_NoDup P). apply FinFun.Injective_map_NoDup; [intros a b; lia|apply seq_NoDup]. }
  split.
  - rewrite <- (firstn_skipn (Z.to_nat n) r) in ND. apply (NoDup_parts ND).
  - intros x Hx. assert (I : In x r). { rewrite <- (firstn_skipn (Z.to_nat n) r). apply in_or_app. left. exact Hx. }
    apply (Permutation_in _ (Permutation_sym P)) in I. apply in_map_iff in I. destruct I as (k & <- & Hk). apply in_seq in Hk. lia.
Qed.

(** ** What is read from lines of words *)
Lemma mapM_combine {A B} (f : A -> res B) l l' : List.length l = List.length l' -> (forall x y, In (x, y) (combine l l') -> f x = Ok y) -> mapM f l = Ok l'.
Proof.
  revert l'. induction l as [|x l IH]; intros [|y l'] L H; try discriminate; [reflexivity|]. cbn. rewrite (H x y) by (left; reflexivity). cbn [bind].
  rewrite (IH l'); [reflexivity|injection L; auto|]. intros a b Hab. apply H. right. exact Hab.
Qed.
Lemma Forall2_len {A B} (P : A -> B -> Prop) l l' : Forall2 P l l' -> List.length l = List.length l'.
Proof. induction 1; [reflexivity|]. cbn. f_equal. assumption. Qed.
Definition line (ws : list text) : text := join (tx " ") ws ++ [nl].
Definition reads (ws : list text) (vs : list N) : Prop := Forall plain ws /\ Forall2 (fun w v => parse_float T w = Ok v) ws vs.
Lemma reads_mapM rows vals : Forall2 reads rows vals -> mapM (mapM (parse_float T)) rows = Ok vals.
Proof.
  induction 1 as [|ws vs rows vals [_ H] _ IH]; [reflexivity|]. cbn. rewrite IH.
  assert (E : mapM (parse_float T) ws = Ok vs). { clear - H. induction H as [|w v ws vs H _ IH]; [reflexivity|]. cbn. rewrite H, IH. reflexivity. }
  rewrite E. reflexivity.
Qed.
Lemma loadtxt_rows rows vals m : (2 <= m)%nat -> (2 <= List.length rows)%nat -> Forall (fun r => List.length r = m) rows -> Forall2 reads rows vals ->
  loadtxt T (map line rows) = Ok (A2 vals) /\ List.length vals = List.length rows /\ Forall (fun r => List.length r = m) vals.
Proof.
  intros M L F H. assert (LV : List.length vals = List.length rows) by (symmetry; apply (Forall2_len H)).
  assert (FV : Forall (fun r => List.length r = m) vals).
  { clear - F H. induction H as [|ws vs rows vals [_ H] _ IH]; [constructor|]. inversion F; subst. constructor; [|apply IH; assumption]. symmetry. apply (Forall2_len H). }
  split; [|split; assumption]. unfold loadtxt. unfold line. rewrite table_lines.
  2:{ apply Forall_forall. intros ws Hw. rewrite Forall_forall in F. split; [|specialize (F ws Hw); destruct ws; [cbn in F; lia|discriminate]].
      clear - H Hw. induction H as [|a b rows vals [P _] _ IH]; [destruct Hw|]. destruct Hw as [<-|Hw]; [exact P|apply IH, Hw]. }
  rewrite (reads_mapM H). cbn [bind]. rewrite (rectangular_all FV), (squeeze_A2 (m := m)) by (auto; lia). reflexivity.
Qed.
Definition transpose (m : nat) (rows : list (list N)) : list (list N) := map (fun j => map (fun r => nth j r n0) rows) (seq 0 m).
Theorem block_of_rows (h5 : list text) brows bvals keys arows avals mb : List.length h5 = 5%nat ->
  List.length brows = 3%nat -> (2 <= mb)%nat -> Forall (fun r => List.length r = mb) brows -> Forall2 reads brows bvals ->
  (2 <= List.length keys)%nat -> NoDup keys -> Forall plain keys ->
  (2 <= List.length arows)%nat -> Forall (fun r => List.length r = List.length keys) arows -> Forall2 reads arows avals ->
  block_of T (h5 ++ map line brows ++ [line (tx "ITEM:" :: tx "ATOMS" :: keys)] ++ map line arows)
    = Ok (mkBlock (A2 bvals) (combine keys (transpose (List.length keys) avals))).
Proof.
  intros L5 L3 M2 FB RB K2 ND PK A2' FA RA.
  etransitivity; [apply (@block_of_parts _ T h5 (map line brows) (line (tx "ITEM:" :: tx "ATOMS" :: keys)) (map line arows) L5); rewrite map_length; exact L3|].
  destruct (@loadtxt_rows brows bvals mb) as (-> & _ & _); auto; [lia|]. cbn [bind].
  destruct (@loadtxt_rows arows avals (List.length keys)) as (-> & LV & FV); auto. cbn [bind]. unfold line. rewrite load_header_line.
  2:{ constructor; [|constructor; [|exact PK]]; (split; [split; [discriminate|]|]); cbn; intuition (subst; try reflexivity; discriminate). }
  cbn [bind]. set (d := combine keys (transpose (List.length keys) avals)).
  assert (LT : List.length (transpose (List.length keys) avals) = List.length keys) by (unfold transpose; rewrite map_length, seq_length; reflexivity).
  assert (EK : map fst d = keys).
  { unfold d. clear - LT. revert LT. generalize (transpose (List.length keys) avals). induction keys as [|k ks IH]; intros [|c cs] L; try discriminate; [reflexivity|]. cbn. f_equal. apply IH. injection L; auto. }
  rewrite <- EK at 1 2. rewrite (@fold_columns N avals d [] 0%nat); [reflexivity| |cbn [app]; rewrite EK; exact ND].
  intros i p Hp. cbn [Nat.add column]. assert (Hi : (i < List.length keys)%nat).
  { assert (K : (i < List.length d)%nat) by (apply nth_error_Some; congruence). unfold d in K. rewrite combine_length, LT in K. lia. }
  rewrite (@mapM_Ok _ _ _ (fun r => nth i r n0)).
  - f_equal. assert (E : nth_error (transpose (List.length keys) avals) i = Some (snd p)).
    { unfold d in Hp. clear - Hp. revert i Hp. generalize (transpose (List.length keys) avals). induction keys as [|k ks IH]; intros [|c cs] [|i] H; try discriminate; cbn in *; [injection H as <-; reflexivity|apply IH, H]. }
    unfold transpose in E. rewrite nth_error_map in E. rewrite (nth_error_nth' _ 0%nat) in E by (rewrite seq_length; exact Hi). rewrite seq_nth in E by exact Hi. cbn in E. injection E as E. exact E.
  - intros r Hr. rewrite Forall_forall in FV. specialize (FV r Hr). rewrite (nth_error_nth' r n0) by lia. reflexivity.
Qed.

(** ** Exported files *)
Lemma parse_int_nl z : parse_int (show_int z ++ [nl]) = Ok z.
Proof.
  rewrite <- parse_int_strip. destruct (show_int_word z) as [NE W]. rewrite lstrip_app_nl by assumption. apply parse_show_int.
Qed.
Theorem export_file t i (dd : block N) n : py_get (t_load t) i = Ok true -> py_get (t_data t) i = Ok (Some dd) -> good_data n dd -> good_numbers T repr dd -> t_natoms t = Z.of_nat n ->
  exists out t1 t2 dd', blocks_to_file repr t [i] = Ok out /\ traj_open N out = Ok t1 /\ t_natoms t1 = t_natoms t /\ t_nblocks t1 = 1 /\
    load T t1 0 = Ok t2 /\ py_get (t_data t2) 0 = Ok (Some dd') /\ same_data dd' dd.
Proof.
  intros HL HD G GN HN. destruct (export_back (t_natoms t) G GN) as (ls & dd' & EC & O1 & LL & _ & H3 & EB & SD).
  assert (EL : lines (concat ls) = ls). { apply file_lines_lines. split; [reflexivity|]. exists ls, []. rewrite app_nil_r. auto. }
  pose proof (@open_at (concat ls) (show_int (t_natoms t) ++ [nl]) (t_natoms t)) as OA. rewrite EL, LL in OA.
  destruct OA as (t1 & E1 & A1 & B1 & C1 & _); [exact H3|apply parse_int_nl|lia|].
  assert (C1' : t_nblocks t1 = 1). { rewrite C1. replace (t_natoms t + 9) with (Z.of_nat (9 + n)) by lia. apply Z.div_same. lia. }
  assert (F : of_file (concat ls) t1) by (apply traj_open_of_file; [exact E1|lia]).
  assert (G0 : get_block t1 0 = Ok ls).
  { rewrite (get_block_in F) by lia. f_equal. rewrite EL. unfold snapshot. cbn [Z.to_nat Nat.mul skipn]. apply firstn_all2. rewrite LL, B1. lia. }
  destruct F as (_ & _ & _ & _ & F5 & F6).
  exists (concat ls), t1, (set_data t1 [Some dd'] [true]), dd'. split.
  - unfold blocks_to_file. cbn [mapM]. unfold block_lines. rewrite HL. cbn [bind]. unfold convert_data_to_lines. rewrite HD. cbn [bind]. rewrite EC. cbn [bind concat]. rewrite app_nil_r. reflexivity.
  - split; [exact E1|]. split; [exact A1|]. split; [exact C1'|]. split; [|split; [reflexivity|exact SD]].
    unfold load. rewrite G0. cbn [bind]. rewrite EB. cbn [bind]. rewrite C1' in F5, F6.
    destruct (t_data t1) as [|d0 [|? ?]]; try discriminate. destruct (t_load t1) as [|l0 [|? ?]]; try discriminate. reflexivity.
Qed.
(** Writing several blocks: what was written is read back block by block. *)
Theorem export_many bs natoms (blocks : list (list text)) : natoms + 9 = Z.of_nat bs -> blocks <> [] ->
  Forall (fun b => List.length b = bs /\ Forall one_line b /\ nth_error b 3 = Some (show_int natoms ++ [nl])) blocks ->
  exists t, traj_open N (concat (concat blocks)) = Ok t /\ t_nblocks t = Z.of_nat (List.length blocks) /\ t_stray t = 0 /\
    forall k b, nth_error blocks k = Some b -> get_block t (Z.of_nat k) = Ok b.
Proof.
  intros HB NE H. assert (EL : lines (concat (concat blocks)) = concat blocks).
  { apply file_lines_lines. split; [reflexivity|]. exists (concat blocks), []. rewrite app_nil_r. split; [reflexivity|]. split; [|auto].
    apply Forall_concat. eapply Forall_impl; [|exact H]. intros b (_ & O & _). exact O. }
  assert (LC : List.length (concat blocks) = (List.length blocks * bs)%nat).
  { clear - H. induction H as [|b blocks (Lb & _) _ IH]; [reflexivity|]. cbn. rewrite app_length, IH, Lb. reflexivity. }
  assert (BP : (4 <= bs)%nat). { destruct blocks as [|b r]; [congruence|]. inversion H as [|? ? (L & _ & H3) _]; subst. assert (K : (3 < List.length b)%nat) by (apply nth_error_Some; congruence). lia. }
  pose proof (@open_at (concat (concat blocks)) (show_int natoms ++ [nl]) natoms) as OA. rewrite EL, LC in OA.
  destruct OA as (t1 & E1 & A1 & B1 & C1 & D1).
  { destruct blocks as [|b r]; [congruence|]. inversion H as [|? ? (L & _ & H3) _]; subst. cbn [concat]. rewrite nth_error_app1 by lia. exact H3. }
  { apply parse_int_nl. } { lia. }
  assert (QD : Z.of_nat (List.length blocks * bs) / (natoms + 9) = Z.of_nat (List.length blocks)).
  { rewrite HB, Nat2Z.inj_mul. apply Z.div_mul. lia. }
  exists t1. split; [exact E1|]. rewrite QD in C1, D1. split; [exact C1|]. split; [rewrite D1, HB; lia|].
  assert (F : of_file (concat (concat blocks)) t1) by (apply traj_open_of_file; [exact E1|lia]).
  intros k b Hk. assert (LK : (k < List.length blocks)%nat) by (apply nth_error_Some; congruence).
  rewrite (get_block_in F) by lia. f_equal. rewrite EL, B1, HB, !Nat2Z.id. unfold snapshot. clear - H Hk. revert k Hk. induction H as [|b0 blocks (Lb & _) _ IH]; intros [|k] Hk; try discriminate.
  - injection Hk as ->. cbn [Nat.mul skipn concat]. rewrite firstn_app, Lb, Nat.sub_diag. cbn [firstn]. rewrite app_nil_r. apply firstn_all2. lia.
  - cbn [concat Nat.mul]. rewrite skipn_app, Lb. rewrite (skipn_all2 b0) by lia. replace (bs + k * bs - bs)%nat with (k * bs)%nat by lia. cbn [app]. apply IH, Hk.
Qed.
End F.

Section S.
Variable N : num.
Variable T : textnum N.
Variable repr : N -> text.

Lemma to_file_pairs (env : list (traj N)) s : List.length (sl_trajs s) = List.length (sl_blocks s) ->
  to_file repr env s = (l <- mapM (fun p => t <- at_ (fst p) env ;; blocks_to_file repr t (snd p)) (combine (sl_trajs s) (sl_blocks s)) ;; Ok (concat l)).
Proof.
  intros L. unfold to_file. f_equal.
  assert (G : forall ks pre bl, List.length ks = List.length bl ->
    mapM (fun p => t <- at_ (snd p) env ;; b <- at_ (fst p) (pre ++ bl) ;; blocks_to_file repr t b) (combine (seq (List.length pre) (List.length ks)) ks)
    = mapM (fun p => t <- at_ (fst p) env ;; blocks_to_file repr t (snd p)) (combine ks bl)).
  { clear. induction ks as [|k ks IH]; intros pre [|b bl] L; try discriminate; [reflexivity|]. cbn [List.length seq combine mapM fst snd].
    assert (E : at_ (List.length pre) (pre ++ b :: bl) = Ok b). { apply at_Ok. rewrite nth_error_app2 by lia. rewrite Nat.sub_diag. reflexivity. }
    rewrite E. cbn [bind]. specialize (IH (pre ++ [b]) bl). rewrite <- app_assoc, app_length in IH. cbn [app List.length] in IH. rewrite Nat.add_1_r in IH. rewrite IH by (injection L; auto). reflexivity. }
  apply (G (sl_trajs s) [] (sl_blocks s) L).
Qed.
Lemma to_file_unloaded (env : list (traj N)) s (files : nat -> text) (sizes : nat -> nat) : List.length (sl_trajs s) = List.length (sl_blocks s) ->
  (forall k, In k (sl_trajs s) -> nth_error env k <> None) ->
  (forall k x, In (k, x) (snapshots s) -> exists t, nth_error env k = Some t /\ block_lines repr t x = Ok (snapshot (sizes k) (Z.to_nat x) (lines (files k)))) ->
  to_file repr env s = Ok (concat (map (fun p => concat (snapshot (sizes (fst p)) (Z.to_nat (snd p)) (lines (files (fst p))))) (snapshots s))).
Proof.
  intros L HK HX. rewrite to_file_pairs by exact L. unfold snapshots in *. assert (HK' : forall p, In p (combine (sl_trajs s) (sl_blocks s)) -> nth_error env (fst p) <> None).
  { intros [k b] Hp. apply HK. apply in_combine_l in Hp. exact Hp. }
  clear HK L. revert HX HK'. generalize (combine (sl_trajs s) (sl_blocks s)). induction l as [|[k bl] l IH]; intros HX HK; [reflexivity|].
  cbn [mapM fst snd]. destruct (nth_error env k) as [t|] eqn:E; [|exfalso; apply (HK (k, bl)); [left; reflexivity|exact E]]. rewrite (at_Ok E). cbn [bind].
  assert (B : blocks_to_file repr t bl = Ok (concat (map (fun x => concat (snapshot (sizes k) (Z.to_nat x) (lines (files k)))) bl))).
  { unfold blocks_to_file. rewrite (@mapM_Ok _ _ _ (fun x => snapshot (sizes k) (Z.to_nat x) (lines (files k)))).
    - cbn [bind]. f_equal. clear. induction bl as [|x bl IH]; [reflexivity|]. cbn. rewrite concat_app, IH. reflexivity.
    - intros x Hx. destruct (HX k x) as (t' & Et & Hb); [cbn [map concat]; apply in_or_app; left; apply in_map; exact Hx|]. rewrite E in Et. injection Et as <-. exact Hb. }
  rewrite B. cbn [bind].
  match type of IH with _ -> _ -> bind ?m _ = _ => destruct m as [rest|e] eqn:ER end.
  - cbn [bind] in IH |- *. assert (IH' : Ok (concat rest) = Ok (concat (map (fun p => concat (snapshot (sizes (fst p)) (Z.to_nat (snd p)) (lines (files (fst p))))) (concat (map (fun p => map (pair (fst p)) (snd p)) l))))).
    { apply IH; [intros k' x Hx; apply HX; cbn [map concat]; apply in_or_app; right; exact Hx|intros p Hp; apply HK; right; exact Hp]. }
    injection IH' as IH'. f_equal. cbn [map concat]. rewrite IH', map_app, concat_app, map_map. reflexivity.
  - cbn [bind] in IH. discriminate IH; [intros k' x Hx; apply HX; cbn [map concat]; apply in_or_app; right; exact Hx|intros p Hp; apply HK; right; exact Hp].
Qed.
(** Loaded data without ids and types, or with nothing else. *)
Lemma convert_no_other natoms (dd : block N) rows n : b_box dd = A2 rows -> Forall (fun p => int_name (fst p) /\ List.length (snd p) = n /\ Forall (fun x => neqb (nsub x x) n0 = true) (snd p)) (b_atoms dd) ->
  exists ls, convert repr natoms dd = Ok ls /\ List.length ls = (6 + List.length rows)%nat.
Proof.
  intros EB H. unfold convert. rewrite EB. cbn [box_text bind].
  assert (EF : filter (fun p => negb (is_int_key (fst p))) (b_atoms dd) = []).
  { clear - H. induction H as [|p l [K _] _ IH]; [reflexivity|]. cbn. apply is_int_key_spec in K. rewrite K. exact IH. }
  assert (ED : filter (fun p => is_int_key (fst p)) (b_atoms dd) = b_atoms dd).
  { clear - H. induction H as [|p l [K _] _ IH]; [reflexivity|]. cbn. apply is_int_key_spec in K. rewrite K, IH. reflexivity. }
  rewrite EF, ED. 
  assert (exists w, match b_atoms dd with [] => Ok [] | (_, c) :: _ => mapM (fun i => w <- mapM (fun p => x <- at_ i (snd p) ;; show_d x) (b_atoms dd) ;; Ok (join (tx " ") w)) (seq 0 (List.length c)) end = Ok w) as [w ->].
  { destruct (b_atoms dd) as [|[k c] l] eqn:E; [eexists; reflexivity|]. assert (Lc : List.length c = n). { rewrite Forall_forall in H. apply (H (k, c)). left. reflexivity. } clear E. set (d := (k, c) :: l) in *.
    eexists. apply (@mapM_Ok _ _ _ (fun i => join (tx " ") (map (fun p => match nth_error (snd p) i with Some x => show_int (ntrunc x) | None => [] end) d))).
    intros i Hi. apply in_seq in Hi. rewrite (@mapM_Ok _ _ _ (fun p => match nth_error (snd p) i with Some x => show_int (ntrunc x) | None => [] end)); [reflexivity|].
    intros p Hp. rewrite Forall_forall in H. destruct (H p Hp) as (_ & Lp & Fp). unfold at_. destruct (nth_error (snd p) i) as [x|] eqn:En; [|apply nth_error_None in En; lia]. cbn [bind].
    rewrite Forall_forall in Fp. unfold show_d. rewrite (Fp x) by (apply nth_error_In in En; exact En). reflexivity. }
  cbn [bind map rectangular List.length seq mapM]. eexists. split; [reflexivity|]. rewrite !app_length, map_length. cbn. lia.
Qed.
Lemma convert_no_int natoms (dd : block N) rows n : b_box dd = A2 rows -> b_atoms dd <> [] -> (0 < n)%nat ->
  Forall (fun p => ~ int_name (fst p) /\ List.length (snd p) = n) (b_atoms dd) -> convert repr natoms dd = Err IndexError.
Proof.
  intros EB NE Hn H. unfold convert. rewrite EB. cbn [box_text bind].
  assert (ED : filter (fun p => is_int_key (fst p)) (b_atoms dd) = []).
  { clear - H. induction H as [|p l [K _] _ IH]; [reflexivity|]. cbn. apply is_int_key_false in K. rewrite K. exact IH. }
  assert (EF : filter (fun p => negb (is_int_key (fst p))) (b_atoms dd) = b_atoms dd).
  { clear - H. induction H as [|p l [K _] _ IH]; [reflexivity|]. cbn. apply is_int_key_false in K. rewrite K. cbn. rewrite IH. reflexivity. }
  rewrite EF, ED. cbn [bind]. rewrite (@rectangular_all _ n).
  2:{ apply Forall_map. eapply Forall_impl; [|exact H]. intros p [_ L]. exact L. }
  cbn [bind]. assert (exists w, match b_atoms dd with [] => Ok [] | (_, c) :: _ => mapM (fun i => w <- mapM (fun p => x <- at_ i (snd p) ;; Ok (repr x)) (b_atoms dd) ;; Ok (line_of w)) (seq 0 (List.length c)) end = Ok w /\ List.length w = n) as (w & -> & Lw).
  { destruct (b_atoms dd) as [|[k c] l] eqn:E; [congruence|]. assert (Lc : List.length c = n). { rewrite Forall_forall in H. apply (H (k, c)). left. reflexivity. } clear E. set (d := (k, c) :: l) in *.
    eexists. split; [apply (@mapM_Ok _ _ _ (fun i => line_of (map (fun p => match nth_error (snd p) i with Some x => repr x | None => [] end) d)))|rewrite map_length, seq_length; exact Lc].
    intros i Hi. apply in_seq in Hi. rewrite (@mapM_Ok _ _ _ (fun p => match nth_error (snd p) i with Some x => repr x | None => [] end)); [reflexivity|].
    intros p Hp. rewrite Forall_forall in H. destruct (H p Hp) as (_ & Lp). unfold at_. destruct (nth_error (snd p) i) as [x|] eqn:En; [|apply nth_error_None in En; lia]. reflexivity. }
  cbn [bind]. rewrite Lw. destruct n as [|n]; [lia|]. reflexivity.
Qed.
End S.
