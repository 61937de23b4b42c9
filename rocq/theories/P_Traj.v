(** Proofs about trajectories. *)
From Coq Require Import Ascii String Lia Sorted.
From Verif Require Import Base Num Types M_Geometry M_Container M_Analysis M_Text M_Lammps M_Traj.
From Verif Require Import P_Text P_Neighbors P_Lammps P_LammpsSys S_Lammps S_Traj.
Set Implicit Arguments.
Unset Strict Implicit.
Local Open Scope Z_scope.

(** ** Lines and offsets *)
Lemma lines_cons s l r : lines s = l :: r -> s = l ++ concat r /\ lines (concat r) = r.
Proof.
  revert l r. induction s as [|c s IH]; intros l r H; [discriminate|]. cbn [lines] in H.
  destruct (Ascii.eqb_spec c nl) as [->|E].
  - injection H as <- <-. split; [cbn; f_equal; symmetry; apply concat_lines|]. rewrite concat_lines. reflexivity.
  - destruct (lines s) as [|l' r'] eqn:Es; injection H as <- <-.
    + split; [|reflexivity]. cbn. destruct s; [reflexivity|]. cbn [lines] in Es. destruct (Ascii.eqb a nl); [discriminate|]. destruct (lines s); discriminate.
    + destruct (IH _ _ eq_refl) as [-> I2]. split; [reflexivity|exact I2].
Qed.
Lemma lines_skipn s i : lines (concat (skipn i (lines s))) = skipn i (lines s).
Proof.
  revert s. induction i as [|i IH]; intros s; [cbn [skipn]; rewrite concat_lines; reflexivity|].
  destruct (lines s) as [|l r] eqn:E; [reflexivity|]. cbn [skipn]. destruct (lines_cons E) as [_ H]. rewrite <- H. apply IH.
Qed.
Lemma readline_lines s : readline s = match lines s with [] => ([], []) | l :: r => (l, concat r) end.
Proof.
  induction s as [|c s IH]; [reflexivity|]. cbn [readline lines]. destruct (Ascii.eqb c nl); [rewrite concat_lines; reflexivity|].
  rewrite IH. destruct (lines s) as [|l r]; reflexivity.
Qed.
Lemma firstn_repeat_le {A} (x : A) : forall m k, (k <= m)%nat -> firstn k (repeat x m) = repeat x k.
Proof. induction m as [|m IH]; intros [|k] H; try reflexivity; [lia|]. cbn. rewrite IH by lia. reflexivity. Qed.
Lemma readlines_spec n : forall s, readlines n s = firstn n (lines s ++ repeat [] n).
Proof.
  induction n as [|n IH]; intros s; [reflexivity|]. cbn [readlines]. rewrite readline_lines.
  destruct (lines s) as [|l r] eqn:E.
  - cbn [app repeat firstn]. rewrite IH. reflexivity.
  - destruct (lines_cons E) as [_ H]. cbn [app firstn]. rewrite IH, H. f_equal.
    rewrite !firstn_app. f_equal. destruct (Nat.le_gt_cases n (List.length r)) as [K|K].
    + replace (n - List.length r)%nat with 0%nat by lia. reflexivity.
    + rewrite !firstn_repeat_le by lia. reflexivity.
Qed.
Lemma length_offsets f : forall off, List.length (offsets off f) = List.length f.
Proof. induction f as [|l f IH]; intros off; [reflexivity|]. cbn. rewrite IH. reflexivity. Qed.
Lemma nth_offsets f : forall off i x, nth_error (offsets off f) i = Some x -> x = off + Z.of_nat (List.length (concat (firstn i f))).
Proof.
  induction f as [|l f IH]; intros off [|i] x H; try discriminate; cbn [offsets nth_error] in H.
  - injection H as <-. cbn. lia.
  - apply IH in H. subst x. cbn [firstn concat]. rewrite app_length. lia.
Qed.
Lemma skipn_concat (f : list text) i : skipn (List.length (concat (firstn i f))) (concat f) = concat (skipn i f).
Proof.
  rewrite <- (firstn_skipn i f) at 2. rewrite concat_app, skipn_app, Nat.sub_diag, skipn_all. reflexivity.
Qed.

Section T.
Variable N : num.
Variable T : textnum N.
Variable repr : N -> text.
Implicit Types t : traj N.

(** What opening makes. *)
Lemma traj_open_inv content t : traj_open N content = Ok t ->
  exists l n, nth_error (lines content) 3 = Some l /\ parse_int l = Ok n /\ n + 9 <> 0 /\
    let bs := n + 9 in let nl := Z.of_nat (List.length (lines content)) in
    t = mkTraj content n bs (nl / bs) (nl - nl / bs * bs) (offsets 0 (lines content))
          (repeat false (Z.to_nat (nl / bs))) (repeat None (Z.to_nat (nl / bs))).
Proof.
  unfold traj_open. destruct (lines content) as [|? [|? [|? [|l f]]]] eqn:E; try discriminate. destruct (parse_int l) as [n|] eqn:En; [|discriminate].
  cbn [bind]. destruct (Z.eqb_spec (n + 9) 0) as [|K]; [discriminate|]. intros H. injection H as <-.
  exists l, n. split; [reflexivity|]. split; [exact En|]. split; [exact K|reflexivity].
Qed.

(** The trajectories that come from a file, whatever has been loaded. *)
Definition of_file (content : text) (t : traj N) : Prop :=
  t_content t = content /\ t_offset t = offsets 0 (lines content) /\ 0 < t_blocksize t /\
  t_nblocks t = Z.of_nat (List.length (lines content)) / t_blocksize t /\
  List.length (t_load t) = Z.to_nat (t_nblocks t) /\ List.length (t_data t) = Z.to_nat (t_nblocks t).
Lemma traj_open_of_file content t : traj_open N content = Ok t -> 0 < t_blocksize t -> of_file content t.
Proof.
  intros H HB. destruct (traj_open_inv H) as (l & n & _ & _ & _ & E). cbv zeta in E. subst t. cbn in *.
  unfold of_file. cbn. rewrite !repeat_length. repeat (split; [auto; fail|]). auto.
Qed.
Lemma get_block_at content t i off : of_file content t ->
  py_get (t_offset t) (i * t_blocksize t) = Ok off ->
  exists k, nth_error (t_offset t) k = Some off /\ get_block t i = Ok (firstn (Z.to_nat (t_blocksize t)) (skipn k (lines content) ++ repeat [] (Z.to_nat (t_blocksize t)))) /\
    Z.of_nat k = (if i * t_blocksize t <? 0 then Z.of_nat (List.length (lines content)) + i * t_blocksize t else i * t_blocksize t).
Proof.
  intros (H1 & H2 & H3 & _) Hg. unfold get_block. rewrite Hg. cbn [bind]. rewrite readlines_spec. unfold py_get in Hg.
  set (j := if i * t_blocksize t <? 0 then _ else _) in Hg. destruct (Z.ltb_spec j 0) as [|Lj]; [discriminate|].
  destruct (nth_error (t_offset t) (Z.to_nat j)) as [x|] eqn:E; [|discriminate]. injection Hg as ->. exists (Z.to_nat j).
  split; [exact E|]. split.
  - rewrite H2 in E. apply nth_offsets in E. subst off. rewrite Z.add_0_l, Nat2Z.id, H1.
    rewrite <- (concat_lines content) at 2. rewrite skipn_concat, lines_skipn. reflexivity.
  - clear E. unfold j in Lj |- *. rewrite H2, length_offsets in Lj |- *. lia.
Qed.
Lemma get_block_in content t i : of_file content t -> 0 <= i < t_nblocks t ->
  get_block t i = Ok (snapshot (Z.to_nat (t_blocksize t)) (Z.to_nat i) (lines content)).
Proof.
  intros H Hi. pose proof H as (H1 & H2 & H3 & H4 & _). set (bs := t_blocksize t) in *.
  assert (L : (i + 1) * bs <= Z.of_nat (List.length (lines content))).
  { apply Z.le_trans with (t_nblocks t * bs); [apply Z.mul_le_mono_nonneg_r; lia|]. rewrite H4. rewrite Z.mul_comm. apply Z.mul_div_le. exact H3. }
  assert (P : 0 <= i * bs) by (apply Z.mul_nonneg_nonneg; lia).
  destruct (nth_error (t_offset t) (Z.to_nat (i * bs))) as [off|] eqn:E.
  2:{ apply nth_error_None in E. rewrite H2, length_offsets in E. lia. }
  assert (G : py_get (t_offset t) (i * bs) = Ok off).
  { unfold py_get. destruct (Z.ltb_spec (i * bs) 0); [lia|]. destruct (Z.ltb_spec (i * bs) 0); [lia|]. rewrite E. reflexivity. }
  destruct (get_block_at H G) as (k & _ & -> & K). fold bs in K |- *. destruct (Z.ltb_spec (i * bs) 0); [lia|].
  unfold snapshot. assert (k = (Z.to_nat i * Z.to_nat bs)%nat) as -> by lia.
  rewrite firstn_app. replace (Z.to_nat bs - _)%nat with 0%nat by (rewrite skipn_length; lia). cbn [firstn]. rewrite app_nil_r. reflexivity.
Qed.
Lemma snapshots_concat {A} bs (ls : list A) : forall n, (n * bs <= List.length ls)%nat ->
  concat (map (fun i => snapshot bs i ls) (seq 0 n)) = firstn (n * bs) ls.
Proof.
  induction n as [|n IH]; intros H; [reflexivity|]. rewrite seq_S, map_app, concat_app, IH by lia. cbn [map concat Nat.add]. rewrite app_nil_r.
  unfold snapshot. replace (S n * bs)%nat with (n * bs + bs)%nat by lia.
  rewrite <- (firstn_skipn (n * bs) ls) at 3. rewrite firstn_app, firstn_firstn, firstn_length_le by lia.
  replace (Nat.min (n * bs + bs) (n * bs)) with (n * bs)%nat by lia. replace (n * bs + bs - n * bs)%nat with bs by lia. reflexivity.
Qed.

(** ** Slices *)
Lemma range_pos a b s x : 0 < s -> In x (py_range a b s) <-> exists k, 0 <= k /\ x = a + s * k /\ x < b.
Proof.
  intros Hs. unfold py_range, range_len. destruct (Z.ltb_spec 0 s) as [_|]; [|lia]. rewrite in_map_iff. split.
  - intros (k & <- & Hk). apply in_seq in Hk. exists (Z.of_nat k). split; [lia|]. split; [reflexivity|].
    assert (K : Z.of_nat k < (b - a + s - 1) / s) by lia.
    assert (s * (Z.of_nat k + 1) <= b - a + s - 1); [|lia].
    apply Z.le_trans with (s * ((b - a + s - 1) / s)); [apply Z.mul_le_mono_nonneg_l; lia|apply Z.mul_div_le; exact Hs].
  - intros (k & Hk & -> & Hb). exists (Z.to_nat k). split; [rewrite Z2Nat.id by exact Hk; reflexivity|]. apply in_seq. split; [lia|].
    cbn [Nat.add]. apply Z2Nat.inj_lt; [lia|apply Z.div_pos; lia|]. apply Z.lt_le_trans with (k + 1); [lia|]. apply Z.div_le_lower_bound; [exact Hs|lia].
Qed.
Lemma range_neg a b s x : s < 0 -> In x (py_range a b s) <-> exists k, 0 <= k /\ x = a + s * k /\ b < x.
Proof.
  intros Hs. unfold py_range, range_len. destruct (Z.ltb_spec 0 s) as [|_]; [lia|]. rewrite in_map_iff. split.
  - intros (k & <- & Hk). apply in_seq in Hk. exists (Z.of_nat k). split; [lia|]. split; [reflexivity|].
    assert (K : Z.of_nat k < (a - b - s - 1) / (- s)) by lia.
    assert ((- s) * (Z.of_nat k + 1) <= a - b - s - 1); [|lia].
    apply Z.le_trans with ((- s) * ((a - b - s - 1) / (- s))); [apply Z.mul_le_mono_nonneg_l; lia|apply Z.mul_div_le; lia].
  - intros (k & Hk & -> & Hb). exists (Z.to_nat k). split; [rewrite Z2Nat.id by exact Hk; reflexivity|]. apply in_seq. split; [lia|].
    cbn [Nat.add]. apply Z2Nat.inj_lt; [lia|apply Z.div_pos; lia|]. apply Z.lt_le_trans with (k + 1); [lia|]. apply Z.div_le_lower_bound; lia.
Qed.
Lemma seq_sorted (P : Z -> Z -> Prop) (f : nat -> Z) : (forall i j, (i < j)%nat -> P (f i) (f j)) -> forall n k, StronglySorted P (map f (seq k n)).
Proof.
  intros H n. induction n as [|n IH]; intros k; [constructor|]. cbn [seq map]. constructor; [apply IH|]. apply Forall_forall. intros x Hx.
  apply in_map_iff in Hx. destruct Hx as (j & <- & Hj). apply in_seq in Hj. apply H. lia.
Qed.
Lemma range_sorted_pos a b s : 0 < s -> StronglySorted Z.lt (py_range a b s).
Proof. intros H. apply seq_sorted. intros i j L. apply Z.add_lt_mono_l. apply Z.mul_lt_mono_pos_l; lia. Qed.
Lemma range_sorted_neg a b s : s < 0 -> StronglySorted (fun x y => y < x) (py_range a b s).
Proof. intros H. apply seq_sorted. intros i j L. apply Z.add_lt_mono_l. apply Z.mul_lt_mono_neg_l; lia. Qed.

Lemma getitem_slice t self a b c : 0 <= t_nblocks t ->
  let s := match c with Some s => s | None => 1 end in
  if s =? 0 then getitem t self (ISlice a b c) = Err ValueError
  else exists l, getitem t self (ISlice a b c) = Ok (new_slice self l) /\
    StronglySorted (fun x y => if 0 <? s then x < y else y < x) l /\
    forall x, In x l <-> selected (t_nblocks t) a b s x.
Proof.
  intros Hn s. set (n := t_nblocks t) in *. unfold getitem, slice_indices. fold n s. destruct (Z.ltb_spec n 0) as [|_]; [lia|].
  destruct (Z.eqb_spec s 0) as [|Hs]; [reflexivity|]. cbn [bind]. eexists. split; [reflexivity|].
  destruct (Z.ltb_spec s 0) as [L|L].
  - assert (P : (0 <? s) = false) by (apply Z.ltb_ge; lia). rewrite P. split; [apply range_sorted_neg; exact L|]. intros x. rewrite range_neg by exact L.
    unfold selected, slice_first, before_stop, position. rewrite P.
    assert (M : forall k : Z, 0 <= k -> s * k <= 0) by (intros; apply Z.mul_nonpos_nonneg; lia).
    split.
    + intros (k & Hk & -> & Hx). specialize (M k Hk).
      assert (X : 0 <= (match a with Some i => if i <? 0 then Z.max (i + n) (-1) else Z.min i (n - 1) | None => n - 1 end) + s * k < n).
      { destruct a as [i|]; destruct b as [j|]; repeat match goal with |- context [?u <? ?v] => destruct (Z.ltb_spec u v) | H : context [?u <? ?v] |- _ => destruct (Z.ltb_spec u v) end; lia. }
      split; [exact X|]. split.
      * destruct a as [i|]; [|exists k; split; [exact Hk|reflexivity]]. exists k. split; [exact Hk|]. f_equal.
           destruct (Z.ltb_spec i 0) as [Li|Li]; [|lia]. destruct b as [j|]; try destruct (Z.ltb_spec j 0); lia.
      * destruct b as [j|]; [|exact I]. destruct (Z.ltb_spec j 0); lia.
    + intros (H1 & (k & Hk & ->) & H3). exists k. split; [exact Hk|]. specialize (M k Hk). split.
      * f_equal. destruct a as [i|]; [|reflexivity]. destruct (Z.ltb_spec i 0); lia.
      * destruct b as [j|]; try destruct (Z.ltb_spec j 0); lia.
  - assert (P : (0 <? s) = true) by (apply Z.ltb_lt; lia). assert (L' : 0 < s) by lia. rewrite P. split; [apply range_sorted_pos; exact L'|]. intros x. rewrite range_pos by exact L'.
    unfold selected, slice_first, before_stop, position. rewrite P.
    assert (M : forall k : Z, 0 <= k -> 0 <= s * k) by (intros; apply Z.mul_nonneg_nonneg; lia).
    split.
    + intros (k & Hk & -> & Hx). specialize (M k Hk).
      assert (X : 0 <= (match a with Some i => if i <? 0 then Z.max (i + n) 0 else Z.min i n | None => 0 end) + s * k < n).
      { destruct a as [i|]; destruct b as [j|]; repeat match goal with |- context [?u <? ?v] => destruct (Z.ltb_spec u v) | H : context [?u <? ?v] |- _ => destruct (Z.ltb_spec u v) end; lia. }
      split; [exact X|]. split.
      * destruct a as [i|]; [|exists k; split; [exact Hk|reflexivity]]. exists k. split; [exact Hk|]. f_equal.
           destruct (Z.ltb_spec i 0) as [Li|Li]; [lia|]. destruct b as [j|]; try destruct (Z.ltb_spec j 0); lia.
      * destruct b as [j|]; [|exact I]. destruct (Z.ltb_spec j 0); lia.
    + intros (H1 & (k & Hk & ->) & H3). exists k. split; [exact Hk|]. specialize (M k Hk). split.
      * f_equal. destruct a as [i|]; [|reflexivity]. destruct (Z.ltb_spec i 0); lia.
      * destruct b as [j|]; try destruct (Z.ltb_spec j 0); lia.
Qed.

(** ** Adding *)
Lemma at_Ok {A} (l : list A) i x : nth_error l i = Some x -> at_ i l = Ok x.
Proof. intros H. unfold at_. rewrite H. reflexivity. Qed.
Lemma snapshots_app a b : slice_ok a ->
  snapshots (mkSlice (sl_trajs a ++ sl_trajs b) (sl_blocks a ++ sl_blocks b)) = snapshots a ++ snapshots b.
Proof.
  intros [L _]. unfold snapshots. cbn [sl_trajs sl_blocks].
  assert (C : forall (u1 : list nat) (v1 : list (list Z)) u2 v2, List.length u1 = List.length v1 -> combine (u1 ++ u2) (v1 ++ v2) = combine u1 v1 ++ combine u2 v2).
  { clear. induction u1 as [|x u IH]; intros [|y v] u2 v2 H; try discriminate; [reflexivity|]. cbn [app combine]. rewrite IH by (injection H; auto). reflexivity. }
  rewrite C by exact L. rewrite map_app, concat_app. reflexivity.
Qed.
Lemma add_spec h i j a b : i <> j -> nth_error h i = Some a -> nth_error h j = Some b -> slice_ok a -> slice_ok b ->
  exists h' a', add h i j = Ok (h', i) /\ nth_error h' i = Some a' /\ slice_ok a' /\ snapshots a' = snapshots a ++ snapshots b /\
    (forall k, k <> i -> nth_error h' k = nth_error h k).
Proof.
  intros Hij Ha Hb Sa Sb. unfold add. rewrite (at_Ok Ha), (at_Ok Hb). cbn [bind]. destruct (Nat.eqb_spec i j) as [|_]; [contradiction|]. cbn [andb].
  eexists _, _. split; [reflexivity|]. split; [rewrite nth_error_upd, Nat.eqb_refl, Ha; reflexivity|]. split.
  - destruct Sa as [L NE], Sb as [L' _]. split; cbn [sl_trajs sl_blocks]; [rewrite !app_length; lia|]. intros K. apply NE. destruct (sl_trajs a); [reflexivity|discriminate].
  - split; [apply snapshots_app; exact Sa|]. intros k Hk. rewrite nth_error_upd. destruct (Nat.eqb_spec k i); [contradiction|reflexivity].
Qed.
Lemma add_self h i a : nth_error h i = Some a -> slice_ok a -> add h i i = Err Diverges.
Proof.
  intros Ha [L NE]. unfold add. rewrite (at_Ok Ha). cbn [bind]. rewrite Nat.eqb_refl. destruct (sl_trajs a) as [|x l]; [congruence|]. reflexivity.
Qed.

Lemma NoDup_parts {A} (l l' : list A) : NoDup (l ++ l') -> NoDup l /\ NoDup l'.
Proof.
  induction l as [|x l IH]; intros H; [split; [constructor|exact H]|]. inversion H as [|? ? NI ND]; subst. destruct (IH ND) as [A1 A2].
  split; [constructor; [|exact A1]|exact A2]. intros K. apply NI, in_or_app. auto.
Qed.
Definition heap_ok (h : heap) : Prop := forall i a, nth_error h i = Some a -> slice_ok a.
Lemma eval_spec e : forall h, heap_ok h -> NoDup (leaves e) -> (forall i, In i (leaves e) -> exists a, nth_error h i = Some a) ->
  exists h' r a', eval h e = Ok (h', r) /\ In r (leaves e) /\ nth_error h' r = Some a' /\ heap_ok h' /\
    snapshots a' = concat (map (fun i => match nth_error h i with Some a => snapshots a | None => [] end) (leaves e)) /\
    (forall k, ~ In k (leaves e) -> nth_error h' k = nth_error h k) /\ List.length h' = List.length h.
Proof.
  induction e as [i|e1 IH1 e2 IH2]; intros h HH ND HI; cbn [leaves eval] in *.
  - destruct (HI i (or_introl eq_refl)) as [a Ha]. exists h, i, a. rewrite (at_Ok Ha). cbn [bind map concat]. rewrite Ha, app_nil_r.
    repeat (split; [auto; fail|]). split; [left; reflexivity|]. auto.
  - destruct (IH1 h HH) as (h1 & r1 & a1 & E1 & R1 & A1 & H1 & S1 & K1 & L1).
    { apply (NoDup_parts ND). }
    { intros i Hi. apply HI, in_or_app. auto. }
    assert (D : forall i, In i (leaves e2) -> ~ In i (leaves e1)).
    { intros i H2 H1'. clear - ND H2 H1'. induction (leaves e1) as [|x l IH]; [destruct H1'|]. cbn [app] in ND. inversion ND as [|? ? NI ND']; subst.
      destruct H1' as [->|H1']; [apply NI, in_or_app; auto|apply IH; assumption]. }
    destruct (IH2 h1 H1) as (h2 & r2 & a2 & E2 & R2 & A2 & H2 & S2 & K2 & L2).
    { apply (NoDup_parts ND). }
    { intros i Hi. rewrite K1 by (apply D, Hi). apply HI, in_or_app. auto. }
    assert (NE : r1 <> r2). { intros ->. apply (D _ R2 R1). }
    assert (A1' : nth_error h2 r1 = Some a1). { rewrite K2; [exact A1|]. intros K. apply (D _ K R1). }
    destruct (@add_spec h2 r1 r2 a1 a2 NE A1' A2 (H2 _ _ A1') (H2 _ _ A2)) as (h3 & a3 & E3 & A3 & O3 & S3 & K3).
    exists h3, r1, a3. rewrite E1. cbn [bind]. rewrite E2. cbn [bind]. split; [exact E3|]. split; [apply in_or_app; auto|]. split; [exact A3|]. split.
    { intros k a Hk. destruct (Nat.eq_dec k r1) as [->|Nk]; [rewrite A3 in Hk; injection Hk as <-; exact O3|]. rewrite K3 in Hk by exact Nk. apply (H2 _ _ Hk). }
    split; [rewrite S3, S1, S2, map_app, concat_app; f_equal; f_equal; apply map_ext_in; intros k Hk; rewrite K1 by (apply D, Hk); reflexivity|].
    split.
    { intros k Hk. rewrite K3; [rewrite K2, K1; [reflexivity| |]; intros X; apply Hk, in_or_app; auto|]. intros ->. apply Hk, in_or_app. auto. }
    unfold add in E3. rewrite (at_Ok A1'), (at_Ok A2) in E3. cbn [bind] in E3. destruct (Nat.eqb r1 r2 && _)%bool; [discriminate|]. injection E3 as <-. rewrite length_upd. lia.
Qed.
Lemma sum_spec l : forall h, heap_ok h -> NoDup l -> l <> [] -> (forall i, In i l -> exists a, nth_error h i = Some a) ->
  exists h' a', py_sum h l = Ok (h', hd_error l) /\ (forall r, hd_error l = Some r -> nth_error h' r = Some a') /\
    snapshots a' = concat (map (fun i => match nth_error h i with Some a => snapshots a | None => [] end) l) /\
    (forall k, hd_error l <> Some k -> nth_error h' k = nth_error h k).
Proof.
  intros h HH ND NE HI. destruct l as [|i l]; [congruence|]. cbn [py_sum hd_error]. destruct (HI i (or_introl eq_refl)) as [a Ha]. rewrite (at_Ok Ha). cbn [bind map concat].
  rewrite Ha. inversion ND as [|? ? NI ND']; subst. clear ND NE.
  assert (G : forall l h a, heap_ok h -> ~ In i l -> nth_error h i = Some a -> (forall j, In j l -> exists b, nth_error h j = Some b) ->
    exists h' a', foldM (fun st j => add (fst st) (snd st) j) l (h, i) = Ok (h', i) /\ nth_error h' i = Some a' /\
      snapshots a' = snapshots a ++ concat (map (fun k => match nth_error h k with Some b => snapshots b | None => [] end) l) /\ (forall k, k <> i -> nth_error h' k = nth_error h k)).
  { clear. induction l as [|j l IH]; intros h a HH NI Ha HI.
    - exists h, a. cbn. rewrite app_nil_r. auto.
    - destruct (HI j (or_introl eq_refl)) as [b Hb]. assert (NJ : i <> j) by (intros ->; apply NI; left; reflexivity).
      destruct (@add_spec h i j a b NJ Ha Hb (HH _ _ Ha) (HH _ _ Hb)) as (h1 & a1 & E1 & A1 & O1 & S1 & K1). cbn [foldM fst snd]. rewrite E1. cbn [bind].
      destruct (IH h1 a1) as (h' & a' & E & A & S & K).
      + intros k c Hk. destruct (Nat.eq_dec k i) as [->|Nk]; [rewrite A1 in Hk; injection Hk as <-; exact O1|]. rewrite K1 in Hk by exact Nk. apply (HH _ _ Hk).
      + intros X. apply NI. right. exact X.
      + exact A1.
      + intros k Hk. rewrite K1; [apply HI; right; exact Hk|]. intros ->. apply NI. right. exact Hk.
      + exists h', a'. split; [exact E|]. split; [exact A|]. split.
        * rewrite S, S1, <- app_assoc. f_equal. cbn [map concat]. rewrite Hb. f_equal. f_equal. apply map_ext_in. intros k Hk. rewrite K1; [reflexivity|]. intros ->. apply NI. right. exact Hk.
        * intros k Hk. rewrite K, K1 by exact Hk. reflexivity. }
  destruct (G l h a HH NI Ha) as (h' & a' & E & A & S & K); [intros j Hj; apply HI; right; exact Hj|].
  exists h', a'. rewrite E. cbn [bind]. split; [reflexivity|]. split; [intros r Hr; injection Hr as <-; exact A|]. split; [exact S|]. intros k Hk. apply K. congruence.
Qed.

(** ** Histories *)
Lemma py_put_inv {A} (l : list A) i x l' : py_put l i x = Ok l' ->
  0 <= position (Z.of_nat (List.length l)) i < Z.of_nat (List.length l) /\ List.length l' = List.length l /\
  forall k, nth_error l' k = if Nat.eqb k (Z.to_nat (position (Z.of_nat (List.length l)) i)) then Some x else nth_error l k.
Proof.
  unfold py_put, position. set (n := Z.of_nat (List.length l)). replace (if i <? 0 then n + i else i) with (if i <? 0 then i + n else i) by (destruct (i <? 0); lia).
  set (j := if i <? 0 then i + n else i). destruct (Z.ltb_spec j 0) as [|L]; [discriminate|]. cbn [orb]. destruct (Z.leb_spec n j) as [|L']; [discriminate|].
  intros H. injection H as <-. split; [lia|]. split; [apply length_upd|]. intros k. rewrite nth_error_upd. destruct (Nat.eqb_spec k (Z.to_nat j)) as [->|]; [|reflexivity].
  destruct (nth_error l (Z.to_nat j)) as [y|] eqn:E; [reflexivity|]. apply nth_error_None in E. lia.
Qed.
Lemma step_spec content t o t' : of_file content t -> step T t o = Ok t' ->
  of_file content t' /\ t_nblocks t' = t_nblocks t /\ t_blocksize t' = t_blocksize t /\ t_natoms t' = t_natoms t /\
  forall i, 0 <= i < t_nblocks t -> nth_error (t_load t') (Z.to_nat i) =
    Some (is_loaded (t_nblocks t) i [o] (match nth_error (t_load t) (Z.to_nat i) with Some b => b | None => false end)).
Proof.
  intros (F1 & F2 & F3 & F4 & F5 & F6) H.
  assert (NN : 0 <= t_nblocks t) by (rewrite F4; apply Z.div_pos; lia).
  assert (Keep : forall d l, List.length d = List.length (t_data t) -> List.length l = List.length (t_load t) -> of_file content (set_data t d l)).
  { intros d l Ld Ll. unfold of_file, set_data. cbn. rewrite Ld, Ll. auto 10. }
  assert (Own : forall i, 0 <= i < t_nblocks t -> exists b, nth_error (t_load t) (Z.to_nat i) = Some b).
  { intros i Hi. destruct (nth_error (t_load t) (Z.to_nat i)) as [b|] eqn:E; [exists b; reflexivity|]. apply nth_error_None in E. lia. }
  assert (Put : forall (t1 : traj N) j b l', t_nblocks t1 = t_nblocks t -> List.length (t_load t1) = Z.to_nat (t_nblocks t) -> py_put (t_load t1) j b = Ok l' ->
     List.length l' = List.length (t_load t1) /\
     forall i, 0 <= i < t_nblocks t -> nth_error l' (Z.to_nat i) = if position (t_nblocks t) j =? i then Some b else nth_error (t_load t1) (Z.to_nat i)).
  { intros t1 j b l' _ LL P. destruct (py_put_inv P) as (P1 & P2 & P3). rewrite LL, Z2Nat.id in P1, P3 by exact NN. split; [exact P2|]. intros i Hi. rewrite P3.
    destruct (Z.eqb_spec (position (t_nblocks t) j) i) as [<-|NE]; [rewrite Nat.eqb_refl; reflexivity|].
    destruct (Nat.eqb_spec (Z.to_nat i) (Z.to_nat (position (t_nblocks t) j))); [lia|reflexivity]. }
  assert (Load : forall j b, load T t j = Ok b -> of_file content b /\ t_nblocks b = t_nblocks t /\ t_blocksize b = t_blocksize t /\ t_natoms b = t_natoms t /\
     forall i, 0 <= i < t_nblocks t -> nth_error (t_load b) (Z.to_nat i) = if position (t_nblocks t) j =? i then Some true else nth_error (t_load t) (Z.to_nat i)).
  { intros j b H'. unfold load in H'. apply bind_Ok in H'. destruct H' as (ls & _ & H'). apply bind_Ok in H'. destruct H' as (bl & _ & H').
    apply bind_Ok in H'. destruct H' as (d & Hd & H'). apply bind_Ok in H'. destruct H' as (l & Hl & H'). injection H' as <-.
    destruct (py_put_inv Hd) as (_ & Ld & _). destruct (Put t j true l eq_refl F5 Hl) as (Ll & Pl). split; [apply Keep; assumption|]. repeat (split; [reflexivity|]). exact Pl. }
  assert (Unload : forall t1 j b, of_file content t1 -> t_nblocks t1 = t_nblocks t -> t_blocksize t1 = t_blocksize t -> t_natoms t1 = t_natoms t -> unload t1 j = Ok b ->
     of_file content b /\ t_nblocks b = t_nblocks t /\ t_blocksize b = t_blocksize t /\ t_natoms b = t_natoms t /\
     forall i, 0 <= i < t_nblocks t -> nth_error (t_load b) (Z.to_nat i) = if position (t_nblocks t) j =? i then Some false else nth_error (t_load t1) (Z.to_nat i)).
  { intros t1 j b (G1 & G2 & G3 & G4 & G5 & G6) E1 E2 E3 H'. unfold unload in H'. 
    apply bind_Ok in H'. destruct H' as (d & Hd & H'). apply bind_Ok in H'. destruct H' as (l & Hl & H'). injection H' as <-.
    destruct (py_put_inv Hd) as (_ & Ld & _). rewrite E1 in G5. destruct (Put t1 j false l E1 G5 Hl) as (Ll & Pl).
    split; [unfold of_file, set_data; cbn; rewrite Ld, Ll, G5, <- E1; auto 10|]. cbn. repeat (split; [assumption|]). exact Pl. }
  destruct o as [j|j|j b|j]; cbn [step is_loaded] in *.
  - destruct (Load _ _ H) as (L1 & L2 & L3 & L4 & L5). repeat (split; [assumption|]). intros i Hi. rewrite L5 by exact Hi. destruct (Own i Hi) as [b ->]. destruct (_ =? i); reflexivity.
  - destruct (Unload t j t') as (L1 & L2 & L3 & L4 & L5); auto. { repeat (split; [assumption|]). assumption. }
    repeat (split; [assumption|]). intros i Hi. rewrite L5 by exact Hi. destruct (Own i Hi) as [b ->]. destruct (_ =? i); reflexivity.
  - unfold edit in H. apply bind_Ok in H. destruct H as (d & Hd & H). injection H as <-. destruct (py_put_inv Hd) as (_ & Ld & _).
    split; [apply Keep; [exact Ld|reflexivity]|]. repeat (split; [reflexivity|]). intros i Hi. cbn [set_data t_load]. destruct (Own i Hi) as [x ->]. reflexivity.
  - apply bind_Ok in H. destruct H as ([t2 o] & H & H'). injection H' as <-. cbn [fst]. unfold to_dict1 in H. apply bind_Ok in H. destruct H as (t1 & H1 & H).
    apply bind_Ok in H. destruct H as (o' & _ & H). apply bind_Ok in H. destruct H as (t3 & H3 & H). injection H as E _. subst t3.
    destruct (Load _ _ H1) as (L1 & L2 & L3 & L4 & L5). destruct (Unload t1 j t2 L1 L2 L3 L4 H3) as (M1 & M2 & M3 & M4 & M5). repeat (split; [assumption|]).
    intros i Hi. rewrite M5, L5 by exact Hi. destruct (Own i Hi) as [b ->]. destruct (_ =? i); reflexivity.
Qed.
Lemma is_loaded_cons n i (o : op N) l now : is_loaded n i (o :: l) now = is_loaded n i l (is_loaded n i [o] now).
Proof. destruct o; reflexivity. Qed.
Lemma run_spec content : forall l t t', of_file content t -> run T t l = Ok t' ->
  of_file content t' /\ t_nblocks t' = t_nblocks t /\ t_blocksize t' = t_blocksize t /\ t_natoms t' = t_natoms t /\
  forall i, 0 <= i < t_nblocks t -> nth_error (t_load t') (Z.to_nat i) =
    Some (is_loaded (t_nblocks t) i l (match nth_error (t_load t) (Z.to_nat i) with Some b => b | None => false end)).
Proof.
  induction l as [|o l IH]; intros t t' F H; unfold run in H; cbn [foldM] in H.
  - injection H as <-. split; [exact F|]. repeat (split; [reflexivity|]). intros i Hi. cbn [is_loaded].
    destruct (nth_error (t_load t) (Z.to_nat i)) as [b|] eqn:E; [reflexivity|]. apply nth_error_None in E. destruct F as (_ & _ & _ & _ & F5 & _). lia.
  - apply bind_Ok in H. destruct H as (t1 & H1 & H). destruct (step_spec F H1) as (S1 & S2 & S3 & S4 & S5). destruct (IH t1 t' S1 H) as (R1 & R2 & R3 & R4 & R5).
    rewrite S2 in R2, R5. rewrite S3 in R3. rewrite S4 in R4. repeat (split; [assumption|]). intros i Hi. rewrite R5, S5 by exact Hi. f_equal. symmetry. apply is_loaded_cons.
Qed.
Lemma unloaded_lines content t i : of_file content t -> 0 <= i < t_nblocks t -> nth_error (t_load t) (Z.to_nat i) = Some false ->
  block_lines repr t i = Ok (snapshot (Z.to_nat (t_blocksize t)) (Z.to_nat i) (lines content)).
Proof.
  intros F Hi H. unfold block_lines. assert (G : py_get (t_load t) i = Ok false).
  { rewrite <- (Z2Nat.id i) by lia. apply py_get_nat, H. }
  rewrite G. cbn [bind]. apply get_block_in; assumption.
Qed.
Lemma mapM_Ok {A B} (f : A -> res B) (g : A -> B) l : (forall x, In x l -> f x = Ok (g x)) -> mapM f l = Ok (map g l).
Proof. induction l as [|x l IH]; intros H; [reflexivity|]. cbn. rewrite H by (left; reflexivity). rewrite IH by (intros y Hy; apply H; right; exact Hy). reflexivity. Qed.

(** ** Iterating *)
Lemma range_1 n : py_range 0 n 1 = map Z.of_nat (seq 0 (Z.to_nat n)).
Proof.
  unfold py_range, range_len. cbn [Z.ltb Z.compare]. replace ((n - 0 + 1 - 1) / 1) with n by (rewrite Z.div_1_r; lia). apply map_ext. intros k. lia.
Qed.
End T.
