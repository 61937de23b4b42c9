(** Proofs about common neighbour analysis: the loops over all atoms. *)
From Coq Require Import Lia Permutation.
From Verif Require Import Base Num Types M_Geometry M_Container M_Neighbors M_Steinhardt M_CNA
  S_Neighbors S_CNA P_Neighbors P_Temp P_Graph P_QRun P_Search P_History P_CNA.
Set Implicit Arguments.
Unset Strict Implicit.
#[local] Opaque abs_distance_ij.
#[local] Arguments max_nbrs : simpl never.

Lemma foldM_app {S X} (f : S -> X -> res S) l1 l2 : forall s, foldM f (l1 ++ l2) s = bind (foldM f l1 s) (foldM f l2).
Proof. induction l1; intros s; simpl; auto. destruct (f s a); simpl; auto. Qed.

Lemma foldM_blocked {S X} (f : S -> X -> res S) l x : In x l -> (forall s, f s x = Err UB) ->
  (forall s y e, f s y = Err e -> e = UB) -> forall s, foldM f l s = Err UB.
Proof.
  intros Hin Hx HU. induction l as [|y l IH]; intros s; [destruct Hin|]. cbn [foldM].
  destruct (f s y) as [s'|e] eqn:E; cbn [bind].
  - destruct Hin as [->|Hin]; [rewrite Hx in E; discriminate|auto].
  - f_equal. eapply HU, E.
Qed.

(** ** Counting structures *)
Definition occurrences (v : Z) (es : list Z) : Z := Z.of_nat (length (filter (Z.eqb v) es)).
Definition bump (r : list Z) (v : Z) : res (list Z) := c <- zget r v ;; zput r v (c + 1)%Z.

Lemma bump_Ok r v r' : bump r v = Ok r' ->
  (0 <= v < Z.of_nat (length r))%Z /\ r' = upd (Z.to_nat v) (fun z => z + 1)%Z r.
Proof.
  unfold bump. destruct (zget r v) as [c|] eqn:E; cbn [bind]; [|discriminate].
  apply zget_inv in E as [Hv E]. assert (Hlt : Z.to_nat v < length r) by (apply nth_error_Some; congruence).
  rewrite zput_Ok by lia. intros [= <-]. split; [lia|]. now apply (upd_ext E).
Qed.
Lemma bump_total r v : (0 <= v < Z.of_nat (length r))%Z -> bump r v = Ok (upd (Z.to_nat v) (fun z => z + 1)%Z r).
Proof.
  intros Hv. unfold bump. assert (Hlt : Z.to_nat v < length r) by lia.
  destruct (nth_error_some Hlt) as [c Ec]. rewrite (zget_Ok (a := c)) by (auto; lia). cbn [bind].
  rewrite zput_Ok by lia. f_equal. now apply (upd_ext Ec).
Qed.
Lemma zsum_upd r k : k < length r -> zsum (upd k (fun z => z + 1)%Z r) = (zsum r + 1)%Z.
Proof. revert k; induction r; intros [|k] H; simpl in *; try lia. rewrite IHr; lia. Qed.

Lemma bumps es : forall r0 r, foldM bump es r0 = Ok r ->
  length r = length r0 /\ Forall (fun v => 0 <= v < Z.of_nat (length r0))%Z es /\
  zsum r = (zsum r0 + Z.of_nat (length es))%Z /\
  forall k, nth_error r k = option_map (fun z => z + occurrences (Z.of_nat k) es)%Z (nth_error r0 k).
Proof.
  induction es as [|v es IH]; intros r0 r; cbn [foldM].
  - intros [= <-]. split; auto. split; auto. split; [simpl; lia|]. intros k. destruct (nth_error r0 k); simpl; auto.
    unfold occurrences. simpl. now rewrite Z.add_0_r.
  - destruct (bump r0 v) as [r1|] eqn:E; cbn [bind]; [|discriminate]. intros H.
    apply bump_Ok in E as [Hv ->]. apply IH in H as (HL & HF & HS & H). rewrite length_upd in HL, HF.
    split; auto. split; auto. rewrite zsum_upd in HS by lia. split; [simpl length; lia|].
    intros k. rewrite H, nth_error_upd. unfold occurrences. cbn [filter].
    destruct (Nat.eqb_spec k (Z.to_nat v)) as [->|Hk].
    + rewrite Z2Nat.id, Z.eqb_refl by lia. destruct (nth_error r0 _); simpl; auto. f_equal. lia.
    + destruct (Z.eqb_spec (Z.of_nat k) v); [lia|]. reflexivity.
Qed.
Lemma bumps_total es : forall r0, Forall (fun v => 0 <= v < Z.of_nat (length r0))%Z es -> exists r, foldM bump es r0 = Ok r.
Proof.
  induction es as [|v es IH]; intros r0 H; cbn [foldM]; [eauto|]. inversion H as [|? ? Hv H']; subst.
  rewrite bump_total by auto. cbn [bind]. apply IH. now rewrite length_upd.
Qed.
Lemma zsum_repeat n : zsum (repeat 0%Z n) = 0%Z.
Proof. induction n; simpl; auto. Qed.

Section R.
Variable N : num.
Implicit Types s t : sys N.

Lemma tally_map n t : Z.to_nat (s_real t) <= length (s_atoms t) ->
  tally n t = foldM bump (map (@a_struct N) (firstn (Z.to_nat (s_real t)) (s_atoms t))) (repeat 0%Z n).
Proof.
  intros Hm. unfold tally. generalize (repeat 0%Z n). revert Hm. generalize (Z.to_nat (s_real t)) as m.
  generalize (s_atoms t) as l. intros l m Hm r.
  assert (E : forall pre l, foldM (fun r ti => a <- get (pre ++ l) ti ;; c <- zget r (a_struct a) ;; zput r (a_struct a) (c + 1)%Z)
     (seq (length pre) (length l)) r = foldM bump (map (@a_struct N) l) r).
  { clear. intros pre l. revert pre r. induction l as [|a l IH]; intros pre r; cbn [length seq map foldM]; auto.
    unfold get at 1. rewrite nth_error_app2, Nat.sub_diag by lia. cbn [nth_error bind]. fold (bump r (a_struct a)).
    destruct (bump r (a_struct a)); cbn [bind]; auto. specialize (IH (pre ++ [a]) a0).
    rewrite <- app_assoc in IH. rewrite app_length in IH. simpl in IH. now rewrite Nat.add_1_r in IH. }
  specialize (E [] (firstn m l)). rewrite <- E. simpl length. rewrite firstn_length_le by lia.
  apply foldM_eq. intros r' i Hi. apply in_seq in Hi. simpl. unfold get.
  rewrite <- (firstn_skipn m l) at 1. rewrite nth_error_app1 by (rewrite firstn_length; lia). reflexivity.
Qed.

Lemma tally_inv n t r : tally n t = Ok r -> Z.to_nat (s_real t) <= length (s_atoms t).
Proof.
  intros H. destruct (Nat.le_gt_cases (Z.to_nat (s_real t)) (length (s_atoms t))) as [|Hgt]; auto. exfalso.
  unfold tally in H. rewrite (@foldM_blocked _ _ _ _ (length (s_atoms t))) in H; [discriminate| | |].
  - apply in_seq. lia.
  - intros r'. unfold get. assert (nth_error (s_atoms t) (length (s_atoms t)) = None) as -> by (apply nth_error_None; lia).
    reflexivity.
  - intros r' y e. unfold get. destruct (nth_error _ _); cbn [bind]; [|congruence].
    unfold zget, zput, get, put. destruct (_ <? 0)%Z; [cbn; congruence|]. destruct (nth_error _ _); cbn [bind]; [|congruence].
    destruct (_ <? _); congruence.
Qed.

Lemma filter_map_comm {A B} (f : B -> bool) (g : A -> B) m : filter f (map g m) = map g (filter (fun a => f (g a)) m).
Proof. induction m; simpl; auto. destruct (f (g a)); simpl; now rewrite IHm. Qed.
Lemma tally_spec n t r : tally n t = Ok r -> counted_structs n t r.
Proof.
  intros H. pose proof (tally_inv H) as Hm. rewrite tally_map in H by auto. apply bumps in H as (HL & HF & HS & H).
  rewrite repeat_length in *. unfold counted_structs, real_atoms. split; auto. split; [|split].
  - intros v Hv. rewrite H, nth_repeat_Some by lia. cbn [option_map]. f_equal. unfold occurrences.
    rewrite Z2Nat.id by lia. rewrite filter_map_comm, map_length. lia.
  - rewrite HS, zsum_repeat, map_length. rewrite firstn_length_le by auto. lia.
  - now apply Forall_map in HF.
Qed.
Lemma tally_total n t : Z.to_nat (s_real t) <= length (s_atoms t) ->
  (forall a, In a (s_atoms t) -> 0 <= a_struct a < Z.of_nat n)%Z -> exists r, tally n t = Ok r.
Proof.
  intros Hm H. rewrite tally_map by auto. apply bumps_total. rewrite repeat_length. apply Forall_map, Forall_forall.
  intros a Ha. apply H. eapply firstn_In; eauto.
Qed.

(** ** Loops over the stored atoms *)
Lemma loop_or_UB (f : list (atom N) -> nat -> res (list (atom N))) (G : atom N -> atom N) (good : nat -> bool) (l0 : list (atom N)) n :
  (forall k, k < n -> f (map_first k G l0) k = if good k then Ok (upd k G (map_first k G l0)) else Err UB) ->
  n <= length l0 ->
  foldM f (seq 0 n) l0 = if forallb good (seq 0 n) then Ok (map_first n G l0) else Err UB.
Proof.
  intros H Hn. destruct (forallb good (seq 0 n)) eqn:E.
  - apply loop_map_first; auto. intros k Hk. rewrite H by auto. rewrite forallb_forall in E.
    rewrite E; auto. apply in_seq. lia.
  - assert (Hex : exists k, k < n /\ good k = false /\ forallb good (seq 0 k) = true).
    { clear H Hn. induction n as [|n IH]; [discriminate|]. rewrite seq_S, forallb_app in E. cbn [forallb] in E.
      destruct (forallb good (seq 0 n)) eqn:E'; [exists n; simpl in E; rewrite andb_true_r in E; auto|].
      destruct IH as (k & ? & ? & ?); auto. exists k. auto. }
    destruct Hex as (k & Hk & Hg & Hp).
    replace n with (k + S (n - S k)) by lia. rewrite seq_app, foldM_app.
    rewrite (loop_map_first (G := G)); [|intros j Hj; rewrite H by lia; rewrite forallb_forall in Hp; rewrite Hp; auto; apply in_seq; lia|lia].
    cbn [bind seq foldM plus]. rewrite H by lia. now rewrite Hg.
Qed.

Lemma pos_map_first k (G : atom N -> atom N) l : (forall a, a_pos (G a) = a_pos a) ->
  map (@a_pos N) (map_first k G l) = map (@a_pos N) l.
Proof. intros H. now apply map_map_first. Qed.

(** Systems with the same box and positions. *)
Notation geo := (@same_geometry N).
Lemma ce_f {A} (f : sys N -> A) s t : cell s = cell t ->
  (forall s, f s = f (mkSys [] (s_nop s) (s_real s) 0%Z (s_box s) (s_len s) (s_tri s) (s_rot s) (s_rotinv s)
     None n0 0%Z false false 0%Z false false)) -> f s = f t.
Proof.
  intros H Hf. unfold cell in H. rewrite (Hf s), (Hf t).
  apply pair_equal_spec in H as [H H7]. apply pair_equal_spec in H as [H H6]. apply pair_equal_spec in H as [H H5].
  apply pair_equal_spec in H as [H H4]. apply pair_equal_spec in H as [H H3]. apply pair_equal_spec in H as [H1 H2].
  now rewrite H1, H2, H3, H4, H5, H6, H7.
Qed.
Lemma ce_ij s t p q : cell s = cell t -> abs_distance_ij s p q = abs_distance_ij t p q.
Proof. intros H. apply (ce_f (f := fun s => abs_distance_ij s p q) H). reflexivity. Qed.
Lemma ce_nop s t : cell s = cell t -> s_nop s = s_nop t.
Proof. intros H. apply (ce_f H). reflexivity. Qed.
Lemma ce_real s t : cell s = cell t -> s_real s = s_real t.
Proof. intros H. apply (ce_f H). reflexivity. Qed.
Lemma ce_len s t : cell s = cell t -> s_len s = s_len t.
Proof. intros H. apply (ce_f H). reflexivity. Qed.
Lemma ce_guess s t x : cell s = cell t -> guess_distance s x = guess_distance t x.
Proof. intros H. apply (ce_f (f := fun s => guess_distance s x) H). reflexivity. Qed.
Lemma geo_refl s : geo s s. Proof. split; auto. Qed.
Lemma geo_trans s t u : geo s t -> geo t u -> geo s u.
Proof. intros [A B] [C D]. split; congruence. Qed.
Lemma geo_length s t : geo s t -> length (s_atoms t) = length (s_atoms s).
Proof. intros [_ H]. apply (f_equal (@length _)) in H. now rewrite !map_length in H. Qed.
Lemma geo_stored s t : geo s t -> stored s -> stored t.
Proof. intros H Hs. unfold stored. rewrite (geo_length H), <- Hs. symmetry. apply ce_nop. apply H. Qed.
Lemma geo_atoms s l : map (@a_pos N) l = map (@a_pos N) (s_atoms s) -> geo s (s <| s_atoms := l |>).
Proof. intros H. split; auto. Qed.
Lemma dist_at_pos s s' l l' m n : cell s = cell s' -> map (@a_pos N) l = map (@a_pos N) l' ->
  dist_at s l m n = dist_at s' l' m n.
Proof.
  intros HS HP. unfold dist_at, get.
  assert (Q : forall k, option_map (@a_pos N) (nth_error l k) = option_map (@a_pos N) (nth_error l' k)).
  { intros k. now rewrite <- !nth_error_map, HP. }
  pose proof (Q m) as Qm. pose proof (Q n) as Qn.
  destruct (nth_error l m), (nth_error l' m); simpl in Qm; try discriminate; cbn [bind]; auto.
  destruct (nth_error l n), (nth_error l' n); simpl in Qn; try discriminate; cbn [bind]; auto.
  apply Some_inj in Qm, Qn. now rewrite Qm, Qn, (ce_ij _ _ HS).
Qed.
Lemma geo_dist s t m n : geo s t -> dist_at s (s_atoms s) m n = dist_at t (s_atoms t) m n.
Proof. intros [A B]. now apply dist_at_pos. Qed.

Definition sget s (c : N) (ns : list nat) : list sig :=
  match signatures s (s_atoms s) c ns with Ok cs => cs | Err _ => [] end.
Lemma sget_geo s t c ns : geo s t -> sget s c ns = sget t c ns.
Proof. intros H. unfold sget. rewrite (@signatures_eq N s (s_atoms s) t (s_atoms t)); auto. intros. now apply geo_dist. Qed.

Definition nbrs_in t : Prop := forall a, In a (s_atoms t) -> forall n, In n (nbr_idx a) -> n < length (s_atoms t).
Definition temps_in t : Prop := forall a, In a (s_atoms t) -> forall d, In d (a_temp a) -> d_idx d < length (s_atoms t).

Definition relabel (label : list sig -> Z) t (a : atom N) : atom N :=
  if Z.eqb (a_struct a) 0 then a <| a_struct := label (sget t (a_cutoff a) (nbr_idx a)) |> else a.
Lemma relabel_pos label t a : a_pos (relabel label t a) = a_pos a.
Proof. unfold relabel. now destruct (_ =? _)%Z. Qed.
Lemma map_first_at {A} (G : A -> A) l k : nth_error (map_first k G l) k = nth_error l k.
Proof.
  unfold map_first. destruct (Nat.le_gt_cases k (length l)) as [H|H].
  - rewrite nth_error_app2, map_length, firstn_length_le, Nat.sub_diag by (rewrite ?map_length, ?firstn_length; lia).
    destruct (nth_error l k) eqn:E; [now rewrite (skipn_nth E)|]. apply nth_error_None in E.
    now rewrite skipn_all2.
  - assert (nth_error l k = None) as -> by (apply nth_error_None; lia).
    apply nth_error_None. rewrite app_length, map_length, firstn_length, skipn_length. lia.
Qed.

Lemma identify_run label t : stored t -> nbrs_in t ->
  identify label t = Ok (t <| s_atoms := map (relabel label t) (s_atoms t) |>).
Proof.
  intros Hst Hn. unfold identify.
  assert (En : Z.to_nat (s_nop t) = length (s_atoms t)) by (rewrite Hst; apply Nat2Z.id). rewrite En.
  rewrite (loop_map_first (G := relabel label t)); auto; [cbn [bind]; now rewrite map_first_all|].
  intros k Hk. set (l := map_first k _ _). destruct (nth_error_some Hk) as [a Ea].
  assert (El : nth_error l k = Some a) by (unfold l; now rewrite map_first_at).
  unfold identify_atom. rewrite (get_Ok El). cbn [bind].
  destruct (Z.eqb (a_struct a) 0) eqn:E0.
  - rewrite (@signatures_eq N t l t (s_atoms t)) by (intros; apply dist_at_pos; auto; apply pos_map_first, relabel_pos).
    destruct (@signatures_total N t (s_atoms t) (a_cutoff a) (nbr_idx a)) as (cs & Es & _);
      [apply Hn; eapply nth_error_In; eauto|].
    rewrite Es. cbn [bind]. f_equal. apply (upd_ext El). unfold relabel, sget. now rewrite E0, Es.
  - f_equal. symmetry. apply (upd_id El). unfold relabel. now rewrite E0.
Qed.

(** ** Taking neighbours from the candidate lists *)
Lemma arrows_idx s l a js : (forall j, In j js -> j < length l) -> map (@nb_idx N) (arrows s l a js) = js.
Proof.
  induction js as [|j js IH]; intros H; auto. unfold arrows. cbn [flat_map]. fold (arrows s l a js).
  unfold arrow. destruct (nth_error l j) eqn:E; [|apply nth_error_None in E; specialize (H j (or_introl eq_refl)); lia].
  destruct (abs_distance_ij _ _ _). simpl. rewrite IH; auto. intros; apply H; now right.
Qed.
Lemma arrows_pos s l l' a a' js : map (@a_pos N) l = map (@a_pos N) l' -> a_pos a = a_pos a' ->
  arrows s l a js = arrows s l' a' js.
Proof.
  intros HP Hp. apply flat_map_ext_in. intros j _. unfold arrow.
  assert (Q : option_map (@a_pos N) (nth_error l j) = option_map (@a_pos N) (nth_error l' j)) by now rewrite <- !nth_error_map, HP.
  destruct (nth_error l j), (nth_error l' j); simpl in Q; try discriminate; auto. apply Some_inj in Q. now rewrite Hp, Q.
Qed.

Lemma process_UB s l i j e : process_neighbor s l i j = Err e -> e = UB.
Proof.
  unfold process_neighbor, push_nbr, get. destruct (nth_error l i) eqn:E; cbn [bind]; [|congruence].
  destruct (nth_error l j); cbn [bind]; [|congruence]. destruct (abs_distance_ij _ _ _). unfold get; rewrite ?E. cbn [bind].
  destruct (_ <? _); congruence.
Qed.

Lemma firstn_seq_map (tm : list (datom N)) k : k <= length tm -> forall F (s : list (atom N)),
  foldM (fun (l : list (atom N)) i => t <- get tm i ;; F l (d_idx t)) (seq 0 k) s =
  foldM F (map (@d_idx N) (firstn k tm)) s.
Proof.
  intros Hk F. assert (E : forall pre tm (s : list (atom N)), foldM (fun (l : list (atom N)) i => t <- get (pre ++ tm) i ;; F l (d_idx t)) (seq (length pre) (length tm)) s
     = foldM F (map (@d_idx N) tm) s).
  { clear. intros pre tm. revert pre. induction tm as [|d tm IH]; intros pre s; cbn [length seq map foldM]; auto.
    unfold get at 1. rewrite nth_error_app2, Nat.sub_diag by lia. cbn [nth_error bind].
    destruct (F s (d_idx d)) as [s'|]; cbn [bind]; auto. specialize (IH (pre ++ [d]) s').
    rewrite <- app_assoc, app_length in IH. simpl in IH. now rewrite Nat.add_1_r in IH. }
  intros s. rewrite <- (E [] (firstn k tm) s). simpl length. rewrite firstn_length_le by auto.
  apply foldM_eq. intros x i Hi. apply in_seq in Hi. simpl. unfold get.
  rewrite <- (firstn_skipn k tm) at 1. rewrite nth_error_app1 by (rewrite firstn_length; lia). reflexivity.
Qed.

Lemma take_temp_Ok s k l ti a : nth_error l ti = Some a -> a_nbrs a = [] -> k <= length (a_temp a) -> k <= 300 ->
  (forall d, In d (a_temp a) -> d_idx d < length l) ->
  take_temp s k l ti = Ok (upd ti (fun a0 => a0 <| a_nbrs := arrows s l a (map (@d_idx N) (firstn k (a_temp a))) |>) l).
Proof.
  intros Ha Hn Hk H300 Hr. unfold take_temp. rewrite (get_Ok Ha). cbn [bind].
  rewrite (firstn_seq_map Hk (fun l j => process_neighbor s l ti j)).
  rewrite (fold_process s Ha); [|rewrite Hn; unfold max_nbrs; simpl; lia|].
  - rewrite Hn, map_length, firstn_length_le by auto. simpl length. rewrite Nat.add_0_l.
    assert (k <=? max_nbrs = true) as -> by (apply Nat.leb_le; exact H300). reflexivity.
  - intros j Hj. apply in_map_iff in Hj as (d & <- & Hd). apply Hr. eapply firstn_In; eauto.
Qed.
Lemma take_temp_UB s k l ti a : nth_error l ti = Some a -> length (a_temp a) < k -> take_temp s k l ti = Err UB.
Proof.
  intros Ha Hk. unfold take_temp. rewrite (get_Ok Ha). cbn [bind].
  apply (@foldM_blocked _ _ _ _ (length (a_temp a))).
  - apply in_seq. lia.
  - intros x. unfold get. assert (nth_error (a_temp a) (length (a_temp a)) = None) as -> by (apply nth_error_None; lia). reflexivity.
  - intros x i e. unfold get at 1. destruct (nth_error (a_temp a) i); cbn [bind]; [|congruence]. apply process_UB.
Qed.

Definition with_nbrs_cut t k (c : N) (a : atom N) : atom N :=
  a <| a_cutoff := c |> <| a_nbrs := arrows t (s_atoms t) a (map (@d_idx N) (firstn k (a_temp a))) |>.
Definition shell_size (b : bool) : nat := if b then 14 else 12.
Definition acna_new t (b : bool) (a : atom N) : atom N :=
  if (shell_size b - 1 <? length (a_temp a)) then
    with_nbrs_cut t (shell_size b) (acna_cutoff b (map (@d_dist N) (a_temp a))) a
  else a.
Definition cna_new t (lat : N) (b : bool) (a : atom N) : atom N :=
  with_nbrs_cut t (shell_size b) ((if b then nlit 1207 1000 else nlit 854 1000) * lat)%num a.

Lemma cut_then_take t k c l ti a : map (@a_pos N) l = map (@a_pos N) (s_atoms t) ->
  nth_error l ti = Some a -> a_nbrs a = [] -> k <= length (a_temp a) -> k <= 300 ->
  (forall d, In d (a_temp a) -> d_idx d < length l) ->
  take_temp t k (set_cutoff l ti c) ti = Ok (upd ti (with_nbrs_cut t k c) l).
Proof.
  intros HP Ha Hn Hk H3 Hr.
  assert (Hl : nth_error (set_cutoff l ti c) ti = Some (a <| a_cutoff := c |>)).
  { unfold set_cutoff. now rewrite nth_error_upd, Nat.eqb_refl, Ha. }
  rewrite (take_temp_Ok t Hl Hn Hk H3); [|intros d Hd; unfold set_cutoff; rewrite length_upd; apply Hr, Hd].
  f_equal. unfold set_cutoff at 2. rewrite upd_upd. apply (upd_ext Ha). unfold with_nbrs_cut.
  rewrite (@arrows_pos t (set_cutoff l ti c) (s_atoms t) (a <| a_cutoff := c |>) a); [reflexivity| |reflexivity].
  unfold set_cutoff. rewrite map_upd_id; auto.
Qed.

Lemma reset_main_Ok t : stored t -> reset_main_neighbors t = Ok (t <| s_atoms := map (@reset_atom_main N) (s_atoms t) |>).
Proof. intros. now apply each_atom_stored. Qed.

Definition reset_t t := t <| s_atoms := map (@reset_atom_main N) (s_atoms t) |>.
Lemma reset_geo t : geo t (reset_t t).
Proof. apply geo_atoms. now rewrite map_map. Qed.

Lemma acna_run t b : stored t -> temps_in t ->
  get_acna_neighbors t b = Ok (t <| s_atoms := map (fun a => acna_new t b (reset_atom_main a)) (s_atoms t) |>).
Proof.
  intros Hst Hin. unfold get_acna_neighbors. rewrite (reset_main_Ok Hst). cbn [bind]. fold (reset_t t).
  assert (Hst' : stored (reset_t t)) by (apply (geo_stored (reset_geo t) Hst)).
  assert (En : Z.to_nat (s_nop (reset_t t)) = length (s_atoms (reset_t t))) by (rewrite Hst'; apply Nat2Z.id). rewrite En.
  set (l0 := s_atoms (reset_t t)).
  assert (Hl0 : map (@a_pos N) l0 = map (@a_pos N) (s_atoms t)) by (unfold l0, reset_t; simpl; now rewrite map_map).
  assert (Hnew : forall a, a_pos (acna_new (reset_t t) b a) = a_pos a) by (intros a; unfold acna_new; destruct (_ <? _); reflexivity).
  rewrite (loop_map_first (G := acna_new (reset_t t) b)); auto.
  - cbn [bind]. rewrite map_first_all.
    assert (E : forall a, acna_new (reset_t t) b a = acna_new t b a).
    { intros a. unfold acna_new, with_nbrs_cut. destruct (_ <? _); auto.
      rewrite (@arrows_pos (reset_t t) (s_atoms (reset_t t)) (s_atoms t) a a) by auto. reflexivity. }
    assert (EQ : map (acna_new (reset_t t) b) l0 = map (fun a => acna_new t b (reset_atom_main a)) (s_atoms t)).
    { change l0 with (map (@reset_atom_main N) (s_atoms t)). rewrite map_map. apply map_ext. auto. }
    rewrite EQ. reflexivity.
  - intros k Hk. set (l := map_first k _ _). destruct (nth_error_some Hk) as [a Ea].
    assert (El : nth_error l k = Some a) by (unfold l; now rewrite map_first_at).
    rewrite (get_Ok El). cbn [bind]. fold (shell_size b).
    assert (HPl : map (@a_pos N) l = map (@a_pos N) (s_atoms (reset_t t))) by (unfold l; now apply pos_map_first).
    destruct (shell_size b - 1 <? length (a_temp a)) eqn:Eb.
    + apply nth_error_In in Ea as Hina. unfold l0, reset_t in Hina. cbn in Hina. apply in_map_iff in Hina as (a0 & E0 & H0).
      assert (Hlen : length l = length (s_atoms t)).
      { apply (f_equal (@length _)) in HPl. rewrite !map_length in HPl. rewrite HPl. unfold reset_t. cbn. now rewrite map_length. }
      rewrite (@cut_then_take (reset_t t) (shell_size b) _ l k a HPl El).
      * f_equal. apply (upd_ext El). unfold acna_new. now rewrite Eb.
      * now rewrite <- E0.
      * apply Nat.ltb_lt in Eb. destruct b; simpl in *; lia.
      * destruct b; simpl; lia.
      * intros d Hd. rewrite Hlen. apply (Hin a0 H0). now rewrite <- E0 in Hd.
    + f_equal. symmetry. apply (upd_id El). unfold acna_new. now rewrite Eb.
Qed.

Lemma cna_run t lat b : stored t -> temps_in t ->
  get_cna_neighbors t lat b =
  if forallb (fun a => shell_size b <=? length (a_temp a)) (s_atoms t)
  then Ok (t <| s_atoms := map (fun a => cna_new t lat b (reset_atom_main a)) (s_atoms t) |>)
  else Err UB.
Proof.
  intros Hst Hin. unfold get_cna_neighbors. rewrite (reset_main_Ok Hst). cbn [bind]. fold (reset_t t).
  assert (Hst' : stored (reset_t t)) by (apply (geo_stored (reset_geo t) Hst)).
  assert (En : Z.to_nat (s_nop (reset_t t)) = length (s_atoms (reset_t t))) by (rewrite Hst'; apply Nat2Z.id). rewrite En.
  set (l0 := s_atoms (reset_t t)).
  set (good := fun k => match nth_error l0 k with Some a => shell_size b <=? length (a_temp a) | None => false end).
  assert (Hnew : forall a, a_pos (cna_new (reset_t t) lat b a) = a_pos a) by reflexivity.
  rewrite (@loop_or_UB _ (cna_new (reset_t t) lat b) good l0); auto.
  - assert (Eg : forallb good (seq 0 (length l0)) = forallb (fun a => shell_size b <=? length (a_temp a)) (s_atoms t)).
    { unfold good, l0, reset_t. cbn. rewrite map_length.
      assert (Q : forall pre l : list (atom N), forallb (fun k => match nth_error (pre ++ map (@reset_atom_main N) l) k with Some a => shell_size b <=? length (a_temp a) | None => false end)
         (seq (length pre) (length l)) = forallb (fun a => shell_size b <=? length (a_temp a)) l).
      { clear. intros pre l; revert pre; induction l as [|a l IH]; intros pre; cbn [length seq forallb map]; auto.
        rewrite nth_error_app2, Nat.sub_diag by lia. cbn [nth_error]. f_equal.
        specialize (IH (pre ++ [reset_atom_main a])). rewrite <- app_assoc, app_length in IH. simpl in IH. now rewrite Nat.add_1_r in IH. }
      apply (Q [] (s_atoms t)). }
    rewrite Eg. destruct (forallb _ (s_atoms t)); [|reflexivity].
    cbn [bind]. rewrite map_first_all.
    assert (E : forall a, cna_new (reset_t t) lat b a = cna_new t lat b a).
    { intros a. unfold cna_new, with_nbrs_cut.
      rewrite (@arrows_pos (reset_t t) (s_atoms (reset_t t)) (s_atoms t) a a); auto. unfold reset_t. cbn. now rewrite map_map. }
    assert (EQ : map (cna_new (reset_t t) lat b) l0 = map (fun a => cna_new t lat b (reset_atom_main a)) (s_atoms t)).
    { change l0 with (map (@reset_atom_main N) (s_atoms t)). rewrite map_map. apply map_ext. auto. }
    rewrite EQ. reflexivity.
  - intros k Hk. set (l := map_first k _ _). destruct (nth_error_some Hk) as [a Ea].
    assert (El : nth_error l k = Some a) by (unfold l; now rewrite map_first_at).
    rewrite (get_Ok El). cbn [bind]. fold (shell_size b).
    assert (HPl : map (@a_pos N) l = map (@a_pos N) (s_atoms (reset_t t))) by (unfold l; now apply pos_map_first).
    unfold good. rewrite Ea.
    apply nth_error_In in Ea as Hina. unfold l0, reset_t in Hina. cbn in Hina. apply in_map_iff in Hina as (a0 & E0 & H0).
    assert (Hlen : length l = length (s_atoms t)).
    { apply (f_equal (@length _)) in HPl. rewrite !map_length in HPl. rewrite HPl. unfold reset_t. cbn. now rewrite map_length. }
    destruct (shell_size b <=? length (a_temp a)) eqn:Eb.
    + rewrite (@cut_then_take (reset_t t) (shell_size b) _ l k a HPl El).
      * reflexivity.
      * now rewrite <- E0.
      * now apply Nat.leb_le in Eb.
      * destruct b; simpl; lia.
      * intros d Hd. rewrite Hlen. apply (Hin a0 H0). now rewrite <- E0 in Hd.
    + apply (@take_temp_UB _ _ _ _ (a <| a_cutoff := ((if b then nlit 1207 1000 else nlit 854 1000) * lat)%num |>)).
      * unfold set_cutoff. rewrite nth_error_upd, Nat.eqb_refl, El. reflexivity.
      * apply Nat.leb_gt in Eb. exact Eb.
Qed.

(** ** The candidate search *)
Variable srt : list (datom N) -> list (datom N).
Definition sort_atom (a : atom N) : atom N := a <| a_temp := srt (a_temp a) |>.

Lemma get_temp_exact s : stored s -> s_usecells s = false ->
  exists s2, get_temp_neighbors s = Ok s2 /\ s2 = s <| s_atoms := s_atoms s2 |> /\
    length (s_atoms s2) = length (s_atoms s) /\
    forall i a, nth_error (s_atoms s) i = Some a -> exists a2, nth_error (s_atoms s2) i = Some a2 /\
      statT a2 = statT a /\ a_temp a2 = a_temp a ++ cands nleb s (s_nd s) i.
Proof.
  intros Hst Hu. unfold get_temp_neighbors. rewrite Hu.
  assert (Hn : Z.to_nat (s_nop s) = length (s_atoms s)) by (rewrite Hst; apply Nat2Z.id).
  rewrite Hn.
  destruct (@fold_add_temp N nleb s (pairs (length (s_atoms s))) (s_atoms s)) as (l' & -> & HL & H).
  { intros p Hp. now apply pairs_ok. }
  cbn [bind]. eexists. split; [reflexivity|]. split; [reflexivity|]. split; [exact HL|].
  intros i a Ha. destruct (H i a Ha) as (a' & Ha' & S' & T'). exists a'. split; [exact Ha'|].
  split; auto. rewrite T', tevs_pairs; [reflexivity|]. apply nth_error_Some; congruence.
Qed.

(** The atoms up to the first one with too few candidates are sorted. *)
Lemma sorting_loop s k (l0 : list (atom N)) : forall is pre, is = seq (length pre) (length l0) ->
  exists j b, loop_atoms (bynumber_atom srt s k false) is (pre ++ l0) = Ok (pre ++ map_first j sort_atom l0, b) /\
    j <= length l0 /\ (forall i a, i < j -> nth_error l0 i = Some a -> size_lt (length (a_temp a)) k = false) /\
    (b = true /\ j = length l0 \/ b = false /\ exists a, nth_error l0 j = Some a /\ size_lt (length (a_temp a)) k = true).
Proof.
  induction l0 as [|a l0 IH]; intros is pre ->; cbn [length seq loop_atoms].
  - exists 0, true. unfold map_first. simpl. split; auto. split; auto. split; [intros; lia|auto].
  - assert (Ea : nth_error (pre ++ a :: l0) (length pre) = Some a) by (now rewrite nth_error_app2, Nat.sub_diag).
    unfold bynumber_atom at 1. rewrite (get_Ok Ea). cbn [bind].
    destruct (size_lt (length (a_temp a)) k) eqn:E.
    + exists 0, false. unfold map_first. cbn [bind firstn skipn map app]. split; auto. split; [lia|]. split; [intros; lia|].
      right. split; auto. exists a. auto.
    + assert (Es : nth_error (sort_temp srt (pre ++ a :: l0) (length pre)) (length pre) = Some (sort_atom a)).
      { unfold sort_temp. rewrite nth_error_upd, Nat.eqb_refl, Ea. reflexivity. }
      cbv zeta. rewrite (get_Ok Es). cbn [bind].
      assert (Eu : sort_temp srt (pre ++ a :: l0) (length pre) = (pre ++ [sort_atom a]) ++ l0).
      { unfold sort_temp. rewrite <- app_assoc. clear. induction pre; simpl; f_equal; auto. }
      rewrite Eu. destruct (IH (seq (length (pre ++ [sort_atom a])) (length l0)) (pre ++ [sort_atom a]) eq_refl)
        as (j & b & E2 & Hj & Hlt & Hend).
      replace (S (length pre)) with (length (pre ++ [sort_atom a])) by (rewrite app_length; simpl; lia).
      rewrite E2. exists (S j), b. unfold map_first in *. cbn [firstn map skipn app]. rewrite <- app_assoc. split; auto.
      split; [simpl; lia|]. split.
      * intros [|i] b0 Hi Hb0; simpl in Hb0; [apply Some_inj in Hb0; now subst|]. apply (Hlt i); auto. lia.
      * simpl. destruct Hend as [[-> ->]|[-> Hend]]; [left; auto|right; auto].
Qed.

(** ** calculate_cna *)
(** The candidates of atom [i], and those the analysis works on: sorted unless
    this or an earlier atom has fewer than 14. *)
Definition cna_cands s (i : nat) : list (datom N) := cands nleb s (guess_distance s (nofZ 3)) i.
Definition enough s (i : nat) : bool := forallb (fun j => 14 <=? length (cna_cands s j)) (seq 0 (S i)).
Definition cna_temp s (i : nat) : list (datom N) := if enough s i then srt (cna_cands s i) else cna_cands s i.

Definition shell_lab (s : sys N) (lc : option N) (b : bool) (T : list (datom N)) : Z :=
  let label := if b then label14 else label12 in
  let ns := map (@d_idx N) (firstn (shell_size b) T) in
  match lc with
  | Some c => label (sget s ((if b then nlit 1207 1000 else nlit 854 1000) * c)%num ns)
  | None => if (shell_size b - 1 <? length T) then label (sget s (acna_cutoff b (map (@d_dist N) T)) ns) else 0%Z
  end.
Definition cna_label (s : sys N) (lc : option N) (T : list (datom N)) : Z :=
  if Z.eqb (shell_lab s lc false T) 0 then shell_lab s lc true T else shell_lab s lc false T.

Hypothesis Hsrt : forall l, Permutation (srt l) l.

Lemma sget_nil s c : sget s c [] = [].
Proof. reflexivity. Qed.
Lemma label12_nil : label12 [] = 0%Z. Proof. reflexivity. Qed.
Lemma label14_nil : label14 [] = 0%Z. Proof. reflexivity. Qed.

(** The systems between the steps: all atoms of [t] in terms of those of [s]. *)
Definition stage s t (T : nat -> list (datom N)) : Prop :=
  geo s t /\ forall i a, nth_error (s_atoms t) i = Some a -> a_temp a = T i.
Lemma cna_temp_range s i d : In d (cna_temp s i) -> d_idx d < length (s_atoms s).
Proof.
  unfold cna_temp. destruct (enough s i); intros H; [apply (Permutation_in _ (Hsrt _)) in H|];
    eapply cands_range; exact H.
Qed.
Definition in_range s (T : nat -> list (datom N)) : Prop := forall i d, In d (T i) -> d_idx d < length (s_atoms s).
Lemma stage_in s t T : in_range s T -> stage s t T -> temps_in t.
Proof.
  intros HR [HG HT] a Ha d Hd. apply In_nth_error in Ha as [i Hi]. rewrite (HT i a Hi) in Hd.
  rewrite (geo_length HG). eapply HR; exact Hd.
Qed.

(** Taking one shell and labelling: the structures afterwards. *)
Definition shell_step (lc : option N) (b : bool) (t : sys N) : res (sys N) :=
  t <- (match lc with Some c => get_cna_neighbors t c b | None => get_acna_neighbors t b end) ;;
  identify (if b then label14 else label12) t.
Lemma shell_step_run s t T lc b : stored s -> in_range s T -> stage s t T ->
  shell_step lc b t =
  if match lc with Some _ => forallb (fun a => shell_size b <=? length (a_temp a)) (s_atoms t) | None => true end
  then Ok (t <| s_atoms := map (fun a =>
         relabel (if b then label14 else label12)
           (t <| s_atoms := map (fun a => match lc with Some c => cna_new t c b (reset_atom_main a) | None => acna_new t b (reset_atom_main a) end) (s_atoms t) |>)
           (match lc with Some c => cna_new t c b (reset_atom_main a) | None => acna_new t b (reset_atom_main a) end)) (s_atoms t) |>)
  else Err UB.
Proof.
  intros Hs HR HS. pose proof (stage_in HR HS) as Hin. destruct HS as [HG HT]. pose proof (geo_stored HG Hs) as Ht.
  unfold shell_step.
  set (F := fun a => match lc with Some c => cna_new t c b (reset_atom_main a) | None => acna_new t b (reset_atom_main a) end).
  set (t1 := t <| s_atoms := map F (s_atoms t) |>).
  assert (G1 : geo t t1).
  { apply geo_atoms. rewrite map_map. apply map_ext. intros a. unfold F. destruct lc; [reflexivity|].
    unfold acna_new. destruct (_ <? _); reflexivity. }
  assert (R1 : identify (if b then label14 else label12) t1 =
     Ok (t1 <| s_atoms := map (relabel (if b then label14 else label12) t1) (s_atoms t1) |>)).
  { apply identify_run; [eapply geo_stored; eauto|].
    intros a' Ha' n Hn. rewrite (geo_length G1). unfold t1 in Ha'. cbn in Ha'. apply in_map_iff in Ha' as (a & <- & Ha).
    assert (Hgo : forall c, In n (nbr_idx (with_nbrs_cut t (shell_size b) c (reset_atom_main a))) -> n < length (s_atoms t)).
    { intros c. unfold nbr_idx, with_nbrs_cut. cbn. rewrite arrows_idx.
      - intros H. apply in_map_iff in H as (d & <- & Hd). apply (Hin a Ha). eapply firstn_In; exact Hd.
      - intros j Hj. apply in_map_iff in Hj as (d & <- & Hd). apply (Hin a Ha). eapply firstn_In; exact Hd. }
    unfold F in Hn. destruct lc as [c|]; [eapply Hgo; exact Hn|].
    unfold acna_new in Hn. destruct (_ <? _); [eapply Hgo; exact Hn|]. destruct Hn. }
  assert (E1 : s_atoms t1 = map F (s_atoms t)) by reflexivity.
  destruct lc as [c|].
  - rewrite cna_run by auto. destruct (forallb _ (s_atoms t)); [|reflexivity]. cbn [bind].
    change (identify (if b then label14 else label12) t1 = Ok (t <| s_atoms := map (fun a => relabel (if b then label14 else label12) t1 (F a)) (s_atoms t) |>)).
    rewrite R1, E1, map_map. reflexivity.
  - rewrite acna_run by auto. cbn [bind].
    change (identify (if b then label14 else label12) t1 = Ok (t <| s_atoms := map (fun a => relabel (if b then label14 else label12) t1 (F a)) (s_atoms t) |>)).
    rewrite R1, E1, map_map. reflexivity.
Qed.

Lemma shell_step_stage s t T lc b : stored s -> in_range s T -> stage s t T ->
  (lc <> None -> forall i, i < length (s_atoms s) -> shell_size b <= length (T i)) ->
  exists t', shell_step lc b t = Ok t' /\ stage s t' T /\ s_usecells t' = s_usecells t /\
    forall i a, nth_error (s_atoms t) i = Some a -> exists a', nth_error (s_atoms t') i = Some a' /\
      a_struct a' = if Z.eqb (a_struct a) 0 then shell_lab s lc b (T i) else a_struct a.
Proof.
  intros Hs HR HS Hen. pose proof (stage_in HR HS) as Hin. rewrite (@shell_step_run s t T lc b Hs HR HS).
  assert (Hc : match lc with Some _ => forallb (fun a => shell_size b <=? length (a_temp a)) (s_atoms t) | None => true end = true).
  { destruct lc as [c|]; auto. apply forallb_forall. intros a Ha. apply In_nth_error in Ha as [i Hi].
    destruct HS as [HG HT]. rewrite (HT i a Hi). apply Nat.leb_le, Hen; [discriminate|].
    rewrite <- (geo_length HG). apply nth_error_Some. congruence. }
  rewrite Hc. eexists. split; [reflexivity|]. destruct HS as [HG HT].
  set (F := fun a => match lc with Some c => cna_new t c b (reset_atom_main a) | None => acna_new t b (reset_atom_main a) end).
  set (t1 := t <| s_atoms := map F (s_atoms t) |>). set (label := if b then label14 else label12).
  assert (EF : forall a, a_pos (F a) = a_pos a /\ a_temp (F a) = a_temp a /\ a_struct (F a) = a_struct a).
  { intros a. unfold F. destruct lc; [repeat split|]. unfold acna_new. destruct (_ <? _); repeat split. }
  assert (G1 : geo t t1) by (apply geo_atoms; rewrite map_map; apply map_ext; intros; apply EF).
  split; [split|split].
  - eapply geo_trans; [exact HG|]. apply geo_atoms. rewrite map_map. apply map_ext. intros a.
    rewrite relabel_pos. apply EF.
  - intros i a Ha. cbn in Ha. rewrite nth_error_map in Ha. destruct (nth_error (s_atoms t) i) as [a0|] eqn:E0; [|discriminate].
    simpl in Ha. apply Some_inj in Ha. subst a. rewrite <- (HT i a0 E0).
    transitivity (a_temp (F a0)); [|apply EF]. unfold relabel. fold (F a0). destruct (_ =? _)%Z; reflexivity.
  - reflexivity.
  - intros i a Ha. cbn. rewrite nth_error_map, Ha. cbn [option_map]. eexists. split; [reflexivity|].
    fold (F a). unfold relabel. destruct (EF a) as (_ & E2 & E3). rewrite E3.
    destruct (Z.eqb_spec (a_struct a) 0); [|exact E3]. cbn [a_struct].
    change (label (sget t1 (a_cutoff (F a)) (nbr_idx (F a))) = shell_lab s lc b (T i)).
    rewrite <- (sget_geo _ _ (geo_trans HG G1)). unfold shell_lab. fold label.
    rewrite <- (HT i a Ha). unfold F.
    assert (Hgo : forall c, nbr_idx (with_nbrs_cut t (shell_size b) c (reset_atom_main a)) = map (@d_idx N) (firstn (shell_size b) (a_temp a))).
    { intros c. unfold nbr_idx, with_nbrs_cut. cbn. apply arrows_idx. intros j Hj.
      apply in_map_iff in Hj as (d & <- & Hd). apply (Hin a); [eapply nth_error_In; eauto|]. eapply firstn_In; exact Hd. }
    destruct lc as [c|].
    + unfold cna_new. rewrite Hgo. reflexivity.
    + unfold acna_new. change (a_temp (reset_atom_main a)) with (a_temp a).
      destruct (_ <? _); [rewrite Hgo; reflexivity|]. change (nbr_idx (reset_atom_main a)) with (@nil nat). rewrite sget_nil.
      unfold label. now destruct b.
Qed.

Lemma enough_S s i j : enough s i = true -> j <= i -> 14 <= length (cna_cands s j).
Proof. unfold enough. rewrite forallb_forall. intros H Hj. apply Nat.leb_le, H, in_seq. lia. Qed.

(** The search before the analysis. *)
Lemma cna_search s : stored s -> s_usecells s = false -> (forall a, In a (s_atoms s) -> a_temp a = []) ->
  exists t ok, (s <- clear_struct s ;; get_all_neighbors_bynumber srt s (nofZ 3) 14 false) = Ok (t, ok) /\
    stage s t (cna_temp s) /\ s_usecells t = s_usecells s /\ forall a, In a (s_atoms t) -> a_struct a = 0%Z.
Proof.
  intros Hs Hu Ht. unfold clear_struct. rewrite (each_atom_stored _ Hs). cbn [bind].
  set (clr := fun a : atom N => a <| a_struct := 0%Z |>). fold clr.
  unfold get_all_neighbors_bynumber. cbv zeta.
  set (s1 := _ <| s_nd := _ |>). assert (G1 : geo s s1) by (split; [reflexivity|]; cbn; now rewrite map_map).
  assert (Hnd : s_nd s1 = guess_distance s (nofZ 3)) by reflexivity.
  destruct (@get_temp_exact s1) as (s2 & -> & Es2 & HL & H2); [now apply (geo_stored G1)|exact Hu|].
  cbn [bind].
  assert (G2 : geo s1 s2).
  { rewrite Es2. apply geo_atoms. apply list_by_nth; [now rewrite !map_length|]. intros k p Hp.
    rewrite nth_error_map in *. destruct (nth_error (s_atoms s1) k) as [a|] eqn:Ea; [|discriminate].
    destruct (H2 k a Ea) as (a2 & -> & S2 & _). simpl in *. apply statT_pos in S2. congruence. }
  assert (C1 : forall i, cands nleb s1 (s_nd s1) i = cna_cands s i).
  { intros i. rewrite Hnd. unfold cna_cands, cands. rewrite (geo_length G1). apply flat_map_ext_in. intros j _.
    assert (EL : link s1 i j = link s i j); [|now rewrite EL].
    unfold link. pose proof (f_equal (fun l => nth_error l i) (proj2 G1)) as Qi. pose proof (f_equal (fun l => nth_error l j) (proj2 G1)) as Qj.
    cbv beta in Qi, Qj. rewrite !nth_error_map in Qi, Qj.
    destruct (nth_error (s_atoms s1) i), (nth_error (s_atoms s) i); simpl in Qi; try discriminate; auto.
    destruct (nth_error (s_atoms s1) j), (nth_error (s_atoms s) j); simpl in Qj; try discriminate; auto.
    apply Some_inj in Qi, Qj. rewrite Qi, Qj. rewrite !(@ce_ij s1 s) by (symmetry; apply G1). reflexivity. }
  assert (T2 : forall i a, nth_error (s_atoms s2) i = Some a -> a_temp a = cna_cands s i /\ a_struct a = 0%Z).
  { intros i a Ha. assert (Hi : i < length (s_atoms s1)) by (rewrite <- HL; apply nth_error_Some; congruence).
    destruct (nth_error_some Hi) as [a1 Ea1]. destruct (H2 i a1 Ea1) as (a2 & Ea2 & S2 & T2). rewrite Ha in Ea2. apply Some_inj in Ea2. subst a2.
    cbn in Ea1. rewrite nth_error_map in Ea1. destruct (nth_error (s_atoms s) i) as [a0|] eqn:E0; [|discriminate].
    simpl in Ea1. apply Some_inj in Ea1. subst a1. split.
    - rewrite T2, C1. unfold clr. cbn. rewrite (Ht a0); auto. eapply nth_error_In; eauto.
    - now apply (f_equal (@a_struct N)) in S2. }
  assert (En : Z.to_nat (s_nop s2) = length (s_atoms s2)).
  { rewrite (geo_stored G2); [apply Nat2Z.id|]. now apply (geo_stored G1). }
  rewrite En. destruct (@sorting_loop s2 14 (s_atoms s2) (seq 0 (length (s_atoms s2))) [] eq_refl) as (j & b & E & Hj & Hlt & Hend).
  cbn [app length] in E. rewrite E. cbn [bind]. exists (s2 <| s_atoms := map_first j sort_atom (s_atoms s2) |>), b.
  split; [reflexivity|].
  assert (Een : forall i, i < length (s_atoms s2) -> enough s i = (i <? j)).
  { intros i Hi. destruct (Nat.ltb_spec i j) as [Hij|Hij].
    - unfold enough. apply forallb_forall. intros k Hk. apply in_seq in Hk.
      destruct (@nth_error_some _ (s_atoms s2) k) as [a Ea]; [lia|].
      pose proof (Hlt k a ltac:(lia) Ea) as Hz. apply size_lt_false in Hz. rewrite (proj1 (T2 k a Ea)) in Hz.
      apply Nat.leb_le. lia.
    - destruct Hend as [[_ ->]|[_ (a & Ea & Hz)]]; [lia|]. apply size_lt_true in Hz. rewrite (proj1 (T2 j a Ea)) in Hz.
      destruct (enough s i) eqn:Ee; auto. pose proof (enough_S Ee Hij). lia. }
  assert (Hpos : map (@a_pos N) (map_first j sort_atom (s_atoms s2)) = map (@a_pos N) (s_atoms s2)) by now apply map_map_first.
  split; [split|split].
  - eapply geo_trans; [exact G1|]. eapply geo_trans; [exact G2|]. now apply geo_atoms.
  - intros i a Ha. cbn in Ha. rewrite map_first_nth in Ha by auto.
    unfold cna_temp.
    assert (Hi : i < length (s_atoms s2)).
    { destruct (Nat.lt_ge_cases i (length (s_atoms s2))); auto. exfalso.
      assert (Hno : nth_error (s_atoms s2) i = None) by now apply nth_error_None. rewrite Hno in Ha. now destruct (i <? j). }
    destruct (nth_error_some Hi) as [a0 Ea0]. rewrite Ea0 in Ha. rewrite (Een i Hi). destruct (T2 i a0 Ea0) as [ET _].
    destruct (i <? j); simpl in Ha; apply Some_inj in Ha; subst a; auto. unfold sort_atom. cbn. now rewrite ET.
  - assert (Hus : s_usecells s2 = s_usecells s1) by now rewrite Es2. exact Hus.
  - intros a Ha. cbn in Ha. apply In_nth_error in Ha as [i Ha]. rewrite map_first_nth in Ha by auto.
    destruct (nth_error (s_atoms s2) i) as [a0|] eqn:E0; [|now destruct (i <? j)].
    destruct (T2 i a0 E0) as [_ ES]. destruct (i <? j); simpl in Ha; apply Some_inj in Ha; now subst a.
Qed.

Lemma calculate_cna_steps s lc : calculate_cna srt s lc =
  ('(t, _) <- (s <- clear_struct s ;; get_all_neighbors_bynumber srt s (nofZ 3) 14 false) ;;
   t <- shell_step lc false t ;; t <- shell_step lc true t ;; r <- tally 5 t ;; Ok (t, r)).
Proof.
  unfold calculate_cna. destruct (clear_struct s) as [s0|]; cbn [bind]; auto.
  destruct (get_all_neighbors_bynumber _ _ _ _ _) as [[t b]|]; cbn [bind]; auto.
  unfold shell_step, identify_cn12, identify_cn14.
  destruct lc; repeat (match goal with |- context[bind ?e _] => destruct e end; cbn [bind]; auto).
Qed.

Lemma label12_range cs : In (label12 cs) [0; 1; 2; 4]%Z.
Proof. unfold label12. repeat (destruct (_ =? _)%Z; simpl; auto 6). Qed.
Lemma label14_range cs : In (label14 cs) [0; 3]%Z.
Proof. unfold label14. repeat (destruct (_ =? _)%Z; simpl; auto 6). Qed.
Lemma cna_label_range s lc T : In (cna_label s lc T) [0; 1; 2; 3; 4]%Z.
Proof.
  assert (Q : forall v w, In v [0; 1; 2; 4]%Z -> In w [0; 3]%Z -> In (if Z.eqb v 0 then w else v) [0; 1; 2; 3; 4]%Z).
  { intros v w Hv Hw. simpl in *. destruct (Z.eqb_spec v 0); lia. }
  apply Q; unfold shell_lab; destruct lc; try apply label12_range; try apply label14_range;
    destruct (_ <? _); try apply label12_range; try apply label14_range; simpl; auto.
Qed.

(** After the search. *)
Lemma cna_after s lc t0 ok T : stored s -> (0 <= s_real s <= s_nop s)%Z -> in_range s T ->
  (s <- clear_struct s ;; get_all_neighbors_bynumber srt s (nofZ 3) 14 false) = Ok (t0, ok) ->
  stage s t0 T -> (forall a, In a (s_atoms t0) -> a_struct a = 0%Z) ->
  (lc <> None -> forall i, i < length (s_atoms s) -> 14 <= length (T i)) ->
  exists t r, calculate_cna srt s lc = Ok (t, r) /\ geo s t /\ s_usecells t = s_usecells t0 /\
    forall i a, nth_error (s_atoms t) i = Some a -> a_struct a = cna_label s lc (T i).
Proof.
  intros Hs Hr HR E0 S0 Z0 Hen. rewrite calculate_cna_steps, E0. cbn [bind].
  destruct (@shell_step_stage s t0 T lc false Hs HR S0) as (t1 & -> & S1 & U1 & H1).
  { intros Hl i Hi. specialize (Hen Hl i Hi). simpl. lia. }
  cbn [bind].
  destruct (@shell_step_stage s t1 T lc true Hs HR S1) as (t2 & -> & S2 & U2 & H2).
  { intros Hl i Hi. specialize (Hen Hl i Hi). simpl. lia. }
  cbn [bind].
  assert (HF : forall i a, nth_error (s_atoms t2) i = Some a -> a_struct a = cna_label s lc (T i)).
  { intros i a Ha. assert (Hi : i < length (s_atoms t2)) by (apply nth_error_Some; congruence).
    rewrite (geo_length (proj1 S2)) in Hi.
    destruct (@nth_error_some _ (s_atoms t0) i) as [a0 Ea0]; [rewrite (geo_length (proj1 S0)); auto|].
    destruct (H1 i a0 Ea0) as (a1 & Ea1 & E1). destruct (H2 i a1 Ea1) as (a2 & Ea2 & E2).
    rewrite Ha in Ea2. apply Some_inj in Ea2. subst a2. rewrite E2, E1.
    rewrite (Z0 a0 (nth_error_In _ _ Ea0)). rewrite Z.eqb_refl. reflexivity. }
  destruct (@tally_total 5 t2) as [r Er].
  { rewrite (geo_length (proj1 S2)), <- (ce_real (proj1 (proj1 S2))). unfold stored in Hs. lia. }
  { intros a Ha. apply In_nth_error in Ha as [i Hi]. rewrite (HF i a Hi).
    pose proof (cna_label_range s lc (T i)) as Q. simpl in Q. lia. }
  rewrite Er. cbn [bind]. exists t2, r. split; auto. split; [apply S2|]. split; [congruence|exact HF].
Qed.

Lemma cna_temp_in s : in_range s (cna_temp s).
Proof. intros i d. apply cna_temp_range. Qed.
Lemma cna_temp_length s i : length (cna_temp s i) = length (cna_cands s i).
Proof. unfold cna_temp. destruct (enough s i); auto. apply Permutation_length, Hsrt. Qed.

Theorem cna_full s lc : stored s -> s_usecells s = false -> (forall a, In a (s_atoms s) -> a_temp a = []) ->
  (0 <= s_real s <= s_nop s)%Z ->
  (lc <> None -> forall i, i < length (s_atoms s) -> 14 <= length (cna_cands s i)) ->
  exists t r, calculate_cna srt s lc = Ok (t, r) /\ geo s t /\ s_usecells t = false /\
    forall i a, nth_error (s_atoms t) i = Some a -> a_struct a = cna_label s lc (cna_temp s i).
Proof.
  intros Hs Hu Ht Hr Hen.
  destruct (cna_search Hs Hu Ht) as (t0 & ok & E0 & S0 & U0 & Z0).
  destruct (@cna_after s lc t0 ok (cna_temp s) Hs Hr (@cna_temp_in s) E0 S0 Z0) as (t & r & E & G & U & H).
  { intros Hl i Hi. rewrite cna_temp_length. auto. }
  exists t, r. split; auto. split; auto. split; [congruence|auto].
Qed.

(** Reading the twelfth or fourteenth of too few candidates. *)
Theorem cna_UB s c : stored s -> s_usecells s = false -> (forall a, In a (s_atoms s) -> a_temp a = []) ->
  (exists i, i < length (s_atoms s) /\ length (cna_cands s i) < 14) ->
  calculate_cna srt s (Some c) = Err UB.
Proof.
  intros Hs Hu Ht (i & Hi & Hl). rewrite calculate_cna_steps.
  destruct (cna_search Hs Hu Ht) as (t0 & ok & -> & S0 & U0 & Z0). cbn [bind].
  rewrite (@shell_step_run s t0 (cna_temp s) (Some c) false Hs (@cna_temp_in s) S0).
  destruct (forallb _ (s_atoms t0)) eqn:E; [|reflexivity]. cbn [bind].
  match goal with |- bind (shell_step _ _ ?x) _ = _ => set (t1 := x) end.
  assert (S1 : stage s t1 (cna_temp s)).
  { destruct S0 as [G0 T0]. split.
    - eapply geo_trans; [exact G0|]. apply geo_atoms. rewrite map_map. apply map_ext. intros a. now rewrite relabel_pos.
    - intros k a Ha. unfold t1 in Ha. cbn in Ha. rewrite nth_error_map in Ha. destruct (nth_error (s_atoms t0) k) as [a0|] eqn:E0; [|discriminate].
      simpl in Ha. apply Some_inj in Ha. subst a. rewrite <- (T0 k a0 E0). unfold relabel. destruct (_ =? _)%Z; reflexivity. }
  rewrite (@shell_step_run s t1 (cna_temp s) (Some c) true Hs (@cna_temp_in s) S1).
  destruct (forallb _ (s_atoms t1)) eqn:E1; [|reflexivity]. exfalso.
  destruct S1 as [G1 T1]. destruct (@nth_error_some _ (s_atoms t1) i) as [a Ea]; [rewrite (geo_length G1); auto|].
  rewrite forallb_forall in E1. specialize (E1 a (nth_error_In _ _ Ea)). apply Nat.leb_le in E1.
  rewrite (T1 i a Ea), cna_temp_length in E1. simpl in E1. lia.
Qed.

(** The structures do not depend on results of earlier calls. *)
Lemma cands_geo s t r i : geo s t -> cands nleb s r i = cands nleb t r i.
Proof.
  intros HG. unfold cands. rewrite (geo_length HG). apply flat_map_ext_in. intros j _.
  assert (EL : link t i j = link s i j); [|now rewrite EL].
  unfold link. pose proof (f_equal (fun l => nth_error l i) (proj2 HG)) as Qi. pose proof (f_equal (fun l => nth_error l j) (proj2 HG)) as Qj.
  cbv beta in Qi, Qj. rewrite !nth_error_map in Qi, Qj.
  destruct (nth_error (s_atoms t) i), (nth_error (s_atoms s) i); simpl in Qi; try discriminate; auto.
  destruct (nth_error (s_atoms t) j), (nth_error (s_atoms s) j); simpl in Qj; try discriminate; auto.
  apply Some_inj in Qi, Qj. rewrite Qi, Qj. rewrite !(@ce_ij t s) by (symmetry; apply HG). reflexivity.
Qed.
Lemma cna_cands_geo s t i : geo s t -> cna_cands s i = cna_cands t i.
Proof. intros HG. unfold cna_cands. rewrite (ce_guess (nofZ 3) (proj1 HG)). now apply cands_geo. Qed.
Lemma cna_temp_geo s t i : geo s t -> cna_temp s i = cna_temp t i.
Proof.
  intros HG. unfold cna_temp. rewrite (cna_cands_geo i HG).
  assert (enough s i = enough t i) as ->; auto. unfold enough.
  assert (Q : forall is, forallb (fun j => 14 <=? length (cna_cands s j)) is = forallb (fun j => 14 <=? length (cna_cands t j)) is); [|apply Q].
  induction is as [|k is IH]; cbn [forallb]; auto. now rewrite IH, (cna_cands_geo k HG).
Qed.
Lemma shell_lab_geo s t lc b T : geo s t -> shell_lab s lc b T = shell_lab t lc b T.
Proof. intros HG. unfold shell_lab. destruct lc; rewrite !(sget_geo _ _ HG); reflexivity. Qed.
Lemma cna_label_geo s t lc T : geo s t -> cna_label s lc T = cna_label t lc T.
Proof. intros HG. unfold cna_label. now rewrite !(shell_lab_geo _ _ _ HG). Qed.

(** ** The search when every atom has enough candidates *)
Definition prepared s : sys N :=
  (s <| s_atoms := map (fun a : atom N => a <| a_struct := 0%Z |>) (s_atoms s) |>)
    <| s_vorused := false |> <| s_nd := guess_distance s (nofZ 3) |>.
Lemma prepared_geo s : geo s (prepared s).
Proof. split; [reflexivity|]. cbn. now rewrite map_map. Qed.
Lemma cands_geo' cmp s t r i : geo s t -> cands cmp s r i = cands cmp t r i.
Proof.
  intros HG. unfold cands. rewrite (geo_length HG). apply flat_map_ext_in. intros j _.
  assert (EL : link t i j = link s i j); [|now rewrite EL].
  unfold link. pose proof (f_equal (fun l => nth_error l i) (proj2 HG)) as Qi. pose proof (f_equal (fun l => nth_error l j) (proj2 HG)) as Qj.
  cbv beta in Qi, Qj. rewrite !nth_error_map in Qi, Qj.
  destruct (nth_error (s_atoms t) i), (nth_error (s_atoms s) i); simpl in Qi; try discriminate; auto.
  destruct (nth_error (s_atoms t) j), (nth_error (s_atoms s) j); simpl in Qj; try discriminate; auto.
  apply Some_inj in Qi, Qj. rewrite Qi, Qj. rewrite !(@ce_ij t s) by (symmetry; apply HG). reflexivity.
Qed.

Lemma cna_search_all cmp s s2 : stored s -> no_candidates s ->
  get_temp_neighbors (prepared s) = Ok s2 -> temps_ok cmp (prepared s) s2 ->
  (forall i, i < length (s_atoms s) -> 14 <= length (cands cmp s (guess_distance s (nofZ 3)) i)) ->
  exists t T, (s <- clear_struct s ;; get_all_neighbors_bynumber srt s (nofZ 3) 14 false) = Ok (t, true) /\
    stage s t T /\ (forall a, In a (s_atoms t) -> a_struct a = 0%Z) /\
    forall i, i < length (s_atoms s) -> exists l, T i = srt l /\ Permutation l (cands cmp s (guess_distance s (nofZ 3)) i).
Proof.
  intros Hs Ht Eg (Es2 & HL & H2) Hen. unfold clear_struct. rewrite (each_atom_stored _ Hs). cbn [bind].
  unfold get_all_neighbors_bynumber. cbv zeta. fold (prepared s).
  match goal with |- context[get_temp_neighbors ?x] => change x with (prepared s) end.
  rewrite Eg. cbn [bind]. pose proof (prepared_geo s) as G1. set (s1 := prepared s) in *.
  assert (G2 : geo s1 s2).
  { rewrite Es2. apply geo_atoms. apply list_by_nth; [now rewrite !map_length|]. intros k p Hp.
    rewrite nth_error_map in *. destruct (nth_error (s_atoms s1) k) as [a|] eqn:Ea; [|discriminate].
    destruct (H2 k a Ea) as (a2 & -> & S2 & _). simpl in *. apply statT_pos in S2. congruence. }
  assert (T2 : forall i a, nth_error (s_atoms s2) i = Some a ->
    Permutation (a_temp a) (cands cmp s (guess_distance s (nofZ 3)) i) /\ a_struct a = 0%Z).
  { intros i a Ha. assert (Hi : i < length (s_atoms s1)) by (rewrite <- HL; apply nth_error_Some; congruence).
    destruct (nth_error_some Hi) as [a1 Ea1]. destruct (H2 i a1 Ea1) as (a2 & Ea2 & S2 & T2). rewrite Ha in Ea2. apply Some_inj in Ea2. subst a2.
    cbn in Ea1. rewrite nth_error_map in Ea1. destruct (nth_error (s_atoms s) i) as [a0|] eqn:E0; [|discriminate].
    simpl in Ea1. apply Some_inj in Ea1. subst a1. split.
    - etransitivity; [exact T2|]. cbn. rewrite (Ht a0) by (eapply nth_error_In; eauto). simpl app.
      rewrite (@cands_geo' cmp s s1) by auto. reflexivity.
    - now apply (f_equal (@a_struct N)) in S2. }
  pose proof (geo_trans G1 G2) as G3.
  assert (En : Z.to_nat (s_nop s2) = length (s_atoms s2)).
  { rewrite (geo_stored G3 Hs). apply Nat2Z.id. }
  rewrite En. destruct (@sorting_loop s2 14 (s_atoms s2) (seq 0 (length (s_atoms s2))) [] eq_refl) as (j & b & E & Hj & Hlt & Hend).
  cbn [app length] in E. rewrite E. cbn [bind].
  destruct Hend as [[-> ->]|[_ (a & Ea & Hz)]].
  2:{ exfalso. apply size_lt_true in Hz. rewrite (Permutation_length (proj1 (T2 j a Ea))) in Hz.
      specialize (Hen j). rewrite <- (geo_length G3) in Hen.
      assert (j < length (s_atoms s2)) by (apply nth_error_Some; congruence). specialize (Hen H). lia. }
  rewrite map_first_all. set (t := s2 <| s_atoms := map sort_atom (s_atoms s2) |>).
  exists t, (fun i => match nth_error (s_atoms t) i with Some a => a_temp a | None => [] end).
  assert (Gt : geo s t).
  { eapply geo_trans; [exact G3|]. apply geo_atoms. now rewrite map_map. }
  split; [reflexivity|]. split; [split|split].
  - exact Gt.
  - intros i a ->. reflexivity.
  - intros a Ha. unfold t in Ha. cbn in Ha. apply in_map_iff in Ha as (a0 & <- & Ha).
    apply In_nth_error in Ha as [i Hi]. now destruct (T2 i a0 Hi).
  - intros i Hi. rewrite <- (geo_length G3) in Hi. destruct (nth_error_some Hi) as [a Ea]. unfold t. cbn.
    rewrite nth_error_map, Ea. cbn. exists (a_temp a). split; auto. now destruct (T2 i a Ea).
Qed.

Lemma cna_brute_stage s : stored s -> s_usecells s = false ->
  exists s2, get_temp_neighbors (prepared s) = Ok s2 /\ temps_ok nleb (prepared s) s2.
Proof. intros Hs Hu. apply get_temp_brute; auto. now apply (geo_stored (prepared_geo s)). Qed.

(** ** Candidates in terms of the specification *)
Lemma has_cands_by cmp s k i : has_candidates_by cmp s k i <-> k <= length (cands cmp s (guess_distance s (nofZ 3)) i).
Proof.
  unfold has_candidates_by. set (r := guess_distance s (nofZ 3)). split.
  - intros (js & ND & HL & H). rewrite <- HL, <- (map_length (@d_idx N)). apply NoDup_incl_length; auto.
    intros j Hj. destruct (H j Hj) as (e & E1 & E2). apply in_map_iff.
    pose proof (link_idx E1) as Ei. exists (mkDatom (nb_dist e) j). split; auto. apply In_cands. exists e. auto.
  - intros Hk. exists (map (@d_idx N) (firstn k (cands cmp s r i))). split; [|split].
    + rewrite <- firstn_map. pose proof (@cands_NoDup N cmp s r i) as ND.
      rewrite <- (firstn_skipn k) in ND. clear -ND. induction (firstn k (map _ (cands cmp s r i))); [constructor|].
      simpl in ND. inversion ND; subst. constructor; auto. intros H; apply H1. apply in_or_app; auto.
    + rewrite map_length. now apply firstn_length_le.
    + intros j Hj. apply in_map_iff in Hj as (d & <- & Hd). apply firstn_In, In_cands in Hd as (e & E1 & E2 & E3).
      exists e. split; auto. now rewrite E2.
Qed.
Lemma has_cands s k i : has_candidates s k i <-> k <= length (cna_cands s i).
Proof. apply has_cands_by. Qed.

(** ** Counts *)
Theorem cna_counts s lc t r : calculate_cna srt s lc = Ok (t, r) -> counted_structs 5 t r.
Proof.
  rewrite calculate_cna_steps. destruct (bind (clear_struct s) _) as [[t0 ok]|]; cbn [bind]; [|discriminate].
  destruct (shell_step lc false t0) as [t1|]; cbn [bind]; [|discriminate].
  destruct (shell_step lc true t1) as [t2|]; cbn [bind]; [|discriminate].
  destruct (tally 5 t2) as [r'|] eqn:E; cbn [bind]; [|discriminate]. intros H. injection H as <- <-.
  now apply tally_spec.
Qed.
Lemma counted_eq n t t' r r' : counted_structs n t r -> counted_structs n t' r' ->
  s_real t = s_real t' -> map (@a_struct N) (s_atoms t) = map (@a_struct N) (s_atoms t') -> r = r'.
Proof.
  intros (L & C & _) (L' & C' & _) Hr Hm. apply list_by_nth; [congruence|]. intros k x Hx.
  assert (Hk : k < n) by (rewrite <- L'; apply nth_error_Some; congruence).
  specialize (C (Z.of_nat k) ltac:(lia)). specialize (C' (Z.of_nat k) ltac:(lia)). rewrite Nat2Z.id in *.
  rewrite C' in Hx. rewrite C. rewrite <- Hx. do 2 f_equal. unfold real_atoms. rewrite Hr.
  assert (Q : forall l l' m, map (@a_struct N) l = map (@a_struct N) l' ->
     length (filter (fun a => Z.eqb (Z.of_nat k) (a_struct a)) (firstn m l)) =
     length (filter (fun a => Z.eqb (Z.of_nat k) (a_struct a)) (firstn m l'))); [|now apply Q].
  induction l as [|a l IH]; intros [|a' l'] m Hl; simpl in Hl; try discriminate; [now destruct m|].
  injection Hl as E1 E2. destruct m; auto. cbn [firstn filter]. rewrite E1. destruct (_ =? _)%Z; simpl; auto.
Qed.


End R.
