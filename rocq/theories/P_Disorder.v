(** Proofs about the disorder variable. *)
From Coq Require Import Reals ZArith List Lia Lra.
From Verif Require Import Base Num NumR Types M_Geometry M_Container M_Neighbors M_Steinhardt M_Solids
  S_Neighbors S_Steinhardt S_Solids P_Container P_Neighbors P_Temp P_QRun P_Harmonics P_Steinhardt P_QInv P_QSys P_Solids
  M_Local S_Local P_Centro.
Import ListNotations.
Set Implicit Arguments.
Unset Strict Implicit.
Local Open Scope R_scope.

Section Dis.
Variable q : Z.
Hypothesis Hq : (2 <= q <= 12)%Z.
Notation ms := (zrange 0 (2 * q + 1)).
Implicit Types a b : atom Rnum.

Lemma q_comp_Ok a m : q_arrays a -> In m ms -> q_comp a q m = Ok (q_component a q m).
Proof.
  intros Ha Hm. apply In_zrange in Hm. destruct (@zget_row _ a q m Hq ltac:(lia) Ha) as (row & E1 & E2).
  unfold q_comp. rewrite E1. cbn [bind]. rewrite E2. f_equal. unfold q_component.
  apply zget_inv in E1 as [_ E1]. apply zget_inv in E2 as [_ E2].
  rewrite (nth_error_nth _ _ _ E1). symmetry. now apply nth_error_nth.
Qed.

Lemma cross_fold a b : q_arrays a -> q_arrays b -> forall l, (forall m, In m l -> In m ms) -> forall si sj re im,
  foldM (cross_step q a b) l (si, sj, re, im) = Ok
   (si + Rsum (map (fun m => fst (q_component a q m) * fst (q_component a q m) + snd (q_component a q m) * snd (q_component a q m)) l),
    sj + Rsum (map (fun m => fst (q_component b q m) * fst (q_component b q m) + snd (q_component b q m) * snd (q_component b q m)) l),
    re + Rsum (map (fun m => fst (q_component a q m) * fst (q_component b q m)) l),
    im + Rsum (map (fun m => snd (q_component a q m) * snd (q_component b q m)) l)).
Proof.
  intros Ha Hb. induction l as [|m l IH]; intros H si sj re im; cbn [foldM map].
  - cbn. rewrite !Rplus_0_r. reflexivity.
  - unfold cross_step at 1. rewrite (@q_comp_Ok a m Ha (H m (or_introl eq_refl))). cbn [bind].
    rewrite (@q_comp_Ok b m Hb (H m (or_introl eq_refl))). cbn [bind].
    destruct (q_component a q m) as [x y] eqn:E1, (q_component b q m) as [u v] eqn:E2. cbn [bind].
    rewrite IH by (intros; apply H; now right). rewrite !Rsum_cons, ?E1, ?E2. cbn [fst snd]. rnum.
    f_equal. repeat (f_equal; [|ring]). ring.
Qed.
Lemma sii_fold a : q_arrays a -> forall l, (forall m, In m l -> In m ms) -> forall si re im,
  foldM (sii_step q a) l (si, re, im) = Ok
   (si + Rsum (map (fun m => fst (q_component a q m) * fst (q_component a q m) + snd (q_component a q m) * snd (q_component a q m)) l),
    re + Rsum (map (fun m => fst (q_component a q m) * fst (q_component a q m)) l),
    im + Rsum (map (fun m => snd (q_component a q m) * snd (q_component a q m)) l)).
Proof.
  intros Ha. induction l as [|m l IH]; intros H si re im; cbn [foldM map].
  - cbn. rewrite !Rplus_0_r. reflexivity.
  - unfold sii_step at 1. rewrite (@q_comp_Ok a m Ha (H m (or_introl eq_refl))). cbn [bind].
    destruct (q_component a q m) as [x y] eqn:E1. cbn [bind].
    rewrite IH by (intros; apply H; now right). rewrite !Rsum_cons, ?E1. cbn [fst snd]. rnum.
    f_equal. repeat (f_equal; [|ring]). ring.
Qed.
Definition re_dot a b : R := Rsum (map (fun m => fst (q_component a q m) * fst (q_component b q m)) ms).
Definition im_dot a b : R := Rsum (map (fun m => snd (q_component a q m) * snd (q_component b q m)) ms).
Lemma dot_split a b : re_dot a b + im_dot a b = q_dot q a b.
Proof. unfold re_dot, im_dot, q_dot. now rewrite <- Rsum_map_add. Qed.
Lemma dot_ip a b : q_dot q a b = ip (q_component a q) (q_component b q) ms.
Proof. reflexivity. Qed.

Lemma sii_one a : q_arrays a -> 0 < q_dot q a a -> sii_value q a = Ok (1 : Rnum).
Proof.
  intros Ha H. unfold sii_value, q_comps. change (@n0 Rnum) with 0.
  rewrite (sii_fold Ha (l := ms)) by auto. cbn [bind]. rewrite !Rplus_0_l. fold (re_dot a a) (im_dot a a) (q_dot q a a).
  f_equal. rnum. rewrite dot_split. apply (@ratio_self Z (q_component a q) ms H).
Qed.

(** The accumulating loop over the neighbour slots. *)
Definition slot_term (l : list (atom Rnum)) a (k : nat) : R :=
  2 - 2 * (Rsum (map (q_dot q a) (firstn (S k) l)) /
     (sqrt (Rsum (map (fun b => q_dot q b b) (firstn (S k) l))) * sqrt (INR (S k) * q_dot q a a))).
Lemma firstn_snoc {A} (l : list A) k (b : A) : nth_error l k = Some b -> firstn (S k) l = firstn k l ++ [b].
Proof.
  revert k; induction l as [|x l IH]; intros [|k]; cbn [nth_error]; try discriminate.
  - now intros [= ->].
  - intros H. cbn [firstn app]. f_equal. exact (IH _ H).
Qed.
Lemma disorder_loop l a : q_arrays a -> (a_sii a : R) = 1 -> (forall b, In b l -> q_arrays b /\ (a_sii b : R) = 1) ->
  forall n k (dis si sj re im : R), (k + n <= length l)%nat -> si = INR k * q_dot q a a ->
  sj = Rsum (map (fun b => q_dot q b b) (firstn k l)) -> re + im = Rsum (map (q_dot q a) (firstn k l)) ->
  exists st, foldM (disorder_step q l a) (seq k n) (dis, (si, sj, re, im)) =
    Ok (dis + Rsum (map (slot_term l a) (seq k n)), st).
Proof.
  intros Ha Sa Hl. induction n as [|n IH]; intros k dis si sj re im Hk Esi Esj Eri.
  - eexists. cbn. rewrite Rplus_0_r. reflexivity.
  - cbn [seq foldM]. unfold disorder_step at 1. destruct (@nth_error_some _ l k) as [b Eb]; [lia|].
    rewrite (get_Ok Eb). cbn [bind snd fst]. destruct (Hl b (nth_error_In _ _ Eb)) as [Hb Sb].
    unfold q_comps. rewrite (cross_fold Ha Hb (l := ms)) by auto. cbn [bind].
    fold (re_dot a b) (im_dot a b) (q_dot q a a) (q_dot q b b).
    assert (F : firstn (S k) l = firstn k l ++ [b]) by now apply firstn_snoc.
    assert (E1 : si + q_dot q a a = INR (S k) * q_dot q a a) by (rewrite S_INR, Esi; ring).
    assert (E2 : sj + q_dot q b b = Rsum (map (fun b => q_dot q b b) (firstn (S k) l))).
    { rewrite F, map_app, Rsum_app, Esj. cbn. ring. }
    assert (E3 : (re + re_dot a b) + (im + im_dot a b) = Rsum (map (q_dot q a) (firstn (S k) l))).
    { rewrite F, map_app, Rsum_app, <- Eri. cbn. rewrite Rplus_0_r, <- dot_split. ring. }
    destruct (IH (S k) (dis + slot_term l a k) _ _ _ _ ltac:(lia) E1 E2 E3) as [st Est].
    exists st. cbn [map]. rewrite Rsum_cons.
    replace (dis + (slot_term l a k + Rsum (map (slot_term l a) (seq (S k) n)))) with
      (dis + slot_term l a k + Rsum (map (slot_term l a) (seq (S k) n))) by ring.
    rewrite <- Est. f_equal. f_equal. unfold slot_term. rewrite <- E3, <- E2, <- E1. rnum.
    change (@n2 Rnum) with 2. rewrite Sa, Sb. change (carrier Rnum) with R. ring.
Qed.
Lemma disorder_value_run l a : q_arrays a -> (a_sii a : R) = 1 -> (forall b, In b l -> q_arrays b /\ (a_sii b : R) = 1) ->
  (length (a_nbrs a) <= length l)%nat -> disorder_value q l a = Ok (coded_disorder q l a : Rnum).
Proof.
  intros Ha Sa Hl Hn. unfold disorder_value. cbv zeta.
  destruct (@disorder_loop l a Ha Sa Hl (length (a_nbrs a)) 0 0 0 0 0 0 Hn) as [st E]; cbn; try ring.
  match goal with |- bind ?x _ = _ => assert (x = Ok ((0 + Rsum (map (slot_term l a) (seq 0 (length (a_nbrs a)))) : Rnum), st)) as -> by exact E end.
  cbn [bind]. f_equal. unfold coded_disorder. rewrite Rplus_0_l, INR_IZR_INZ. reflexivity.
Qed.

(** Non-negative whatever the accumulation. *)
Lemma ip_flat (F G : nat * Z -> R * R) (c : nat -> atom Rnum * atom Rnum) js :
  (forall j m, F (j, m) = q_component (fst (c j)) q m) -> (forall j m, G (j, m) = q_component (snd (c j)) q m) ->
  ip F G (flat_map (fun j => map (pair j) ms) js) = Rsum (map (fun j => q_dot q (fst (c j)) (snd (c j))) js).
Proof.
  intros HF HG. unfold ip. induction js as [|j js IH]; cbn [flat_map map]; auto.
  rewrite map_app, Rsum_app, Rsum_cons, IH. f_equal. rewrite map_map. unfold q_dot. apply Rsum_map_ext.
  intros m _. unfold inner. now rewrite HF, HG.
Qed.
Lemma slot_term_nonneg l a k : 0 < q_dot q a a -> (forall b, In b l -> 0 < q_dot q b b) -> (k < length l)%nat ->
  0 <= slot_term l a k.
Proof.
  intros Ha Hl Hk. unfold slot_term.
  set (nb := fun j => nth j l a).
  assert (EL : firstn (S k) l = map nb (seq 0 (S k))).
  { unfold nb. clear -Hk. revert k Hk. induction l as [|x l IH]; intros k Hk; [simpl in Hk; lia|].
    cbn [firstn]. destruct k as [|k]; [reflexivity|]. rewrite (IH k) by (simpl in Hk; lia).
    change (seq 0 (S (S k))) with (0%nat :: seq 1 (S k)). cbn [map nth]. f_equal.
    rewrite <- seq_shift, map_map. reflexivity. }
  set (js := seq 0 (S k)) in *. set (F := fun p : nat * Z => q_component a q (snd p)).
  set (G := fun p : nat * Z => q_component (nb (fst p)) q (snd p)).
  set (is := flat_map (fun j => map (pair j) ms) js).
  assert (E1 : Rsum (map (q_dot q a) (firstn (S k) l)) = ip F G is).
  { unfold is. rewrite (@ip_flat F G (fun j => (a, nb j))); auto. now rewrite EL, map_map. }
  assert (E2 : Rsum (map (fun b => q_dot q b b) (firstn (S k) l)) = ip G G is).
  { unfold is. rewrite (@ip_flat G G (fun j => (nb j, nb j))); auto. now rewrite EL, map_map. }
  assert (E3 : INR (S k) * q_dot q a a = ip F F is).
  { unfold is. rewrite (@ip_flat F F (fun j => (a, a))); auto. cbn [fst snd].
    replace (S k) with (length js) by (unfold js; apply seq_length). clear. generalize js. intros l.
    induction l as [|j l IH]; [cbn; ring|]. cbn [map]. rewrite Rsum_cons, <- IH.
    change (length (j :: l)) with (S (length l)). rewrite S_INR. ring. }
  rewrite E1, E2, E3.
  assert (0 < ip F F is) as P1.
  { rewrite <- E3. apply Rmult_lt_0_compat; auto. apply lt_0_INR. lia. }
  assert (0 < ip G G is) as P2.
  { rewrite <- E2. destruct l as [|b l]; [simpl in Hk; lia|]. cbn [firstn map]. rewrite Rsum_cons.
    pose proof (Hl b (or_introl eq_refl)). assert (0 <= Rsum (map (fun b => q_dot q b b) (firstn k l))); [|lra].
    apply Rsum_nonneg. intros x Hx. apply in_map_iff in Hx as (c & <- & Hc). left. apply Hl. right.
    clear -Hc. revert k Hc. induction l; intros [|k]; simpl; try tauto. intros [H|H]; eauto. }
  pose proof (ratio_bound P1 P2). lra.
Qed.
Lemma coded_nonneg l a : 0 < q_dot q a a -> (forall b, In b l -> 0 < q_dot q b b) ->
  (0 < length (a_nbrs a) <= length l)%nat -> 0 <= coded_disorder q l a.
Proof.
  intros Ha Hl Hn. unfold coded_disorder. apply Rmult_le_pos.
  - apply Rsum_nonneg. intros x Hx. apply in_map_iff in Hx as (k & <- & Hk). apply in_seq in Hk.
    apply slot_term_nonneg; auto. lia.
  - left. apply Rinv_0_lt_compat, lt_0_INR. lia.
Qed.
End Dis.

Section Runs.
Variable q : Z.
Hypothesis Hq : (2 <= q <= 12)%Z.
Implicit Types s : sys Rnum.

Definition with_sii (a : atom Rnum) : atom Rnum := a <| a_sii := (1 : Rnum) |>.
Lemma q_dot_qc q' a b a' b' : a_qc a = a_qc a' -> a_qc b = a_qc b' -> q_dot q' a b = q_dot q' a' b'.
Proof. intros H1 H2. unfold q_dot, q_component. now rewrite H1, H2. Qed.
Lemma coded_qc q' l l' a a' : map (@a_qc Rnum) l = map (@a_qc Rnum) l' -> a_qc a = a_qc a' -> a_nbrs a = a_nbrs a' ->
  coded_disorder q' l a = coded_disorder q' l' a'.
Proof.
  intros H1 H2 H3. unfold coded_disorder. rewrite H3. f_equal. apply Rsum_map_ext. intros k _.
  assert (G : forall f f' : atom Rnum -> R, (forall x y, a_qc x = a_qc y -> f x = f' y) ->
    map f (firstn (S k) l) = map f' (firstn (S k) l')).
  { intros f f' Hf. generalize (S k). revert l' H1. induction l as [|x l IH]; intros [|y l'] H1 [|m]; try discriminate; auto.
    cbn [map] in H1. injection H1 as E1 E2. cbn [firstn map]. rewrite (Hf x y E1), (IH l' E2). reflexivity. }
  rewrite (G (q_dot q' a) (q_dot q' a')) by (intros; now apply q_dot_qc).
  rewrite (G (fun b => q_dot q' b b) (fun b => q_dot q' b b)) by (intros; now apply q_dot_qc).
  now rewrite (q_dot_qc q' H2 H2).
Qed.

Definition with_disorder (l : list (atom Rnum)) (a : atom Rnum) : atom Rnum :=
  a <| a_sii := (1 : Rnum) |> <| a_disorder := (coded_disorder q l a : Rnum) |>.
Theorem disorder_run s : q_ready s -> (forall a, In a (s_atoms s) -> 0 < q_dot q a a) ->
  (forall a, In a (s_atoms s) -> (length (a_nbrs a) <= length (s_atoms s))%nat) ->
  calculate_disorder s q = Ok (s <| s_atoms := map (with_disorder (s_atoms s)) (s_atoms s) |>).
Proof.
  intros [Hn Hr] Hp Hl. unfold calculate_disorder. rewrite Hn, Nat2Z.id. cbv zeta. set (l0 := s_atoms s) in *.
  assert (E1 : foldM (sii_atom q) (seq 0 (length l0)) l0 = Ok (map with_sii l0)).
  { rewrite (@loop_map_first _ _ with_sii); [now rewrite map_first_all| |lia]. intros k Hk.
    destruct (@nth_error_some _ l0 k Hk) as [a Ea].
    assert (nth_error (map_first k with_sii l0) k = Some a) as Ek
      by (rewrite map_first_nth by lia; rewrite Nat.ltb_irrefl; exact Ea).
    unfold sii_atom. rewrite (get_Ok Ek). cbn [bind]. assert (In a l0) by (eapply nth_error_In; eauto).
    rewrite (@sii_one q Hq a) by (try apply Hr; auto). reflexivity. }
  rewrite E1. cbn [bind]. set (l1 := map with_sii l0).
  assert (L1 : length l1 = length l0) by apply map_length.
  set (G := fun a : atom Rnum => a <| a_disorder := (coded_disorder q l0 a : Rnum) |>).
  assert (E2 : foldM (disorder_atom q) (seq 0 (length l0)) l1 = Ok (map G l1)).
  { rewrite <- L1. rewrite (@loop_map_first _ _ G); [now rewrite map_first_all| |lia]. intros k Hk.
    destruct (@nth_error_some _ l1 k Hk) as [a Ea].
    assert (nth_error (map_first k G l1) k = Some a) as Ek
      by (rewrite map_first_nth by lia; rewrite Nat.ltb_irrefl; exact Ea).
    unfold disorder_atom. rewrite (get_Ok Ek). cbn [bind].
    assert (Hin : forall b, In b (map_first k G l1) -> q_arrays b /\ (a_sii b : R) = 1 /\ exists c, In c l0 /\ a_qc b = a_qc c /\ a_nbrs b = a_nbrs c).
    { intros b Hb. apply In_nth_error in Hb as [j Ej]. rewrite map_first_nth in Ej by lia. unfold l1 in Ej. rewrite nth_error_map in Ej.
      destruct (nth_error l0 j) as [c|] eqn:Ec; [|destruct (_ <? _)%nat; discriminate].
      assert (In c l0) by (eapply nth_error_In; eauto). assert (q_arrays c) by now apply Hr.
      destruct (_ <? _)%nat; cbn in Ej; apply Some_inj in Ej; subst b; (split; [assumption|]; split; [reflexivity|]; exists c; auto). }
    destruct (Hin a (nth_error_In _ _ Ek)) as (Qa & Sa & c & Hc & Ec & Ec2).
    rewrite (@disorder_value_run q Hq _ a Qa Sa).
    - assert (EE : coded_disorder q (map_first k G l1) a = coded_disorder q l0 a).
      { apply coded_qc; auto. rewrite map_map_first by reflexivity. unfold l1. now rewrite map_map. }
      rewrite EE. cbn [bind]. f_equal. now apply (upd_ext Ek).
    - intros b Hb. destruct (Hin b Hb) as (? & ? & _). auto.
    - rewrite Ec2. transitivity (length l0); [now apply Hl|]. apply Nat.eq_le_incl.
      pose proof (f_equal (@length _) (@map_map_first _ _ (@a_qc Rnum) G k l1 (fun _ => eq_refl))) as E. rewrite !map_length in E. congruence. }
  rewrite E2. cbn [bind]. f_equal. unfold l1. rewrite map_map. reflexivity.
Qed.
End Runs.

(** ** Averages over an atom and its neighbours *)
Definition with_avg (l : list (atom Rnum)) (a : atom Rnum) : atom Rnum :=
  a <| a_avgdisorder := (shell_mean (@a_disorder Rnum) l a : Rnum) |>.
Lemma avg_fold (l : list (atom Rnum)) (es : list (nbr Rnum)) : (forall e, In e es -> (nb_idx e < length l)%nat) -> forall x : R,
  foldM (fun vv e => b <- get l (nb_idx e) ;; Ok (nadd vv (a_disorder b))) es (x : Rnum) =
  Ok ((x + Rsum (map (fun e => match nth_error l (nb_idx e) with Some b => (a_disorder b : R) | None => 0 end) es))%R : Rnum).
Proof.
  induction es as [|e es IH]; intros H x; cbn [foldM map].
  - cbn. now rewrite Rplus_0_r.
  - destruct (@nth_error_some _ l (nb_idx e)) as [b Eb]; [apply H; now left|]. rewrite (get_Ok Eb). cbn [bind].
    rewrite IH by (intros; apply H; now right). rewrite Rsum_cons, Eb. f_equal. rnum. ring.
Qed.
Lemma shell_mean_same (l l' : list (atom Rnum)) a a' : map (@a_disorder Rnum) l = map (@a_disorder Rnum) l' ->
  a_disorder a = a_disorder a' -> a_nbrs a = a_nbrs a' -> shell_mean (@a_disorder Rnum) l a = shell_mean (@a_disorder Rnum) l' a'.
Proof.
  intros H1 H2 H3. unfold shell_mean. rewrite H2, H3. f_equal. f_equal. apply Rsum_map_ext. intros e _.
  pose proof (f_equal (fun l => nth_error l (nb_idx e)) H1) as E. cbv beta in E. rewrite !nth_error_map in E.
  destruct (nth_error l (nb_idx e)), (nth_error l' (nb_idx e)); cbn in E; try discriminate; auto. now apply Some_inj in E.
Qed.
Theorem average_run (s : sys Rnum) : stored s ->
  (forall a e, In a (s_atoms s) -> In e (a_nbrs a) -> (nb_idx e < length (s_atoms s))%nat) ->
  find_average_disorder s = Ok (s <| s_atoms := map (with_avg (s_atoms s)) (s_atoms s) |>).
Proof.
  intros Hn Hr. unfold find_average_disorder. rewrite Hn, Nat2Z.id. set (l0 := s_atoms s) in *.
  rewrite (@loop_map_first _ _ (with_avg l0)); [cbn [bind]; now rewrite map_first_all| |lia]. intros k Hk.
  destruct (@nth_error_some _ l0 k Hk) as [a Ea].
  assert (nth_error (map_first k (with_avg l0) l0) k = Some a) as Ek
    by (rewrite map_first_nth by lia; rewrite Nat.ltb_irrefl; exact Ea).
  assert (EM : map (@a_disorder Rnum) (map_first k (with_avg l0) l0) = map (@a_disorder Rnum) l0) by now apply map_map_first.
  assert (EL : length (map_first k (with_avg l0) l0) = length l0) by (apply (f_equal (@length _)) in EM; now rewrite !map_length in EM).
  unfold avg_disorder_atom. rewrite (get_Ok Ek). cbn [bind]. unfold avg_disorder_value.
  rewrite avg_fold by (intros e He; rewrite EL; eapply Hr; eauto; eapply nth_error_In; eauto). cbn [bind].
  f_equal. apply (upd_ext Ek). unfold with_avg. rewrite <- (@shell_mean_same (map_first k (with_avg l0) l0) l0 a a); auto.
  unfold shell_mean. rewrite INR_IZR_INZ. rnum. rewrite plus_IZR. reflexivity.
Qed.
Theorem py_disorder_run (s : sys Rnum) q b : q_ready s -> (2 <= q <= 12)%Z -> (forall a, In a (s_atoms s) -> 0 < q_dot q a a) ->
  (forall a, In a (s_atoms s) -> (length (a_nbrs a) <= length (s_atoms s))%nat) ->
  let l1 := map (with_disorder q (s_atoms s)) (s_atoms s) in
  py_calculate_disorder s b q = Ok (s <| s_atoms := if b : bool then map (with_avg l1) l1 else l1 |>).
Proof.
  intros Hr Hq Hp Hl l1. unfold py_calculate_disorder.
  assert (q_ok q = true) as -> by (unfold q_ok; apply andb_true_intro; split; [apply Z.leb_le|apply Z.ltb_lt]; lia).
  rewrite disorder_run; auto. cbn [bind]. destruct b; [|reflexivity].
  rewrite average_run; [reflexivity|..].
  - unfold stored. cbn. rewrite map_length. apply Hr.
  - cbn. intros a e Ha He. rewrite map_length. apply in_map_iff in Ha as (a0 & <- & Ha0). destruct Hr as [_ Hr].
    destruct (Hr a0 Ha0) as [_ X]. now apply X.
Qed.
