(** Proofs about the container operations. *)
From Coq Require Import Lia ZArith List Reals Lra FinFun.
From Verif Require Import Base Num NumR Types M_Geometry M_Container S_Geometry S_Container P_Geometry P_Box Ex.
Close Scope R_scope.
Set Implicit Arguments.
Unset Strict Implicit.

Section Gen.
Variable N : num.
Implicit Types (s : sys N).

Lemma mapM_get_all {A} (l : list A) : mapM (fun i => get l i) (seq 0 (length l)) = Ok l.
Proof.
  enough (H : forall pre suf, l = pre ++ suf ->
            mapM (fun i => get l i) (seq (length pre) (length suf)) = Ok suf).
  { apply (H [] l). reflexivity. }
  intros pre suf. revert pre. induction suf as [|a suf IH]; intros pre E; [reflexivity|].
  cbn [length seq mapM]. unfold get at 1. rewrite E, nth_error_app2, Nat.sub_diag by lia.
  cbn. rewrite <- E. specialize (IH (pre ++ [a])). rewrite app_length in IH. cbn in IH.
  replace (length pre + 1) with (S (length pre)) in IH by lia.
  rewrite IH; [reflexivity|]. rewrite <- app_assoc. exact E.
Qed.

Lemma mapM_get_prefix {A} (l l' : list A) :
  mapM (fun i => get (l ++ l') i) (seq 0 (length l)) = Ok l.
Proof.
  rewrite <- (mapM_get_all l).
  enough (H : forall is, (forall i, In i is -> i < length l) ->
     mapM (fun i => get (l ++ l') i) is = mapM (fun i => get l i) is).
  { apply H. intros i Hi. apply in_seq in Hi. lia. }
  induction is as [|i is IH]; intros H; [reflexivity|]. cbn.
  replace (get (l ++ l') i) with (get l i).
  - rewrite IH; [reflexivity|]. intros; apply H; right; assumption.
  - unfold get. rewrite nth_error_app1; [reflexivity|]. apply H; left; reflexivity.
Qed.

Lemma filter_all {A} (f : A -> bool) l : (forall a, In a l -> f a = true) -> filter f l = l.
Proof.
  induction l as [|a l IH]; intros H; [reflexivity|]. cbn.
  rewrite (H a) by (left; reflexivity). f_equal. apply IH. intros; apply H; right; assumption.
Qed.
Lemma filter_none {A} (f : A -> bool) l : (forall a, In a l -> f a = false) -> filter f l = [].
Proof.
  induction l as [|a l IH]; intros H; [reflexivity|]. cbn.
  rewrite (H a) by (left; reflexivity). apply IH. intros; apply H; right; assumption.
Qed.

Lemma all_real_is_real (l : list (atom N)) : all_real l -> forall a, In a l -> is_real a = true.
Proof. intros H a Ha. unfold is_real. rewrite (H a Ha). reflexivity. Qed.
Lemma ghosts_not_real (l : list (atom N)) : (forall a, In a l -> a_ghost a <> 0%Z) ->
  forall a, In a l -> is_real a = false.
Proof. intros H a Ha. unfold is_real. apply Z.eqb_neq. auto. Qed.

Lemma count_real_split (reals ghosts : list (atom N)) :
  all_real reals -> (forall a, In a ghosts -> a_ghost a <> 0%Z) ->
  count_real (reals ++ ghosts) = Z.of_nat (length reals) /\
  count_ghost (reals ++ ghosts) = Z.of_nat (length ghosts).
Proof.
  intros Hr Hg. unfold count_real, count_ghost.
  pose proof (all_real_is_real Hr) as R1. pose proof (ghosts_not_real Hg) as G1.
  rewrite !filter_app.
  rewrite (filter_all (f:=@is_real N) (l:=reals)) by assumption.
  rewrite (filter_none (f:=@is_real N) (l:=ghosts)) by assumption.
  rewrite (filter_none (f:=fun a => negb (is_real a)) (l:=reals)).
  2:{ intros a Ha. rewrite R1 by assumption. reflexivity. }
  rewrite (filter_all (f:=fun a => negb (is_real a)) (l:=ghosts)).
  2:{ intros a Ha. rewrite G1 by assumption. reflexivity. }
  rewrite app_nil_r. cbn. auto.
Qed.

Lemma set_atoms_counters s reals ghosts :
  all_real reals -> (forall a, In a ghosts -> a_ghost a <> 0%Z) ->
  counters_ok (set_atoms s (reals ++ ghosts)) /\
  get_atoms (set_atoms s (reals ++ ghosts)) = Ok reals.
Proof.
  intros Hr Hg. destruct (count_real_split Hr Hg) as [E1 E2]. split.
  - exists reals, ghosts. unfold set_atoms; cbn.
    repeat split; auto. rewrite app_length, E1, E2. lia.
  - unfold get_atoms, set_atoms; cbn. rewrite E1, Nat2Z.id. apply mapM_get_prefix.
Qed.

Lemma counters_get_atoms s : counters_ok s ->
  exists reals ghosts, s_atoms s = reals ++ ghosts /\ get_atoms s = Ok reals /\ all_real reals /\
    (forall a, In a ghosts -> a_ghost a <> 0%Z) /\
    get_all_atoms s = Ok (s_atoms s).
Proof.
  intros [r [g [Ha [Hr [Hg [E1 [E2 E3]]]]]]]. exists r, g. split; [assumption|].
  unfold get_atoms, get_all_atoms. rewrite E3, E1, E2, Ha.
  replace (Z.to_nat (Z.of_nat (length r) + Z.of_nat (length g))) with (length (r ++ g))
    by (rewrite app_length; lia).
  rewrite Nat2Z.id. rewrite mapM_get_prefix, mapM_get_all. auto.
Qed.

Lemma add_atoms_counters s l s' :
  counters_ok s -> (s_ghost s <> 0%Z \/ all_real l) ->
  add_atoms s l = Ok s' ->
  counters_ok s' /\
  (forall reals, get_atoms s = Ok reals ->
     get_atoms s' = Ok (reals ++ filter (@is_real N) l)).
Proof.
  intros Hc Hcase Hadd.
  destruct (counters_get_atoms Hc) as [r0 [g0 [Ea0 [Eg0 [Hr0 [Hg0 Eall]]]]]].
  destruct Hc as [r [g [Ea [Hr [Hg [E1 [E2 E3]]]]]]].
  assert (r0 = r).
  { pose proof Eg0 as Q. unfold get_atoms in Q. rewrite E1, Nat2Z.id, Ea, mapM_get_prefix in Q. congruence. }
  subst r0. assert (g0 = g) by (rewrite Ea in Ea0; apply app_inv_head in Ea0; congruence). subst g0.
  set (lr := filter (@is_real N) l). set (lg := filter (fun a => negb (is_real a)) l).
  assert (Hlr : all_real lr).
  { intros a H. apply filter_In in H. destruct H as [_ H]. unfold is_real in H. apply Z.eqb_eq in H. assumption. }
  assert (Hlg : forall a, In a lg -> a_ghost a <> 0%Z).
  { intros a H. apply filter_In in H. destruct H as [_ H]. unfold is_real in H.
    apply negb_true_iff, Z.eqb_neq in H. assumption. }
  assert (Hlen : length l = length lr + length lg).
  { unfold lr, lg. clear. induction l as [|a l IH]; [reflexivity|]. cbn. destruct (is_real a); cbn; lia. }
  assert (Goal' : s_atoms s' = (r ++ lr) ++ (g ++ lg) /\
     s_ghost s' = (s_ghost s + count_ghost l)%Z /\ s_real s' = (s_real s + count_real l)%Z /\
     s_nop s' = (s_nop s + Z.of_nat (length l))%Z).
  { unfold add_atoms in Hadd.
    destruct (Z.eqb_spec (s_ghost s) 0) as [E0|E0].
    - assert (g = []) by (destruct g; [reflexivity|cbn in E2; lia]). subst g.
      assert (Hl : lg = []).
      { destruct Hcase as [Hc|Hc]; [contradiction|]. unfold lg. apply filter_none.
        intros a H. rewrite (all_real_is_real Hc) by assumption. reflexivity. }
      assert (CG : count_ghost l = 0%Z) by (unfold count_ghost; fold lg; rewrite Hl; reflexivity).
      rewrite CG in Hadd. cbn in Hadd. inversion Hadd; subst s'; cbn.
      assert (Hll : lr = l).
      { destruct Hcase as [Hc|Hc]; [contradiction|]. apply filter_all, all_real_is_real, Hc. }
      rewrite Hl, Hll, Ea, CG, !app_nil_r. auto.
    - destruct (Z.ltb_spec 0 (s_ghost s)) as [E4|E4]; [|lia].
      rewrite Eall in Hadd. cbn [bind] in Hadd. rewrite Ea in Hadd.
      rewrite !filter_app in Hadd.
      rewrite (filter_all (f:=@is_real N) (l:=r)) in Hadd by (apply all_real_is_real; assumption).
      rewrite (filter_none (f:=@is_real N) (l:=g)) in Hadd by (apply ghosts_not_real; assumption).
      rewrite (filter_none (f:=fun a => negb (is_real a)) (l:=r)) in Hadd.
      2:{ intros a H. rewrite (all_real_is_real Hr) by assumption. reflexivity. }
      rewrite (filter_all (f:=fun a => negb (is_real a)) (l:=g)) in Hadd.
      2:{ intros a H. rewrite (ghosts_not_real Hg) by assumption. reflexivity. }
      rewrite app_nil_r in Hadd. cbn [app] in Hadd. inversion Hadd; subst s'; cbn. auto. }
  destruct Goal' as [G1 [G2 [G3 G4]]]. split.
  - exists (r ++ lr), (g ++ lg). split; [assumption|]. split.
    { intros a H. apply in_app_or in H. destruct H; auto. }
    split. { intros a H. apply in_app_or in H. destruct H; auto. }
    rewrite G2, G3, G4, E3, E1, E2, !app_length. unfold count_ghost, count_real.
    fold lr lg. rewrite Hlen. lia.
  - intros reals H. rewrite Eg0 in H. inversion H; subst reals.
    unfold get_atoms. rewrite G1, G3, E1. unfold count_real. fold lr.
    replace (Z.to_nat (Z.of_nat (length r) + Z.of_nat (length lr))) with (length (r ++ lr))
      by (rewrite app_length; lia).
    apply mapM_get_prefix.
Qed.

(** ** Repetition *)
Variable raw : Z -> atom N.
Variable inv : m3 N -> option (m3 N).

Lemma In_zrange lo hi x : In x (zrange lo hi) <-> (lo <= x < hi)%Z.
Proof.
  unfold zrange. rewrite in_map_iff. split.
  - intros [k [E H]]. apply in_seq in H. lia.
  - intros H. exists (Z.to_nat (x - lo)). split; [lia|]. apply in_seq. lia.
Qed.

Lemma NoDup_zrange lo hi : NoDup (zrange lo hi).
Proof.
  unfold zrange. apply FinFun.Injective_map_NoDup; [|apply seq_NoDup].
  intros a b E. lia.
Qed.

Lemma In_shifts rx ry rz i j k :
  In (i, j, k) (shifts rx ry rz) <->
  (- rx <= i <= rx)%Z /\ (- ry <= j <= ry)%Z /\ (- rz <= k <= rz)%Z /\ (i, j, k) <> (0, 0, 0)%Z.
Proof.
  unfold shifts. rewrite filter_In, in_flat_map. split.
  - intros [[i' [Hi H]] Hne]. apply in_flat_map in H. destruct H as [j' [Hj H]].
    apply in_map_iff in H. destruct H as [k' [E Hk]]. inversion E; subst.
    apply In_zrange in Hi. apply In_zrange in Hj. apply In_zrange in Hk.
    repeat split; try lia. intros X. inversion X; subst. discriminate.
  - intros [Hi [Hj [Hk Hne]]]. split.
    + exists i. split; [apply In_zrange; lia|]. apply in_flat_map. exists j.
      split; [apply In_zrange; lia|]. apply in_map_iff. exists k. split; [reflexivity|]. apply In_zrange; lia.
    + destruct (Z.eqb_spec i 0), (Z.eqb_spec j 0), (Z.eqb_spec k 0); subst; cbn; auto.
Qed.

Lemma NoDup_app_intro {A} (l1 l2 : list A) :
  NoDup l1 -> NoDup l2 -> (forall x, In x l1 -> ~ In x l2) -> NoDup (l1 ++ l2).
Proof.
  induction l1 as [|a l1 IH]; intros H1 H2 H; [assumption|]. cbn.
  inversion H1; subst. constructor.
  - rewrite in_app_iff. intros [X|X]; [contradiction|]. apply (H a); [left; reflexivity|assumption].
  - apply IH; auto. intros x Hx. apply H. right; assumption.
Qed.

Lemma NoDup_flat_map {A B} (f : A -> list B) l :
  NoDup l -> (forall a, In a l -> NoDup (f a)) ->
  (forall a a' x, In a l -> In a' l -> In x (f a) -> In x (f a') -> a = a') ->
  NoDup (flat_map f l).
Proof.
  induction l as [|a l IH]; intros Hl Hf Hd; [constructor|]. cbn. inversion Hl; subst.
  apply NoDup_app_intro.
  - apply Hf; left; reflexivity.
  - apply IH; auto.
    + intros; apply Hf; right; assumption.
    + intros a1 a2 x I1 I2; apply Hd; right; assumption.
  - intros x Hx Hy. apply in_flat_map in Hy. destruct Hy as [a' [Ha' Hx']].
    assert (a = a') by (apply (Hd a a' x); auto; [left; reflexivity | right; assumption]). subst. contradiction.
Qed.

Lemma NoDup_shifts rx ry rz : NoDup (shifts rx ry rz).
Proof.
  unfold shifts. apply NoDup_filter. apply NoDup_flat_map; [apply NoDup_zrange| |].
  - intros i _. apply NoDup_flat_map; [apply NoDup_zrange| |].
    + intros j _. apply FinFun.Injective_map_NoDup; [|apply NoDup_zrange]. intros a b E. congruence.
    + intros j j' x _ _ H1 H2. apply in_map_iff in H1, H2. destruct H1 as [? [? ?]], H2 as [? [? ?]]. congruence.
  - intros i i' x _ _ H1 H2. apply in_flat_map in H1, H2.
    destruct H1 as [? [? H1]], H2 as [? [? H2]].
    apply in_map_iff in H1, H2. destruct H1 as [? [? ?]], H2 as [? [? ?]]. congruence.
Qed.

(** The number of shifts. *)
Lemma length_zrange lo hi : length (zrange lo hi) = Z.to_nat (hi - lo).
Proof. unfold zrange. rewrite map_length, seq_length. reflexivity. Qed.

Lemma flat_map_const_length {A B} (f : A -> list B) l c :
  (forall a, In a l -> length (f a) = c) -> length (flat_map f l) = length l * c.
Proof.
  induction l as [|a l IH]; intros H; [reflexivity|]. cbn. rewrite app_length, IH, H; auto.
  - left; reflexivity.
  - intros; apply H; right; assumption.
Qed.

Definition box_keys (rx ry rz : Z) : list (Z * Z * Z) :=
  flat_map (fun i => flat_map (fun j => map (fun k => (i, j, k))
       (zrange (- rz) (rz + 1))) (zrange (- ry) (ry + 1))) (zrange (- rx) (rx + 1)).

Lemma length_box_keys rx ry rz : (0 <= rx -> 0 <= ry -> 0 <= rz ->
  Z.of_nat (length (box_keys rx ry rz)) = (2 * rx + 1) * (2 * ry + 1) * (2 * rz + 1))%Z.
Proof.
  intros. unfold box_keys.
  rewrite (flat_map_const_length (c := Z.to_nat (2 * ry + 1) * Z.to_nat (2 * rz + 1))).
  - rewrite length_zrange, !Nat2Z.inj_mul. lia.
  - intros i _. rewrite (flat_map_const_length (c := Z.to_nat (2 * rz + 1))).
    + rewrite length_zrange. f_equal; f_equal; lia.
    + intros j _. rewrite map_length, length_zrange. f_equal. lia.
Qed.

Lemma remove_one_length {A} (f : A -> bool) (l : list A) x :
  NoDup l -> In x l -> f x = false -> (forall y, In y l -> y <> x -> f y = true) ->
  length l = S (length (filter f l)).
Proof.
  intros Hn Hx Hf Ho. induction l as [|a l IH]; [contradiction|]. inversion Hn; subst.
  destruct Hx as [->|Hx].
  - cbn. rewrite Hf. rewrite filter_all; [reflexivity|].
    intros y Hy. apply Ho; [right; assumption|]. intros ->. contradiction.
  - cbn. rewrite (Ho a); [|left; reflexivity|intros ->; contradiction]. cbn. f_equal. apply IH; auto.
    intros; apply Ho; auto. right; assumption.
Qed.

Lemma length_shifts rx ry rz : (0 <= rx -> 0 <= ry -> 0 <= rz ->
  Z.of_nat (length (shifts rx ry rz)) = (2 * rx + 1) * (2 * ry + 1) * (2 * rz + 1) - 1)%Z.
Proof.
  intros. rewrite <- length_box_keys by assumption.
  rewrite (remove_one_length (l:=box_keys rx ry rz) (x:=(0,0,0)%Z)
    (f := fun t => let '(i, j, k) := t in negb (Z.eqb i 0 && Z.eqb j 0 && Z.eqb k 0))).
  - unfold shifts. fold (box_keys rx ry rz). lia.
  - unfold box_keys. apply NoDup_flat_map; [apply NoDup_zrange| |].
    + intros i _. apply NoDup_flat_map; [apply NoDup_zrange| |].
      * intros j _. apply FinFun.Injective_map_NoDup; [|apply NoDup_zrange]. intros a b E. congruence.
      * intros j j' x _ _ H3 H2. apply in_map_iff in H3, H2. destruct H3 as [? [? ?]], H2 as [? [? ?]]. congruence.
    + intros i i' x _ _ H3 H2. apply in_flat_map in H3, H2.
      destruct H3 as [? [? H3]], H2 as [? [? H2]].
      apply in_map_iff in H3, H2. destruct H3 as [? [? ?]], H2 as [? [? ?]]. congruence.
  - unfold box_keys. apply in_flat_map. exists 0%Z. split; [apply In_zrange; lia|].
    apply in_flat_map. exists 0%Z. split; [apply In_zrange; lia|].
    apply in_map_iff. exists 0%Z. split; [reflexivity|apply In_zrange; lia].
  - reflexivity.
  - intros [[i j] k] _ Hne. destruct (Z.eqb_spec i 0), (Z.eqb_spec j 0), (Z.eqb_spec k 0); subst; cbn; auto.
Qed.

Lemma number_from_spec (b : m3 N) gh id ks :
  Forall2 (fun k g => g = copy_atom raw b gh (fst k) (a_id g) (snd k)) ks (number_from raw b gh id ks) /\
  map (@a_id N) (number_from raw b gh id ks) =
    map (fun i => (id + Z.of_nat i)%Z) (seq 0 (length (number_from raw b gh id ks))) /\
  length (number_from raw b gh id ks) = length ks.
Proof.
  revert id. induction ks as [|[t a] ks IH]; intros id; [cbn; auto|].
  destruct (IH (id + 1)%Z) as [H1 [H2 H3]]. cbn [number_from length].
  assert (I : a_id (copy_atom raw b gh t id a) = id) by (unfold copy_atom; destruct gh; reflexivity).
  split; [|split; [|congruence]].
  - constructor; [|assumption]. cbn [fst snd]. rewrite I. reflexivity.
  - cbn [map seq]. rewrite I, H2. f_equal; [lia|].
    rewrite <- seq_shift, map_map. apply map_ext. intros. lia.
Qed.

Definition keys_of (rx ry rz : Z) (n : nat) : list key :=
  flat_map (fun t => map (fun m => (t, m)) (seq 0 n)) (shifts rx ry rz).

Lemma Forall2_map_l {A B C} (f : A -> B) (R : B -> C -> Prop) l l' :
  Forall2 R (map f l) l' -> Forall2 (fun a c => R (f a) c) l l'.
Proof.
  revert l'. induction l as [|a l IH]; intros l' H; inversion H; subst; constructor; auto.
Qed.

Lemma Forall2_impl {A B} (R1 R2 : A -> B -> Prop) l l' :
  (forall a c, R1 a c -> R2 a c) -> Forall2 R1 l l' -> Forall2 R2 l l'.
Proof. intros H. induction 1; constructor; auto. Qed.

Lemma Forall2_nth {A B} (R : A -> B -> Prop) l l' :
  Forall2 R l l' -> Forall2 (fun a c => In a l /\ R a c) l l'.
Proof.
  induction 1; constructor.
  - split; [left; reflexivity|assumption].
  - eapply Forall2_impl; [|exact IHForall2]. intros a c [? ?]. split; [right; assumption|assumption].
Qed.

Lemma map_nth_seq {A} (l : list A) d : map (fun m => nth m l d) (seq 0 (length l)) = l.
Proof.
  induction l as [|a l IH]; [reflexivity|]. cbn. f_equal.
  rewrite <- seq_shift, map_map. exact IH.
Qed.

Lemma copies_spec (b : m3 N) gh rx ry rz (l : list (atom N)) :
  copies_of b rx ry rz l (copies raw b gh (rx, ry, rz) l) (if gh then 1 else 0)%Z
    (Z.of_nat (length l) + 1) /\
  length (copies raw b gh (rx, ry, rz) l) = length (shifts rx ry rz) * length l.
Proof.
  unfold copies. set (ks := flat_map _ _).
  destruct (number_from_spec b gh (Z.of_nat (length l) + 1) ks) as [H1 [H2 H3]].
  assert (Eks : forall d : atom N, ks = map (fun k => (fst k, nth (snd k) l d)) (keys_of rx ry rz (length l))).
  { clear H1 H2 H3. intros d. unfold ks, keys_of. clear ks. induction (shifts rx ry rz) as [|t ts IH]; [reflexivity|].
    cbn [flat_map]. rewrite map_app, <- IH. f_equal. rewrite map_map. cbn [fst snd]. clear.
    rewrite <- (map_map (fun m => nth m l d) (fun a => (t, a))).
    rewrite map_nth_seq. reflexivity. }
  split.
  - exists (keys_of rx ry rz (length l)). split; [|split; [|split]].
    + apply NoDup_flat_map; [apply NoDup_shifts| |].
      * intros t _. apply FinFun.Injective_map_NoDup; [|apply seq_NoDup]. intros a b' E. congruence.
      * intros t t' x _ _ A1 A2. apply in_map_iff in A1, A2. destruct A1 as [? [? ?]], A2 as [? [? ?]]. congruence.
    + intros [[[i j] k] m]. unfold keys_of, shift_ok. rewrite in_flat_map. split.
      * intros [t [Ht Hm]]. apply in_map_iff in Hm. destruct Hm as [m' [E Hm]]. inversion E; subst.
        apply In_shifts in Ht. apply in_seq in Hm. intuition lia.
      * intros [A1 [A2 [A3 [A4 A5]]]]. exists (i, j, k). split; [apply In_shifts; auto|].
        apply in_map_iff. exists m. split; [reflexivity|]. apply in_seq. lia.
    + destruct l as [|d l0].
      * assert (K1 : keys_of rx ry rz (length (@nil (atom N))) = []).
        { unfold keys_of. clear. cbn. induction (shifts rx ry rz); [reflexivity|assumption]. }
        assert (K2 : ks = []).
        { unfold ks. clear. cbn. induction (shifts rx ry rz); [reflexivity|assumption]. }
        rewrite K1, K2. constructor.
      * specialize (Eks d). rewrite Eks in H1 at 1. apply Forall2_map_l in H1.
        apply Forall2_nth in H1. eapply Forall2_impl; [|exact H1].
        intros [[[i j] k] m] g [Hin E]. cbn [fst snd] in E. unfold copy_rel.
        apply in_flat_map in Hin. destruct Hin as [t [_ Hm]]. apply in_map_iff in Hm.
        destruct Hm as [m' [Em Hm]]. inversion Em; subst. apply in_seq in Hm.
        exists (nth m (d :: l0) d). split; [apply nth_error_nth'; lia|].
        rewrite E. unfold copy_atom. destruct gh; cbn; repeat split.
    + exact H2.
  - rewrite H3. unfold ks. apply flat_map_const_length. intros; apply map_length.
Qed.

Lemma repeat_spec s rx ry rz (ol : option (list (atom N))) gh sc s' l' :
  repeat_cell inv raw s (rx, ry, rz) ol gh sc = Ok (s', l') ->
  exists l new,
    (match ol with Some x => l = x | None => get_atoms s = Ok l end) /\
    l' = l ++ new /\
    copies_of (box_get s) rx ry rz l new (if gh then 1 else 0)%Z (Z.of_nat (length l) + 1) /\
    length new = length (shifts rx ry rz) * length l /\
    (if sc then s_box s' = scale_box (box_get s) (rx, ry, rz) /\
                s_len s' = sbox_len (scale_box (box_get s) (rx, ry, rz))
     else s_box s' = s_box s /\ s_len s' = s_len s) /\
    box_get s' = box_get s /\ s_atoms s' = s_atoms s.
Proof.
  unfold repeat_cell. intros H.
  assert (X : exists l, (match ol with Some x => l = x | None => get_atoms s = Ok l end) /\
    (match ol with Some l => Ok l | None => get_atoms (s <| s_actual := Some (box_get s) |>) end) = Ok l).
  { destruct ol as [x|]; [exists x; auto|].
    change (get_atoms (s <| s_actual := Some (box_get s) |>)) with (get_atoms s) in *.
    destruct (get_atoms s) as [x|e]; [exists x; auto|discriminate]. }
  destruct X as [l [Hl E]]. rewrite E in H. cbn [bind] in H.
  exists l, (copies raw (box_get s) gh (rx, ry, rz) l). split; [assumption|].
  destruct (copies_spec (box_get s) gh rx ry rz l) as [C1 C2].
  assert (X : exists s2, (if sc then box_set inv (s <| s_actual := Some (box_get s) |>)
      (scale_box (box_get s) (rx, ry, rz)) else Ok (s <| s_actual := Some (box_get s) |>)) = Ok s2 /\
     (if sc then s_box s2 = scale_box (box_get s) (rx, ry, rz) /\
                s_len s2 = sbox_len (scale_box (box_get s) (rx, ry, rz))
      else s_box s2 = s_box s /\ s_len s2 = s_len s) /\ s_actual s2 = Some (box_get s) /\ s_atoms s2 = s_atoms s).
  { destruct sc.
    - unfold box_set in *. destruct (nltb _ _).
      + destruct (inv _) as [ri|]; [|discriminate]. eexists. split; [reflexivity|]. cbn. auto.
      + eexists. split; [reflexivity|]. cbn. auto.
    - eexists. split; [reflexivity|]. cbn. auto. }
  destruct X as [s2 [E2 [B2 [A2 T2]]]]. rewrite E2 in H. cbn [bind] in H. inversion H; subst s' l'.
  split; [reflexivity|]. split; [exact C1|]. split; [exact C2|].
  split; [destruct gh, sc; exact B2|].
  split; [destruct gh; unfold box_get; cbn; rewrite A2; reflexivity|destruct gh; exact T2].
Qed.

Lemma atoms_set_spec s l s' :
  all_real l -> atoms_set inv raw s l = Ok s' ->
  exists ghosts, s_atoms s' = l ++ ghosts /\ get_atoms s' = Ok l /\ counters_ok s' /\
    s_real s' = Z.of_nat (length l) /\ s_nop s' = Z.of_nat (length (s_atoms s')) /\
    box_get s' = box_get s /\
    if (Z.of_nat (length l) <? 200)%Z then
      let r := small_reps (Z.of_nat (length l)) in
      length ghosts = length (shifts r r r) * length l /\
      copies_of (box_get s) r r r l ghosts 1 (Z.of_nat (length l) + 1)
    else ghosts = [].
Proof.
  intros Hr H. unfold atoms_set in H.
  destruct (Z.of_nat (length l) <? 200)%Z eqn:E200.
  - destruct (Z.eqb_spec (Z.of_nat (length l)) 0) as [E0|E0]; [discriminate|].
    destruct (neqb _ _); [discriminate|].
    set (r := small_reps (Z.of_nat (length l))) in *.
    destruct (repeat_cell inv raw s (r, r, r) (Some l) true true) as [[s1 l1]|e] eqn:R; [|discriminate].
    cbn [bind] in H. inversion H; subst s'. clear H.
    destruct (repeat_spec R) as [l0 [new [Hl0 [El1 [C [Ln [_ [Hb _]]]]]]]]. subst l0 l1.
    assert (Hg : forall a, In a new -> a_ghost a <> 0%Z).
    { destruct C as [ks [_ [_ [F _]]]]. intros a Ha.
      assert (G : exists k, copy_rel (box_get s) l 1 k a).
      { clear -F Ha. induction F as [|k g ks gs Hk F IH]; [contradiction|].
        destruct Ha as [->|Ha]; [exists k; assumption|auto]. }
      destruct G as [[[[i j] k] m] [a' [_ [_ [_ G]]]]]. rewrite G. discriminate. }
    destruct (set_atoms_counters s1 Hr Hg) as [S1 S2].
    exists new. split; [reflexivity|]. split; [exact S2|]. split; [exact S1|].
    destruct (count_real_split Hr Hg) as [K1 K2].
    split; [exact K1|]. split; [reflexivity|]. split; [exact Hb|]. split; [exact Ln|exact C].
  - inversion H; subst s'. exists [].
    assert (Hg : forall a, In a (@nil (atom N)) -> a_ghost a <> 0%Z) by (intros a []).
    pose proof (set_atoms_counters s Hr Hg) as [S1 S2]. rewrite app_nil_r in S1, S2.
    destruct (count_real_split Hr Hg) as [K1 K2]. rewrite app_nil_r in K1.
    split; [cbn; rewrite app_nil_r; reflexivity|]. split; [exact S2|]. split; [exact S1|].
    split; [exact K1|]. split; [reflexivity|]. split; reflexivity.
Qed.

Lemma atoms_set_ok s l :
  l <> [] -> neqb (box_sum (box_get s)) n0 = false -> (forall m, inv m <> None) ->
  exists s', atoms_set inv raw s l = Ok s'.
Proof.
  intros Hl Hb Hi. unfold atoms_set. destruct (_ <? 200)%Z; [|eexists; reflexivity].
  destruct (Z.eqb_spec (Z.of_nat (length l)) 0) as [E|_]; [destruct l; [congruence|discriminate]|].
  rewrite Hb. unfold repeat_cell. cbn [bind].
  unfold box_set. destruct (nltb _ _); [|eexists; reflexivity].
  destruct (inv _) eqn:E; [eexists; reflexivity|]. destruct (Hi _ E).
Qed.

(** The padding reaches 200 atoms: all 199 sizes. *)
Lemma small_reps_enough : forall n, (1 <= n < 200)%Z ->
  (1 <= small_reps n)%Z /\ (200 <= n * (2 * small_reps n + 1) ^ 3)%Z.
Proof.
  intros n Hn.
  assert (B : forallb (fun n => ((1 <=? small_reps n) && (200 <=? n * (2 * small_reps n + 1) ^ 3))%Z)
               (zrange 1 200) = true) by (vm_compute; reflexivity).
  rewrite forallb_forall in B. specialize (B n). rewrite In_zrange in B.
  specialize (B ltac:(lia)). apply andb_true_iff in B. destruct B as [B1 B2].
  apply Z.leb_le in B1, B2. auto.
Qed.

(** ** get_atom / set_atom *)
Lemma upd_same {A} (l : list A) i a : nth_error l i = Some a -> upd i (fun _ => a) l = l.
Proof.
  revert i. induction l as [|b l IH]; intros [|i] H; cbn in *; try discriminate.
  - congruence.
  - f_equal. auto.
Qed.

Lemma set_get_atom s i a :
  get_atom s i = Ok a -> a_loc a = i -> set_atom s a = Ok s.
Proof.
  unfold get_atom, set_atom. destruct (Z.ltb_spec i 0); [discriminate|]. unfold get.
  destruct (nth_error (s_atoms s) (Z.to_nat i)) as [x|] eqn:E; [|discriminate].
  intros H1 H2. inversion H1; subst x. rewrite H2. destruct (Z.ltb_spec i 0); [lia|].
  unfold put. assert (Z.to_nat i < length (s_atoms s)) by (apply nth_error_Some; congruence).
  destruct (Nat.ltb_spec (Z.to_nat i) (length (s_atoms s))); [|lia]. cbn [bind].
  rewrite upd_same by assumption. destruct s; reflexivity.
Qed.

(** ** Duplicate removal *)
Lemma In_pairs n i j : In (i, j) (pairs n) <-> i < j < n.
Proof.
  unfold pairs, pairs_from. rewrite in_flat_map. split.
  - intros [x [Hx H]]. apply in_seq in Hx. apply in_map_iff in H. destruct H as [y [E H]].
    inversion E; subst. apply in_seq in H. lia.
  - intros H. exists i. split; [apply in_seq; lia|]. apply in_map_iff. exists j.
    split; [reflexivity|]. apply in_seq. lia.
Qed.

Lemma dup_indices_In s dtol l i :
  In i (dup_indices s dtol l) <->
  exists j a b, i < j /\ nth_error l i = Some a /\ nth_error l j = Some b /\
    nleb (abs_distance s (a_pos a) (a_pos b)) dtol = true.
Proof.
  unfold dup_indices. rewrite in_flat_map. split.
  - intros [[i' j] [Hp H]]. apply In_pairs in Hp. cbn [fst snd] in H.
    destruct (nth_error l i') as [a|] eqn:Ea; [|contradiction].
    destruct (nth_error l j) as [b|] eqn:Eb; [|contradiction].
    destruct (nleb _ _) eqn:El; [|contradiction]. destruct H as [<-|[]].
    exists j, a, b. repeat split; auto. lia.
  - intros [j [a [b [Hlt [Ha [Hb Hle]]]]]]. exists (i, j). split.
    + apply In_pairs. assert (j < length l) by (apply nth_error_Some; congruence). lia.
    + cbn. rewrite Ha, Hb, Hle. left; reflexivity.
Qed.

(** The kept indices, and the list they select. *)
Definition kept (bad : list nat) (n : nat) : list nat :=
  filter (fun i => negb (existsb (Nat.eqb i) bad)) (seq 0 n).

Lemma combine_seq_filter {A} (f : nat -> bool) (l : list A) k (d : A) :
  map snd (filter (fun p => f (fst p)) (combine (seq k (length l)) l)) =
  map (fun i => nth (i - k) l d) (filter f (seq k (length l))).
Proof.
  revert k. induction l as [|a l IH]; intros k; [reflexivity|].
  cbn [length seq combine filter fst].
  destruct (f k); cbn [map snd]; rewrite IH.
  - f_equal; [rewrite Nat.sub_diag; reflexivity|]. apply map_ext_in. intros i Hi.
    apply filter_In in Hi. destruct Hi as [Hi _]. apply in_seq in Hi.
    replace (i - k) with (S (i - S k)) by lia. reflexivity.
  - apply map_ext_in. intros i Hi. apply filter_In in Hi. destruct Hi as [Hi _]. apply in_seq in Hi.
    replace (i - k) with (S (i - S k)) by lia. reflexivity.
Qed.

Lemma drop_indices_spec bad (l : list (atom N)) d :
  drop_indices bad l = map (fun i => nth i l d) (kept bad (length l)).
Proof.
  unfold drop_indices, kept.
  rewrite (combine_seq_filter (fun i => negb (existsb (Nat.eqb i) bad)) l 0 d).
  apply map_ext. intros. rewrite Nat.sub_0_r. reflexivity.
Qed.

Lemma In_kept bad n i : In i (kept bad n) <-> i < n /\ ~ In i bad.
Proof.
  unfold kept. rewrite filter_In, in_seq. rewrite negb_true_iff.
  assert (existsb (Nat.eqb i) bad = false <-> ~ In i bad).
  { rewrite <- not_true_iff_false, existsb_exists. split.
    - intros H X. apply H. exists i. rewrite Nat.eqb_refl. auto.
    - intros H [x [Hx E]]. apply Nat.eqb_eq in E. subst. contradiction. }
  intuition lia.
Qed.

Lemma nth_error_map_inv {A B} (f : A -> B) l i y :
  nth_error (map f l) i = Some y -> exists x, nth_error l i = Some x /\ y = f x.
Proof.
  revert i. induction l as [|a l IH]; intros [|i] H; cbn in *; try discriminate.
  - exists a. split; congruence.
  - apply IH; assumption.
Qed.

Lemma subseq_kept {A} (f : nat -> bool) (l : list A) d k :
  subseq (map (fun i => nth (i - k) l d) (filter f (seq k (length l)))) l.
Proof.
  revert k. induction l as [|a l IH]; intros k; [constructor|].
  cbn [length seq filter].
  assert (E : map (fun i => nth (i - k) (a :: l) d) (filter f (seq (S k) (length l))) =
              map (fun i => nth (i - S k) l d) (filter f (seq (S k) (length l)))).
  { apply map_ext_in. intros i Hi. apply filter_In in Hi. destruct Hi as [Hi _]. apply in_seq in Hi.
    replace (i - k) with (S (i - S k)) by lia. reflexivity. }
  destruct (f k); cbn [map]; rewrite E.
  - rewrite Nat.sub_diag. apply sub_keep, IH.
  - apply sub_skip, IH.
Qed.

Lemma StronglySorted_kept bad n : forall i j x y,
  nth_error (kept bad n) i = Some x -> nth_error (kept bad n) j = Some y -> i < j -> x < y.
Proof.
  unfold kept. generalize 0 as k. induction n as [|n IH]; intros k i j x y H1 H2 Hlt.
  - destruct i; discriminate.
  - cbn [seq filter] in H1, H2. destruct (negb _).
    + destruct j as [|j]; [lia|]. cbn in H2. destruct i as [|i].
      * cbn in H1. inversion H1; subst. apply nth_error_In in H2. apply filter_In in H2.
        destruct H2 as [H2 _]. apply in_seq in H2. lia.
      * cbn in H1. apply (IH (S k) i j); auto. lia.
    + apply (IH (S k) i j); auto.
Qed.

End Gen.
