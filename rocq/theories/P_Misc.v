(** Proofs about misc.py. *)
From Coq Require Import Reals Lra ZArith List Lia Sorted Permutation Ascii String.
From Verif Require Import Base Num NumR Types M_Geometry M_Container M_Neighbors M_Analysis M_Voro M_Text M_Lammps M_Formats M_Misc
  S_Voro S_Formats S_Misc P_Analysis P_Text P_Ase P_Voro.
Import ListNotations.
Set Implicit Arguments.
Close Scope R_scope. Close Scope Z_scope. Close Scope string_scope.
#[local] Open Scope nat_scope.
#[local] Open Scope list_scope.

(** ** A loop that appends to its result *)
Lemma kept_run A B (f : A -> res (list B)) (P : nat -> Prop) (r : nat -> B -> Prop) : forall l k,
  (forall i a, nth_error l i = Some a -> (P (k + i) /\ exists b, f a = Ok [b] /\ r (k + i) b) \/ (~ P (k + i) /\ f a = Ok [])) ->
  exists outs ks, mapM f l = Ok outs /\ kept P (seq k (length l)) ks /\ Forall2 r ks (concat outs).
Proof.
  induction l as [|a l IH]; intros k H; [exists [], []; repeat split; constructor|].
  destruct (IH (S k)) as (outs & ks & E & K & F).
  { intros i b Hb. specialize (H (S i) b Hb). rewrite <- Nat.add_succ_comm in H. exact H. }
  cbn [mapM length seq]. destruct (H 0 a eq_refl) as [(HP & b & E' & Hr)|(HP & E')]; rewrite Nat.add_0_r in *; rewrite E'; cbn [bind]; rewrite E; cbn [bind].
  - exists ([b] :: outs), (k :: ks). repeat split; [constructor; assumption|]. cbn [concat app]. constructor; assumption.
  - exists ([] :: outs), ks. repeat split; [constructor; assumption|exact F].
Qed.
Lemma mapM_all A B (f : A -> res B) (g : A -> B) : forall l, (forall a, In a l -> f a = Ok (g a)) -> mapM f l = Ok (map g l).
Proof.
  induction l as [|a l IH]; intros H; [reflexivity|]. cbn [mapM map]. rewrite (H a (or_introl eq_refl)). cbn [bind]. rewrite IH; [reflexivity|].
  intros x Hx. apply H. right. exact Hx.
Qed.

(** ** Nearest neighbours *)
Lemma unique_nats (near : list nat) : let ns := map Z.to_nat (map fst (np_unique (map Z.of_nat near))) in
  NoDup ns /\ forall x, In x ns <-> In x near.
Proof.
  cbv zeta. destruct (unique_spec (map Z.of_nat near)) as [S _]. unfold sorted_keys in S.
  assert (K := unique_keys (map Z.of_nat near)). set (zs := map fst (np_unique (map Z.of_nat near))) in *. clearbody zs.
  assert (P : forall z, In z zs -> (0 <= z)%Z). { intros z Hz. apply K, in_map_iff in Hz as (x & <- & _). lia. }
  split.
  - clear K. induction zs as [|z zs IH]; [constructor|]. cbn [map]. inversion S as [|? ? S1 S2]; subst. constructor.
    + intros H. apply in_map_iff in H as (y & E & Hy). rewrite Forall_forall in S2. specialize (S2 y Hy).
      assert (0 <= y)%Z by (apply P; right; exact Hy). assert (0 <= z)%Z by (apply P; left; reflexivity). lia.
    + apply IH; [exact S1|]. intros y Hy. apply P. right. exact Hy.
  - intros x. rewrite in_map_iff. split.
    + intros (z & <- & Hz). apply K, in_map_iff in Hz as (y & <- & Hy). rewrite Nat2Z.id. exact Hy.
    + intros H. exists (Z.of_nat x). rewrite Nat2Z.id. split; [reflexivity|]. apply K. apply in_map, H.
Qed.
Lemma same_members_length A (l l' : list A) : NoDup l -> NoDup l' -> (forall x, In x l <-> In x l') -> length l = length l'.
Proof.
  intros N1 N2 H. apply Nat.le_antisymm; apply NoDup_incl_length; auto; intros x Hx; apply H, Hx.
Qed.
Lemma filter_map_length A B (g : A -> B) (p : B -> bool) l : length (filter p (map g l)) = length (filter (fun x => p (g x)) l).
Proof. induction l as [|x l IH]; [reflexivity|]. cbn [map filter]. destruct (p (g x)); cbn [length]; congruence. Qed.

Section Real.
Variable np_sort : list R -> list R.
Hypothesis sort_ok : forall l, Permutation (np_sort l) l /\ StronglySorted Rle (np_sort l).

Lemma sort_head l m r : np_sort l = m :: r -> In m l /\ forall x, In x l -> (m <= x)%R.
Proof.
  intros E. destruct (sort_ok l) as [P S]. rewrite E in *. split; [apply (Permutation_in _ P); left; reflexivity|].
  intros x Hx. apply (Permutation_in _ (Permutation_sym P)) in Hx. destruct Hx as [->|Hx]; [lra|]. inversion S as [|? ? _ F]; subst. rewrite Forall_forall in F. apply F, Hx.
Qed.

Lemma mindist_run (s : sys Rnum) atoms (precision : R) (a : atom Rnum) (D : nat -> R) :
  (forall x b, nth_error atoms x = Some b -> D x = abs_distance s (a_pos a) (a_pos b)) ->
  (forall b, In b (a_nbrs a) -> nb_idx b < length atoms) -> a_nbrs a <> [] ->
  exists c, mindistcount (N := Rnum) np_sort s atoms precision a = Ok c /\
    (c = 4 <-> four_nearest D (map nb_idx (a_nbrs a)) precision).
Proof.
  intros HD HN NE. unfold mindistcount. set (near := map nb_idx (a_nbrs a)).
  replace (map (fun b => Z.of_nat (nb_idx b)) (a_nbrs a)) with (map Z.of_nat near) by (unfold near; rewrite map_map; reflexivity).
  destruct (unique_nats near) as [ND IN]. set (zs := map fst (np_unique (map Z.of_nat near))) in *.
  assert (HB : forall x, In x near -> x < length atoms) by (intros x Hx; apply in_map_iff in Hx as (b & <- & Hb); apply HN, Hb).
  match goal with |- context [mapM ?f zs] => rewrite (@mapM_all _ _ f (fun x => D (Z.to_nat x))) end.
  2:{ intros z Hz. assert (L : Z.to_nat z < length atoms) by (apply HB, IN, in_map, Hz). unfold atom_at.
      destruct (nth_error atoms (Z.to_nat z)) as [b|] eqn:Eb; [|apply nth_error_None in Eb; lia]. cbn [bind]. rewrite (HD _ _ Eb). reflexivity. }
  cbn [bind]. rewrite <- (map_map Z.to_nat D). set (ns := map Z.to_nat zs) in *. clearbody ns.
  destruct (np_sort (map D ns)) as [|m r] eqn:E.
  { exfalso. destruct (sort_ok (map D ns)) as [P _]. rewrite E in P. apply Permutation_nil in P. destruct (a_nbrs a) as [|b bs] eqn:Eb; [congruence|].
    assert (H : In (nb_idx b) ns) by (apply IN; unfold near; left; reflexivity). apply (in_map D) in H. rewrite P in H. exact H. }
  apply sort_head in E as [M1 M2]. eexists. split; [reflexivity|]. rewrite filter_map_length.
  set (tst := fun x => if nleb (n := Rnum) (nmul m (nsub n1 precision)) (D x) then nleb (n := Rnum) (D x) (nmul m (nadd n1 precision)) else false).
  assert (T : forall x, tst x = true <-> (m * (1 - precision) <= D x <= m * (1 + precision))%R).
  { intros x. unfold tst, n1. cbn [nleb nmul nsub nadd nofZ Rnum]. unfold Rleb. destruct (Rle_dec _ _); [destruct (Rle_dec _ _)|]; split; intros; try discriminate; auto; tauto. }
  assert (M3 : forall x, In x near -> (m <= D x)%R) by (intros x Hx; apply M2, in_map, IN, Hx).
  apply in_map_iff in M1 as (x0 & E0 & X0).
  change (length (filter tst ns) = 4 <-> four_nearest D near precision). split.
  - intros L. exists m, (filter tst ns). split; [exists x0; split; [apply IN, X0|exact E0]|]. split; [exact M3|].
    split; [apply NoDup_filter, ND|]. split; [exact L|]. intros x. rewrite filter_In, IN, T. reflexivity.
  - intros (m' & ns' & (x1 & X1 & E1) & M' & ND' & L & IN'). assert (m' = m) as ->.
    { apply IN in X0. specialize (M' x0 X0). specialize (M3 x1 X1). lra. }
    rewrite <- L. apply same_members_length; [apply NoDup_filter, ND|exact ND'|]. intros x. rewrite filter_In, IN, T, IN'. reflexivity.
Qed.
End Real.

(** ** Tables of values *)
Lemma ins_value_spec (x : R) : forall u, StronglySorted Rlt (map fst u) ->
  let u' := ins_value (N := Rnum) x u in
  StronglySorted Rlt (map fst u') /\ (forall y, In y (map fst u') <-> y = x \/ In y (map fst u)) /\
  (forall y c, In (y, c) u' -> (y <> x /\ In (y, c) u) \/ (y = x /\ ((~ In x (map fst u) /\ c = 1%Z) \/ exists c0, In (x, c0) u /\ c = (c0 + 1)%Z))).
Proof.
  assert (E : forall a b : R, neqb (n := Rnum) a b = true <-> a = b) by (intros a b; cbn; unfold Reqb; destruct (Req_EM_T a b); split; intros; auto; discriminate).
  assert (LT : forall a b : R, nltb (n := Rnum) a b = true <-> (a < b)%R) by (intros a b; cbn; unfold Rltb; destruct (Rlt_dec a b); split; intros; auto; discriminate).
  induction u as [|[y c] u IH]; intros S; cbv zeta.
  - cbn [ins_value map fst]. split; [constructor; constructor|]. split; [intros z; cbn; intuition|]. intros z d [H|[]]. injection H as <- <-. right. split; [reflexivity|]. left. split; [auto|reflexivity].
  - cbn [map fst] in S. inversion S as [|? ? S1 S2]; subst. rewrite Forall_forall in S2. cbn [ins_value]. destruct (nltb (n := Rnum) x y) eqn:L.
    + apply LT in L. cbn [map fst]. split; [constructor; [exact S|]; constructor; [exact L|apply Forall_forall; intros z Hz; specialize (S2 z Hz); lra]|].
      split; [intros z; cbn; intuition|]. intros z d [H|H].
      * injection H as <- <-. right. split; [reflexivity|]. left. split; [|reflexivity]. intros [H|H]; [lra|specialize (S2 _ H); lra].
      * left. split; [|exact H]. intros ->. destruct H as [H|H]; [injection H as -> _; lra|apply (in_map fst) in H; specialize (S2 _ H); cbn in S2; lra].
    + destruct (neqb (n := Rnum) x y) eqn:Q.
      * apply E in Q. subst y. cbn [map fst]. split; [exact S|]. split; [intros z; cbn; intuition|]. intros z d [H|H].
        -- injection H as <- <-. right. split; [reflexivity|]. right. exists c. split; [left; reflexivity|reflexivity].
        -- left. split; [|right; exact H]. intros ->. apply (in_map fst) in H. specialize (S2 _ H). cbn in S2. lra.
      * assert (L' : (y < x)%R). { destruct (Rtotal_order x y) as [H|[H|H]]; [apply LT in H; congruence|apply E in H; congruence|exact H]. }
        destruct (IH S1) as (I1 & I2 & I3). cbn [map fst]. split.
        { constructor; [exact I1|]. apply Forall_forall. intros z Hz. apply I2 in Hz as [->|Hz]; [exact L'|apply S2, Hz]. }
        split; [intros z; cbn [In]; rewrite I2; intuition|]. intros z d [H|H].
        -- injection H as <- <-. left. split; [lra|left; reflexivity].
        -- destruct (I3 z d H) as [(N & H')|(-> & [(N & ->)|(c0 & H' & ->)])].
           ++ left. split; [exact N|right; exact H'].
           ++ right. split; [reflexivity|]. left. split; [|reflexivity]. intros [K|K]; [lra|contradiction].
           ++ right. split; [reflexivity|]. right. exists c0. split; [right; exact H'|reflexivity].
Qed.
Lemma unique_values_spec (l : list R) : tally l (unique_values (N := Rnum) l).
Proof.
  induction l as [|x l (I1 & I2 & I3)].
  - split; [constructor|]. split; [reflexivity|]. intros x c [].
  - change (unique_values (N := Rnum) (x :: l)) with (ins_value (N := Rnum) x (unique_values (N := Rnum) l)).
    destruct (ins_value_spec x _ I1) as (J1 & J2 & J3). split; [exact J1|]. split.
    + intros y. rewrite J2, I2. cbn. intuition.
    + intros y c H. destruct (J3 y c H) as [(N & H')|(-> & [(N & ->)|(c0 & H' & ->)])].
      * destruct (I3 y c H') as (n & -> & Hn). exists n. split; [reflexivity|]. apply such_no; [congruence|exact Hn].
      * exists 1. split; [reflexivity|]. constructor; [reflexivity|]. assert (N' : ~ In x l) by (rewrite <- I2; exact N).
        clear -N'. induction l as [|z l IH]; [constructor|]. apply such_no; [intros ->; apply N'; left; reflexivity|]. apply IH. intros H. apply N'. right. exact H.
      * destruct (I3 x c0 H') as (n & -> & Hn). exists (S n). split; [lia|]. constructor; [reflexivity|exact Hn].
Qed.
Lemma unique_values_total (N : num) (l : list N) : fold_right Z.add 0%Z (map snd (unique_values l)) = Z.of_nat (length l).
Proof.
  assert (G : forall (x : N) u, fold_right Z.add 0%Z (map snd (ins_value x u)) = (fold_right Z.add 0%Z (map snd u) + 1)%Z).
  { intros x. induction u as [|[y c] u IH]; [reflexivity|]. cbn [ins_value]. destruct (nltb x y); [cbn [map fold_right snd]; lia|].
    destruct (neqb x y); cbn [map fold_right snd]; [lia|]. rewrite IH. lia. }
  induction l as [|x l IH]; [reflexivity|]. change (unique_values (x :: l)) with (ins_value x (unique_values l)). rewrite G, IH. cbn [length]. lia.
Qed.

(** ** Fingerprints *)
Lemma words_end c t : is_space c = true -> words (t ++ [c]) = words t.
Proof.
  intros Hc. induction t as [|d t IH]; [cbn [app words]; rewrite Hc; reflexivity|]. cbn [app]. cbn [words]. destruct (is_space d); [exact IH|].
  destruct t as [|e t]; [cbn [app]; rewrite Hc; cbn [words]; rewrite Hc; reflexivity|]. cbn [app]. destruct (is_space e); [rewrite <- IH; reflexivity|]. change (e :: t ++ [c]) with ((e :: t) ++ [c]). rewrite IH. reflexivity.
Qed.
Lemma fingerprint_shows v : v <> [] -> shows v (fingerprint v).
Proof.
  intros NE. unfold shows, fingerprint. rewrite <- (@words_end nl) by reflexivity.
  change sp with (tx " "%string). rewrite words_join; [|apply Forall_forall; intros w Hw; apply in_map_iff in Hw as (z & <- & _); apply show_int_word|destruct v; [congruence|discriminate]|reflexivity].
  cbn [words]. rewrite app_nil_r. clear NE. induction v as [|z v IH]; [reflexivity|]. cbn [map mapM]. rewrite parse_show_int. cbn [bind]. rewrite IH. reflexivity.
Qed.
