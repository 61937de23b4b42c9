(** The Voronoi search of a triclinic system without ghosts (core.py:558-563)
    leaves the 26 surrounding copies of the cell behind. *)
From Coq Require Import Reals Lra ZArith Lia.
From Verif Require Import Base Num NumR Types M_Geometry M_Container M_Neighbors S_Geometry S_Container S_Neighbors
  P_Geometry P_Box P_Container P_Neighbors P_FindN P_History Ex.
Close Scope R_scope. Close Scope Z_scope.
Set Implicit Arguments.
Unset Strict Implicit.
#[local] Opaque abs_distance_ij.

Lemma bindOk {A B} (x : res A) (f : A -> res B) b : bind x f = Ok b -> exists a, x = Ok a /\ f a = Ok b.
Proof. destruct x; cbn; intros; [eauto|discriminate]. Qed.

Lemma F2_nth_r {A B} (R : A -> B -> Prop) l m i y : Forall2 R l m -> nth_error m i = Some y ->
  exists x, nth_error l i = Some x /\ R x y.
Proof.
  intros H; revert i; induction H; intros [|i] E; cbn in *; try discriminate; [injection E as <-; eauto|auto].
Qed.
Lemma F2_nth_l {A B} (R : A -> B -> Prop) l m i x : Forall2 R l m -> nth_error l i = Some x ->
  exists y, nth_error m i = Some y /\ R x y.
Proof.
  intros H; revert i; induction H; intros [|i] E; cbn in *; try discriminate; [injection E as <-; eauto|auto].
Qed.

Lemma F2_len {A B} (R : A -> B -> Prop) l m : Forall2 R l m -> length l = length m.
Proof. intros H; induction H; cbn; auto. Qed.

Section Any.
Variable N : num.
Variable srt : list (datom N) -> list (datom N).
Variable voro : nat -> option (list (nat * N)).
Variable area_pow : N -> N.
Variable inv : m3 N -> option (m3 N).

Lemma box_set_atoms (s s' : sys N) b : box_set inv s b = Ok s' ->
  s_atoms s' = s_atoms s /\ s_nop s' = s_nop s /\ s_real s' = s_real s /\ s_ghosts_created s' = s_ghosts_created s /\ s_box s' = b.
Proof. unfold box_set. destruct (nltb _ _); [destruct (inv _); [|discriminate]|]; intros [= <-]; auto 10. Qed.

Lemma filter_none {A} (f : A -> bool) l : (forall x, In x l -> f x = false) -> filter f l = [].
Proof. induction l as [|a l IH]; intros H; auto. cbn. rewrite H by (now left). apply IH. intros; apply H; now right. Qed.
Lemma filter_every {A} (f : A -> bool) l : (forall x, In x l -> f x = true) -> filter f l = l.
Proof. induction l as [|a l IH]; intros H; auto. cbn. rewrite H by (now left). f_equal. apply IH. intros; apply H; now right. Qed.

Lemma voronoi_embedded (s s' : sys N) mem f t pad nl e :
  stored s -> s_real s = Z.of_nat (length (s_atoms s)) -> all_real (s_atoms s) ->
  s_tri s = true -> s_ghosts_created s = false ->
  find_neighbors srt voro area_pow inv s (mkArgs (MVoronoi mem) f t pad nl) = Ok (s', e) ->
  e = None /\ stored s' /\ s_real s' = s_real s /\ s_ghosts_created s' = true /\
  (exists s1 s2, box_set inv s1 (s_box s) = Ok s2 /\ s' = s2 <| s_found := true |>) /\
  exists la lb new, s_atoms s' = la ++ lb /\
    Forall2 (@same_atom N) (s_atoms s) la /\ Forall2 (@same_atom N) new lb /\
    copies_of (box_get s) 1 1 1 (map (@reset_atom_all N) (s_atoms s)) new 1 (Z.of_nat (length (s_atoms s)) + 1) /\
    length new = 26 * length (s_atoms s).
Proof.
  intros St Re Al Tr Gh H. unfold find_neighbors, reset_all_neighbors in H. rewrite (each_atom_stored _ St) in H.
  cbn [bind fa_method fa_filter] in H. cbv zeta in H.
  set (s0 := s <| s_atoms := map (@reset_atom_all N) (s_atoms s) |> <| s_filter := filter_code f |>) in H.
  set (l := map (@reset_atom_all N) (s_atoms s)) in *.
  assert (Ll : length l = length (s_atoms s)) by apply map_length.
  apply bindOk in H as (s1 & Em & H). apply bindOk in H as (s2 & Ev & H). apply bindOk in H as (s3 & Eb & H).
  injection H as <- <-. split; [reflexivity|].
  unfold embed_triclinic in Em. change (s_tri s0) with (s_tri s) in Em. change (s_ghosts_created s0) with (s_ghosts_created s) in Em.
  rewrite Tr, Gh in Em. cbn [andb negb] in Em.
  assert (GA : get_atoms s0 = Ok l).
  { unfold get_atoms. change (s_real s0) with (s_real s). change (s_atoms s0) with l. rewrite Re, <- Ll, Nat2Z.id.
    assert (M := @mapM_get_prefix _ l []). rewrite app_nil_r in M. exact M. }
  rewrite GA in Em. cbn [bind] in Em. apply bindOk in Em as ([sr lr] & Er & Em).
  assert (Gr : s_ghosts_created sr = true).
  { unfold repeat_cell in Er. cbn [bind] in Er. apply bindOk in Er as (x & _ & Er). injection Er as <- _. reflexivity. }
  apply repeat_spec in Er as (l' & new & -> & -> & HC & Ln & _ & _ & _).
  change (box_get s0) with (box_get s) in HC.
  rewrite Ll in HC.
  assert (L26 : length (shifts 1 1 1) = 26) by reflexivity. rewrite L26, Ll in Ln.
  unfold embed_in_cubic_box in Em. apply box_set_atoms in Em as (A1 & N1 & R1 & G1 & _).
  cbn in A1, N1, R1, G1.
  assert (CR : count_real (l ++ new) = s_real s).
  { unfold count_real. rewrite filter_app, app_length, filter_every, filter_none.
    - rewrite Nat.add_0_r, Ll. symmetry. exact Re.
    - intros x Hx. destruct HC as (keys & _ & _ & F2 & _). apply In_nth_error in Hx as (i & Hx).
      destruct (F2_nth_r F2 Hx) as (k & Hk & R). destruct k as [[[a b] c] m]. destruct R as (_ & _ & _ & _ & E).
      unfold is_real. rewrite E. reflexivity.
    - intros x Hx. apply in_map_iff in Hx as (y & <- & Hy). unfold is_real. change (a_ghost (reset_atom_all y)) with (a_ghost y). rewrite (Al y Hy). reflexivity. }
  apply voronoi_Ps in Ev. destruct Ev as [Pv Kv].
  assert (A2 : s_nop s2 = s_nop s1 /\ s_real s2 = s_real s1 /\ s_ghosts_created s2 = s_ghosts_created s1).
  { split; [|split]; symmetry; [apply (f_equal (@s_nop N)) in Kv|apply (f_equal (@s_real N)) in Kv|apply (f_equal (@s_ghosts_created N)) in Kv]; exact Kv. }
  destruct A2 as (N2 & R2 & G2).
  destruct (box_set_atoms Eb) as (A3 & N3 & R3 & G3 & _).
  rewrite A1 in Pv. apply Forall2_app_inv_l in Pv as (la & lb & Pa1 & Pa2 & E).
  assert (LA : length la = length (s_atoms s)) by (rewrite <- Ll; symmetry; exact (F2_len Pa1)).
  assert (LB : length lb = length new) by (symmetry; exact (F2_len Pa2)).
  split; [|split; [|split; [|split]]].
  - unfold stored. cbn. rewrite N3, N2, N1, A3, E, !app_length, LA, LB, Ll. reflexivity.
  - cbn. rewrite R3, R2, R1. exact CR.
  - cbn. congruence.
  - exists s2, s3. split; [exact Eb|reflexivity].
  - exists la, lb, new. split; [cbn; rewrite A3; exact E|]. split; [|split; [exact Pa2|split; [exact HC|exact Ln]]].
    clear - Pa1. unfold l in Pa1. revert la Pa1. induction (s_atoms s) as [|a m IH]; intros la H; inversion H; subst; constructor; auto.
Qed.
End Any.

Lemma same_atom_pos (N : num) (a b : atom N) : same_atom a b -> a_pos a = a_pos b /\ a_type a = a_type b /\ a_ghost a = a_ghost b.
Proof.
  unfold same_atom. intros H. split; [|split].
  - apply (f_equal (@a_pos N)) in H. exact H.
  - apply (f_equal (@a_type N)) in H. exact H.
  - apply (f_equal (@a_ghost N)) in H. exact H.
Qed.

(** ** Over the reals the copies are at distance 0. *)
Section Reals.
Local Open Scope R_scope.
Lemma int_small (i : Z) (k : Z) : (-1 <= i <= 1)%Z -> Rabs (IZR i + IZR k) <= 1 / 2 -> IZR i + IZR k = 0.
Proof.
  intros Hi H. rewrite <- plus_IZR in *. rewrite <- abs_IZR in H.
  assert ((i + k = 0)%Z) as ->; [|reflexivity].
  assert (IZR (Z.abs (i + k)) < IZR 1) by lra. apply lt_IZR in H0. lia.
Qed.
Lemma int_bound (i : Z) : (-1 <= i <= 1)%Z -> Rabs (IZR i) <= 3 / 2.
Proof. intros H. rewrite <- abs_IZR. assert (IZR (Z.abs i) <= IZR 1) by (apply IZR_le; lia). lra. Qed.

Lemma image_distance (s : sys Rnum) (b : m3 Rnum) (p q : v3 Rnum) (i j k : Z) : tric s b ->
  (-1 <= i <= 1)%Z -> (-1 <= j <= 1)%Z -> (-1 <= k <= 1)%Z -> displaced b i j k p q ->
  fst (abs_distance_ij s p q) = 0 /\ fst (abs_distance_ij s q p) = 0.
Proof.
  intros HT Hi Hj Hk (D1 & D2 & D3).
  assert (G : forall (p q : v3 Rnum) (i j k : Z), (-1 <= i <= 1)%Z -> (-1 <= j <= 1)%Z -> (-1 <= k <= 1)%Z ->
    mkV (N:=Rnum) (vx q - vx p) (vy q - vy p) (vz q - vz p) = lin b (IZR i) (IZR j) (IZR k) -> fst (abs_distance_ij s p q) = 0).
  { clear - HT. intros p q i j k Hi Hj Hk E. rewrite fst_ij.
    destruct (@triclinic_frac s b (at_pos q) (at_pos p) (mkV (N := Rnum) (IZR i) (IZR j) (IZR k)) HT E) as (d & v & i' & j' & k' & Ed & Dd & Dv & Bi & Bj & Bk).
    apply (f_equal dist_of) in Ed. change (abs_distance s q p = d) in Ed. rewrite Ed, Dd, Dv.
    cbn [vx vy vz] in *. specialize (Bi (int_bound Hi)). specialize (Bj (int_bound Hj)). specialize (Bk (int_bound Hk)).
    unfold lin. cbn [vx vy vz].
    replace (IZR i + IZR i') with 0 by (symmetry; apply int_small; auto). replace (IZR j + IZR j') with 0 by (symmetry; apply int_small; auto).
    replace (IZR k + IZR k') with 0 by (symmetry; apply int_small; auto).
    unfold eucl, len2. match goal with |- sqrt ?x = _ => replace x with 0 by ring end. apply sqrt_0. }
  change (vx q = vx p + IZR i * vx (r0 b) + IZR j * vx (r1 b) + IZR k * vx (r2 b)) in D1.
  change (vy q = vy p + IZR i * vy (r0 b) + IZR j * vy (r1 b) + IZR k * vy (r2 b)) in D2.
  change (vz q = vz p + IZR i * vz (r0 b) + IZR j * vz (r1 b) + IZR k * vz (r2 b)) in D3.
  split; [apply (G p q i j k)|apply (G q p (- i) (- j) (- k))%Z]; try lia; unfold lin; rewrite ?opp_IZR, D1, D2, D3; f_equal; ring.
Qed.
End Reals.

(** Index of a copy among the copies. *)
Lemma nodup_pick {A B} (f : A -> B) (ks : list B) (l : list A) : NoDup l -> (forall x y, f x = f y -> x = y) ->
  (forall x, In x l -> In (f x) ks) ->
  exists xs, length xs = length l /\ NoDup xs /\ Forall2 (fun x i => nth_error ks i = Some (f x)) l xs.
Proof.
  intros ND Inj. induction ND as [|x l Hx ND IH]; intros HI; [exists []; repeat constructor|].
  destruct IH as (xs & E & NX & F); [intros; apply HI; now right|].
  destruct (In_nth_error _ _ (HI x (or_introl eq_refl))) as (i & Hi).
  exists (i :: xs). split; [cbn; congruence|]. split; [|constructor; auto]. constructor; [|exact NX].
  intros Hin. apply In_nth_error in Hin as (j & Hj). destruct (F2_nth_r F Hj) as (y & Hy & E1).
  rewrite E1 in Hi. injection Hi as Hi. apply Inj in Hi. subst y. apply Hx. eapply nth_error_In; eauto.
Qed.

Theorem copies_found srt voro area_pow inv (s s' : sys Rnum) mem f t pad nl e ri (r : R) :
  stored s -> s_real s = Z.of_nat (length (s_atoms s)) -> all_real (s_atoms s) ->
  s_tri s = true -> s_ghosts_created s = false -> s_actual s = None ->
  (1 / 1000000 < Rabs (cos_sum (s_box s)))%R -> inv (transpose (s_box s)) = Some ri -> inverse_of (transpose (s_box s)) ri ->
  find_neighbors srt voro area_pow inv s (mkArgs (MVoronoi mem) f t pad nl) = Ok (s', e) ->
  (0 < r)%R ->
  stored s' /\ s_real s' = s_real s /\ length (s_atoms s') = 27 * length (s_atoms s) /\
  forall m, m < length (s_atoms s) ->
  exists xs, length xs = 26 /\ NoDup xs /\
    forall x, In x xs -> length (s_atoms s) <= x < length (s_atoms s') /\
      exists en, In en (neighbors_within s' r FNone m) /\ nb_idx en = x /\ nb_dist en = 0%R.
Proof.
  intros St Re Al Tr Gh Ac Hc Hi HI H Hr.
  destruct (voronoi_embedded St Re Al Tr Gh H) as (_ & St' & Re' & _ & (s1 & s2 & Eb & Es) & la & lb & new & Ea & Fa & Fb & HC & Ln).
  assert (HT : tric s' (s_box s)).
  { destruct (@box_set_tric inv s1 (s_box s) ri Hc Hi HI) as (s3 & E3 & T3). rewrite Eb in E3. injection E3 as <-. subst s'. exact T3. }
  assert (LA : length la = length (s_atoms s)) by (symmetry; exact (F2_len Fa)).
  assert (LB : length lb = 26 * length (s_atoms s)) by (rewrite <- Ln; symmetry; exact (F2_len Fb)).
  assert (LT : length (s_atoms s') = 27 * length (s_atoms s)) by (rewrite Ea, app_length; lia).
  split; [exact St'|]. split; [exact Re'|]. split; [exact LT|].
  intros m Hm. unfold box_get in HC. rewrite Ac in HC. destruct HC as (keys & ND & HK & F2 & _).
  destruct (@nodup_pick _ _ (fun t => (t, m)) keys (shifts 1 1 1)) as (xs & Lx & NX & FX).
  { apply NoDup_shifts. }
  { intros a b E. now injection E. }
  { intros [[a b] c] Hin. apply In_shifts in Hin. apply HK. cbn. rewrite map_length. intuition lia. }
  exists (map (fun i => length (s_atoms s) + i) xs). split; [rewrite map_length, Lx; reflexivity|].
  split; [apply FinFun.Injective_map_NoDup; [intros a b; lia|exact NX]|].
  intros x Hx. apply in_map_iff in Hx as (i & <- & Hxi). apply In_nth_error in Hxi as (n & Hn).
  destruct (F2_nth_r FX Hn) as (sh & Hsh & Hkey).
  destruct (F2_nth_l F2 Hkey) as (g & Hg & R). destruct (F2_nth_l Fb Hg) as (g' & Hg' & Sg).
  assert (Li : i < length lb) by (apply nth_error_Some; congruence).
  split; [lia|].
  destruct sh as [[a b] c]. destruct R as (p & Hp & HD & _).
  assert (Hin : In (a, b, c) (shifts 1 1 1)) by (eapply nth_error_In; eauto). apply In_shifts in Hin.
  rewrite nth_error_map in Hp. destruct (nth_error (s_atoms s) m) as [p0|] eqn:Ep; [|discriminate]. injection Hp as <-.
  change (a_pos (reset_atom_all p0)) with (a_pos p0) in HD.
  destruct (F2_nth_l Fa Ep) as (p' & Hp' & Sp).
  destruct (same_atom_pos Sg) as (Eg & _). destruct (same_atom_pos Sp) as (Epp & _). rewrite Eg, Epp in HD.
  destruct (@image_distance s' (s_box s) (a_pos p') (a_pos g') a b c HT) as (D & _); try (intuition lia).
  assert (E1 : nth_error (s_atoms s') m = Some p') by (rewrite Ea, nth_error_app1 by lia; exact Hp').
  assert (E2 : nth_error (s_atoms s') (length (s_atoms s) + i) = Some g').
  { rewrite Ea, nth_error_app2 by lia. rewrite <- Hg'. f_equal. lia. }
  destruct (abs_distance_ij s' (a_pos p') (a_pos g')) as [d v] eqn:Ed. cbn [fst] in D. subst d.
  exists (mkNbr (length (s_atoms s) + i) (0%R : Rnum) n1 v). split; [|split; reflexivity].
  apply In_neighbors_within. cbn [nb_idx nb_dist]. split; [|split; [apply Rltb_true; exact Hr|reflexivity]].
  unfold link. rewrite E1, E2, Ed. replace (m <? length (s_atoms s) + i) with true by (symmetry; apply Nat.ltb_lt; lia). reflexivity.
Qed.
