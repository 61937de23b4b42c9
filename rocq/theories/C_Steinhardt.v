(** Properties C25-C30: Steinhardt's parameters. *)
From Coq Require Import Reals Lra ZArith List Lia Permutation.
From Verif Require Import Base Num NumR NumF Types Ex M_Geometry M_Container M_Neighbors M_Steinhardt
  S_Steinhardt S_Neighbors P_Neighbors P_QRun P_Harmonics P_Steinhardt P_QInv P_QSys P_QHist P_History C_Neighbors.
Import ListNotations.
Close Scope R_scope. Close Scope Z_scope.
#[local] Open Scope nat_scope.

(** ** A concrete system *)
Definition nb (N : num) (i : nat) (x y z : Z) (w : N) : nbr N := mkNbr i (norm (zv N x y z)) w (zv N x y z).
Definition with_nbrs (N : num) (l : list (nbr N)) : atom N :=
  atom_ctor (raw_atom N) (zv N 0 0 0) 1 1 <| a_nbrs := l |>.
Definition of_atoms (N : num) (l : list (atom N)) : sys N :=
  set_atoms (sbox (sys_ctor (raw_sys N)) (diag (nofZ 20) (nofZ 20) (nofZ 20))) l.
(** An atom with three neighbours, which have one neighbour each. *)
Definition q_sys (N : num) : sys N := of_atoms N
  [with_nbrs N [nb N 1 0 0 2 n1; nb N 2 3 0 4 n2; nb N 3 (-1) 2 0 n1];
   with_nbrs N [nb N 0 0 0 (-2) n1]; with_nbrs N [nb N 0 (-3) 0 (-4) n1]; with_nbrs N [nb N 0 1 (-2) 0 n2]].
Example q_sys_ready : forall N, q_ready (q_sys N).
Proof.
  intros N. split; [reflexivity|]. cbn [q_sys of_atoms set_atoms s_atoms].
  intros a Ha. split.
  - cbn in Ha. decompose [or] Ha; subst; try contradiction;
      repeat split; repeat constructor.
  - intros e He. cbn in Ha. decompose [or] Ha; subst; try contradiction;
      cbn in He; decompose [or] He; subst; try contradiction; cbn; lia.
Qed.
Example q_sys_counted : forall N a, In a (s_atoms (q_sys N)) -> counted (s_atoms (q_sys N)) a = a_nbrs a.
Proof. intros N a Ha. cbn in Ha. decompose [or] Ha; subst; try contradiction; reflexivity. Qed.
Example q_sys_apart : apart (s_atoms (q_sys Rnum)).
Proof.
  intros a e Ha He. rewrite q_sys_counted in He by auto. cbn in Ha. decompose [or] Ha; subst; try contradiction;
    cbn in He; decompose [or] He; subst; try contradiction; unfold nonzero; cbn; lra.
Qed.

(** ** C25 *)
(** The stored value is the definition, for any spherical coordinates of the
    neighbours that count; averaged values likewise.  Nothing but the q (and
    averaged q) arrays changes.  With Voronoi neighbours the code does not
    divide by the weights: the weights must sum to 1 (C30 shows they do). *)
Theorem C25_q_equals_definition :
  forall inv raw (s : sys Rnum) qs averaged,
  q_ready s -> Forall (fun q => 2 <= q <= 12)%Z qs -> apart (s_atoms s) ->
  (forall a, In a (s_atoms s) -> s_vorused s = true -> wtotal (counted (s_atoms s) a) = 1%R) ->
  exists t, py_calculate_q inv raw s qs averaged false None false = Ok t /\
    t <| s_atoms := [] |> = s <| s_atoms := [] |> /\
    map (fun a => but_aq (but_q a)) (s_atoms t) = map (fun a => but_aq (but_q a)) (s_atoms s) /\
    forall i a, nth_error (s_atoms s) i = Some a ->
    exists a', nth_error (s_atoms t) i = Some a' /\
      (exists E, env (counted (s_atoms s) a) E) /\
      forall l E, In (Z.of_nat l) qs -> env (counted (s_atoms s) a) E ->
        atom_get_q a' (Z.of_nat l) false = Ok (steinhardt l E) /\
        forall Es, averaged = true -> envs (s_atoms s) (counted (s_atoms s) a) Es ->
          atom_get_q a' (Z.of_nat l) true = Ok (steinhardt_avg l E Es).
Proof.
  intros inv raw s qs averaged Hr HF Hap Hw. rewrite py_q_eq by auto. eexists. split; [reflexivity|].
  set (l := s_atoms s) in *. set (vor := s_vorused s) in *.
  split; [destruct averaged; reflexivity|]. split.
  { assert (forall a, but_aq (but_q (q_all vor l qs a)) = but_aq (but_q a)) as H1 by (intros; now rewrite but_q_all).
    assert (forall l1 a, but_aq (but_q (aq_all l1 qs (q_all vor l qs a))) = but_aq (but_q a)) as H2.
    { intros l1 a. change (but_q (but_aq (aq_all l1 qs (q_all vor l qs a))) = but_aq (but_q a)).
      rewrite but_aq_all. apply H1. }
    destruct averaged; cbn; fold l vor; rewrite map_map; apply map_ext; auto. }
  intros i a Ha. assert (In a l) as Hin by (eapply nth_error_In; eauto).
  exists (if averaged then aq_all (map (q_all vor l qs) l) qs (q_all vor l qs a) else q_all vor l qs a).
  split; [|split].
  - destruct averaged; cbn; fold l vor; rewrite nth_error_map, Ha; reflexivity.
  - exists (env_of (counted l a)).
    assert (H : all_nonzero (counted l a)) by (intros e He; now apply (Hap a)).
    unfold env, env_of. revert H. induction (counted l a) as [|e es IH]; intros H; cbn [map]; constructor.
    + pose proof (spherical_angles (H e (or_introl eq_refl))) as Hs.
      destruct (spherical (nb_vec e)) as [phi theta]. split; auto.
    + apply IH. intros x Hx. apply H; simpl; auto.
  - intros k E Hk HE. pose proof (range_of HF Hk) as Hkr.
    assert (q_range (Z.of_nat k) = true) as Hq.
    { unfold q_range. destruct (Z.ltb_spec (Z.of_nat k) 2), (Z.ltb_spec 12 (Z.of_nat k)); auto; lia. }
    assert (wsum (Vof l a) = wtotal (counted l a)) as HW by apply wsum_of.
    split.
    + unfold atom_get_q. rewrite Hq. apply zget_Ok; [lia|].
      replace (a_q (if averaged then aq_all (map (q_all vor l qs) l) qs (q_all vor l qs a) else q_all vor l qs a))
        with (a_q (q_all vor l qs a)) by (destruct averaged; auto; now rewrite aq_all_a_q).
      etransitivity; [exact (stored_q Hr HF Hap Hin Hk)|]. f_equal.
      rewrite (steinhardt_gram Hkr (env_seen HE)). fold l vor. fold (Vof l a).
      rewrite (@nfac_false vor (Vof l a)) by (rewrite HW; auto). reflexivity.
    + intros Es -> HEs. unfold atom_get_q. rewrite Hq. apply zget_Ok; [lia|].
      etransitivity; [exact (stored_aq Hr HF Hap Hin Hk)|]. f_equal.
      rewrite (steinhardt_avg_gram Hkr (env_seen HE) (envs_seen HEs)). fold l vor. fold (Vof l a).
      rewrite avgV_false; auto. intros U [<-|HU] Hv; [rewrite HW; auto|].
      apply in_map_iff in HU as (b & <- & Hb). unfold Vof. rewrite wsum_of. apply Hw; auto.
      eapply nth_nb_atoms_In; eauto.
Qed.
Print Assumptions C25_q_equals_definition.
Example C25_hyp : q_ready (q_sys Rnum) /\ Forall (fun q => 2 <= q <= 12)%Z [4; 6]%Z /\
  apart (s_atoms (q_sys Rnum)) /\ s_vorused (q_sys Rnum) = false.
Proof. split; [apply q_sys_ready|]. split; [repeat constructor; lia|]. split; [apply q_sys_apart|reflexivity]. Qed.
(** The functions of the specification are the textbook ones. *)
Example C25_spec : forall x : R,
  (legendre 2 x = (3 * x ^ 2 - 1) / 2 /\ legendre 4 x = (35 * x ^ 4 - 30 * x ^ 2 + 3) / 8 /\
   assoc_legendre 2 1 x = - (3 * x * sqrt (1 - x ^ 2)) /\
   assoc_legendre 2 2 x = 3 * (sqrt (1 - x ^ 2) * sqrt (1 - x ^ 2)))%R.
Proof.
  intros x. unfold legendre, assoc_legendre. set (r := sqrt _).
  repeat split; cbn -[Rdiv Rmult Rplus]; field.
Qed.

(** ** C26 *)
Theorem C26_rotation_invariant :
  forall inv raw (s : sys Rnum) qs averaged (m : m3 Rnum),
  q_ready s -> Forall (fun q => 2 <= q <= 12)%Z qs -> apart (s_atoms s) -> orthogonal m ->
  exists t t', py_calculate_q inv raw s qs averaged false None false = Ok t /\
    py_calculate_q inv raw (turn m s) qs averaged false None false = Ok t' /\
    map (@a_q Rnum) (s_atoms t') = map (@a_q Rnum) (s_atoms t) /\
    map (@a_aq Rnum) (s_atoms t') = map (@a_aq Rnum) (s_atoms t).
Proof.
  intros inv raw s qs averaged m Hr HF Hap Hm.
  assert (Hr' : q_ready (turn m s)).
  { destruct Hr as [Hn Hr]. split; [cbn; now rewrite map_length|]. intros a Ha. cbn in Ha.
    apply in_map_iff in Ha as (b & <- & Hb). destruct (Hr b Hb) as [H1 H2]. split; [exact H1|].
    intros e He. cbn in He. apply in_map_iff in He as (e0 & <- & He0). cbn. rewrite map_length. now apply H2. }
  apply (@moved_values inv raw s (turn m s) qs averaged m (fun _ => 1%R)); auto.
  - cbn. apply map_length.
  - intros i a a' Ha Ha'. cbn in Ha'. rewrite nth_error_map, Ha in Ha'. cbn in Ha'. apply Some_inj in Ha' as <-.
    repeat split. exists (map (turn_nbr m) (a_nbrs a)). split; [apply Permutation_refl|].
    induction (a_nbrs a) as [|e es IH]; cbn [map]; constructor; auto.
    split; [reflexivity|]. split; [symmetry; apply Rmult_1_l|]. exists 1%R. split; [lra|].
    cbn. unfold mvmul, vscale. cbn. f_equal; symmetry; apply Rmult_1_l.
Qed.
Print Assumptions C26_rotation_invariant.
Example C26_hyp : orthogonal (mkM (mkV 0 0 1) (mkV (-4/5) (3/5) 0) (mkV (3/5) (4/5) 0) : m3 Rnum)%R /\
  q_ready (q_sys Rnum) /\ apart (s_atoms (q_sys Rnum)).
Proof.
  split; [unfold orthogonal; cbn; lra|]. split; [apply q_sys_ready|apply q_sys_apart].
Qed.

(** ** C27 *)
Theorem C27_between_0_and_1 :
  forall inv raw (s t : sys Rnum) qs averaged,
  q_ready s -> Forall (fun q => 2 <= q <= 12)%Z qs -> apart (s_atoms s) ->
  (forall a, In a (s_atoms s) ->
     let es := counted (s_atoms s) a in
     (forall e, In e es -> 0 <= nb_weight e)%R /\ (0 < wtotal es)%R /\ (s_vorused s = true -> wtotal es = 1%R)) ->
  py_calculate_q inv raw s qs averaged false None false = Ok t ->
  forall i a a' l, nth_error (s_atoms s) i = Some a -> nth_error (s_atoms t) i = Some a' ->
    In (Z.of_nat l) qs ->
    (exists q : R, atom_get_q a' (Z.of_nat l) false = Ok q /\ (0 <= q <= 1)%R /\
       (length (counted (s_atoms s) a) = 1 -> q = 1%R)) /\
    (averaged = true -> exists q : R, atom_get_q a' (Z.of_nat l) true = Ok q /\ (0 <= q <= 1)%R).
Proof.
  intros inv raw s t qs averaged Hr HF Hap Hw Ht i a a' k Ha Ha' Hk.
  rewrite py_q_eq in Ht by auto. injection Ht as <-.
  set (l := s_atoms s) in *. set (vor := s_vorused s) in *.
  assert (In a l) as Hin by (eapply nth_error_In; eauto).
  assert (a' = if averaged then aq_all (map (q_all vor l qs) l) qs (q_all vor l qs a) else q_all vor l qs a) as ->.
  { destruct averaged; cbn in Ha'; fold l vor in Ha'; rewrite nth_error_map, Ha in Ha'; cbn in Ha'; now apply Some_inj in Ha'. }
  clear Ha'. pose proof (range_of HF Hk) as Hkr.
  assert (q_range (Z.of_nat k) = true) as Hq.
  { unfold q_range. destruct (Z.ltb_spec (Z.of_nat k) 2), (Z.ltb_spec 12 (Z.of_nat k)); auto; lia. }
  assert (HM : forall b, In b l -> nzV (Vof l b) /\ mean_weights vor (Vof l b)).
  { intros b Hb. split.
    - intros p Hp. apply in_map_iff in Hp as (e & <- & He). now apply (Hap b).
    - destruct (Hw b Hb) as (H1 & H2 & H3). split; [|unfold Vof; rewrite wsum_of; split; auto].
      intros p Hp. apply in_map_iff in Hp as (e & <- & He). now apply H1. }
  split.
  - exists (sqrt (gram k (rescV (nfac vor (Vof l a)) (Vof l a)))). split; [|split].
    + unfold atom_get_q. rewrite Hq. apply zget_Ok; [lia|].
      replace (a_q (if averaged then aq_all (map (q_all vor l qs) l) qs (q_all vor l qs a) else q_all vor l qs a))
        with (a_q (q_all vor l qs a)) by (destruct averaged; auto; now rewrite aq_all_a_q).
      exact (stored_q Hr HF Hap Hin Hk).
    + rewrite resc_avg. apply avg_bound; auto. intros U [<-|[]]. now apply HM.
    + intros H1. destruct (HM a Hin) as [Hz Hmw]. unfold Vof in *.
      destruct (counted l a) as [|e [|]]; try discriminate. cbn [of_nbrs map] in *.
      apply single_one; auto. apply Hz. simpl; auto.
  - intros ->. exists (sqrt (gram k (avgV vor (Vof l a) (map (Vof l) (nb_atoms l (counted l a)))))). split.
    + unfold atom_get_q. rewrite Hq. apply zget_Ok; [lia|]. exact (stored_aq Hr HF Hap Hin Hk).
    + apply avg_bound; auto. intros U [<-|HU]; [now apply HM|].
      apply in_map_iff in HU as (b & <- & Hb). apply HM. eapply nth_nb_atoms_In; eauto.
Qed.
Print Assumptions C27_between_0_and_1.
Example C27_hyp : forall a, In a (s_atoms (q_sys Rnum)) ->
  let es := counted (s_atoms (q_sys Rnum)) a in
  (forall e, In e es -> 0 <= nb_weight e)%R /\ (0 < wtotal es)%R /\ (s_vorused (q_sys Rnum) = true -> wtotal es = 1%R).
Proof.
  intros a Ha es. unfold es. rewrite q_sys_counted by auto. clear es. split; [|split].
  - intros e He. cbn in Ha. decompose [or] Ha; subst; try contradiction;
      cbn in He; decompose [or] He; subst; try contradiction; cbn; lra.
  - cbn in Ha. decompose [or] Ha; subst; try contradiction; unfold wtotal; cbn; lra.
  - discriminate.
Qed.

(** ** C28 *)
(** [s'] has the neighbours of [s] in any order, every vector multiplied by its
    own positive factor and by [sg] (1, or -1 for inversion), and the weights
    of every atom multiplied by a constant (1 when they are Voronoi weights). *)
Theorem C28_order_scale_inversion :
  forall inv raw (s s' : sys Rnum) qs averaged (sg : R) (c : nat -> R),
  q_ready s -> q_ready s' -> Forall (fun q => 2 <= q <= 12)%Z qs -> s_vorused s' = s_vorused s ->
  (sg = 1 \/ sg = -1)%R -> apart (s_atoms s) -> length (s_atoms s') = length (s_atoms s) ->
  (forall i a a', nth_error (s_atoms s) i = Some a -> nth_error (s_atoms s') i = Some a' ->
     moved_atom (diag (N := Rnum) sg sg sg) (c i) a a') ->
  (forall i a, nth_error (s_atoms s) i = Some a ->
     c i = 1%R \/ s_vorused s = false /\ (0 < c i)%R /\ wtotal (counted (s_atoms s) a) <> 0%R) ->
  exists t t', py_calculate_q inv raw s qs averaged false None false = Ok t /\
    py_calculate_q inv raw s' qs averaged false None false = Ok t' /\
    map (@a_q Rnum) (s_atoms t') = map (@a_q Rnum) (s_atoms t) /\
    map (@a_aq Rnum) (s_atoms t') = map (@a_aq Rnum) (s_atoms t).
Proof.
  intros inv raw s s' qs averaged sg c Hr Hr' HF Hv Hsg Hap Hlen Hmv Hc.
  apply (@moved_values inv raw s s' qs averaged (diag (N := Rnum) sg sg sg) c); auto.
  - unfold orthogonal. cbn. destruct Hsg as [-> | ->]; lra.
  - intros i a Ha. destruct (Hc i a Ha) as [H|(H1 & H2 & H3)]; auto. right. repeat split; auto. lra.
Qed.
Print Assumptions C28_order_scale_inversion.
(** The first atom's neighbours reversed, inverted, lengthened differently and
    weighted three times as much. *)
Definition q_sys' : sys Rnum := of_atoms Rnum
  [with_nbrs Rnum [nb Rnum 3 1 (-2) 0 3%R; nb Rnum 2 (-6) 0 (-8) 6%R; nb Rnum 1 0 0 (-6) 3%R];
   with_nbrs Rnum [nb Rnum 0 0 0 2 1%R]; with_nbrs Rnum [nb Rnum 0 3 0 4 1%R]; with_nbrs Rnum [nb Rnum 0 (-1) 2 0 2%R]].
Lemma with_nbrs_moved m c l l' :
  (exists es, Permutation es l' /\ Forall2 (moved m c) l es) ->
  moved_atom m c (with_nbrs Rnum l) (with_nbrs Rnum l').
Proof.
  intros (es & H).
  assert (G : forall N l l', a_cond (with_nbrs N l) = a_cond (with_nbrs N l') /\
    a_q (with_nbrs N l) = a_q (with_nbrs N l') /\ a_aq (with_nbrs N l) = a_aq (with_nbrs N l')) 
    by (intros; split; [vm_compute; reflexivity|split; vm_compute; reflexivity]).
  assert (G0 : forall N l, a_nbrs (with_nbrs N l) = l) by (intros; vm_compute; reflexivity).
  destruct (G Rnum l' l) as (G1 & G2 & G3). unfold moved_atom. rewrite !G0.
  split; [exact G1|]. split; [exact G2|]. split; [exact G3|]. exists es; exact H.
Qed.
Example C28_hyp : q_ready (q_sys Rnum) /\ q_ready q_sys' /\
  (forall i a a', nth_error (s_atoms (q_sys Rnum)) i = Some a -> nth_error (s_atoms q_sys') i = Some a' ->
     moved_atom (diag (N := Rnum) (-1) (-1) (-1))%R (if i =? 0 then 3 else 1)%R a a') /\
  (forall i a, nth_error (s_atoms (q_sys Rnum)) i = Some a ->
     (if i =? 0 then 3 else 1)%R = 1%R \/ s_vorused (q_sys Rnum) = false /\ (0 < if i =? 0 then 3 else 1)%R /\
     wtotal (counted (s_atoms (q_sys Rnum)) a) <> 0%R).
Proof.
  split; [apply q_sys_ready|]. split.
  { split; [reflexivity|]. intros a Ha. split.
    - cbn in Ha. decompose [or] Ha; subst; try contradiction; repeat split; repeat constructor.
    - intros e He. cbn in Ha. decompose [or] Ha; subst; try contradiction;
      cbn in He; decompose [or] He; subst; try contradiction; cbn; lia. }
  assert (M : forall i x y z w c k x' y' z' w', (0 < k)%R -> (IZR x' = - (k * IZR x))%R -> (IZR y' = - (k * IZR y))%R ->
     (IZR z' = - (k * IZR z))%R -> (w' = c * w)%R ->
     moved (diag (N := Rnum) (-1) (-1) (-1))%R c (nb Rnum i x y z w) (nb Rnum i x' y' z' w')).
  { intros. split; [reflexivity|]. split; [assumption|]. exists k. split; [assumption|].
    unfold vscale, mvmul, vdot, zv. cbn. unfold zv. cbn. f_equal.
    - rewrite H0. ring.
    - rewrite H1. ring.
    - rewrite H2. ring. }
  split.
  - intros i a a' Ha Ha'.
    assert (i < 4) as Hi.
    { change 4 with (length (s_atoms (q_sys Rnum))). apply nth_error_Some. intros X. rewrite X in Ha. discriminate Ha. }
    destruct i as [|[|[|[|i]]]]; [| | | |lia];
    apply Some_inj in Ha; subst a; apply Some_inj in Ha'; subst a'; apply with_nbrs_moved.
    + exists [nb Rnum 1 0 0 (-6) 3%R; nb Rnum 2 (-6) 0 (-8) 6%R; nb Rnum 3 1 (-2) 0 3%R]. split.
      * apply Permutation_sym, perm_trans with [nb Rnum 3 1 (-2) 0 3%R; nb Rnum 1 0 0 (-6) 3%R; nb Rnum 2 (-6) 0 (-8) 6%R].
        -- apply perm_skip, perm_swap.
        -- apply perm_trans with [nb Rnum 1 0 0 (-6) 3%R; nb Rnum 3 1 (-2) 0 3%R; nb Rnum 2 (-6) 0 (-8) 6%R];
             [apply perm_swap|apply perm_skip, perm_swap].
      * apply Forall2_cons; [apply (M _ _ _ _ _ _ 3%R); cbn; lra|]. apply Forall2_cons; [apply (M _ _ _ _ _ _ 2%R); cbn; lra|].
        apply Forall2_cons; [apply (M _ _ _ _ _ _ 1%R); cbn; lra|apply Forall2_nil].
    + eexists. split; [apply Permutation_refl|]. apply Forall2_cons; [apply (M _ _ _ _ _ _ 1%R); cbn; lra|apply Forall2_nil].
    + eexists. split; [apply Permutation_refl|]. apply Forall2_cons; [apply (M _ _ _ _ _ _ 1%R); cbn; lra|apply Forall2_nil].
    + eexists. split; [apply Permutation_refl|]. apply Forall2_cons; [apply (M _ _ _ _ _ _ 1%R); cbn; lra|apply Forall2_nil].
  - intros i a Ha. destruct i; [|left; reflexivity]. right. split; [reflexivity|]. split; [cbn; lra|].
    rewrite q_sys_counted by (eapply nth_error_In; eauto). cbn in Ha. apply Some_inj in Ha as <-. unfold wtotal. cbn. lra.
Qed.

(** ** C29 *)
Theorem C29_out_of_range_rejected :
  forall (N : num) inv raw (s : sys N) (a : atom N) averaged only cond clear (v : N) (qs : list Z) q,
  ~ (2 <= q <= 12)%Z ->
  (In q qs -> py_calculate_q inv raw s qs averaged only cond clear = Err ValueError /\
              get_qvals s qs averaged = Err ValueError) /\
  get_qvals1 s q averaged = Err ValueError /\
  atom_get_q a q averaged = Err ValueError /\ atom_set_q a q v averaged = Err ValueError.
Proof.
  intros N inv raw s a averaged only cond clear v qs q Hq.
  assert (q_ok q = false) as H1.
  { unfold q_ok. destruct (Z.leb_spec 2 q), (Z.ltb_spec q 13); auto; lia. }
  assert (q_range q = false) as H2.
  { unfold q_range. destruct (Z.ltb_spec q 2), (Z.ltb_spec 12 q); auto; lia. }
  unfold get_qvals1, atom_get_q, atom_set_q, py_calculate_q, get_qvals. rewrite H1, H2. repeat split.
  - assert (forallb q_ok qs = false) as ->; auto.
    apply Bool.not_true_iff_false. rewrite forallb_forall. intros X. rewrite (X q) in H1; [discriminate|assumption].
  - assert (forallb q_ok qs = false) as ->; auto.
    apply Bool.not_true_iff_false. rewrite forallb_forall. intros X. rewrite (X q) in H1; [discriminate|assumption].
Qed.
Print Assumptions C29_out_of_range_rejected.

(** A sequence of set_q calls: (q, value, averaged). *)
Definition set_many {N : num} (a : atom N) (ops : list (Z * N * bool)) : res (atom N) :=
  foldM (fun a o => atom_set_q a (fst (fst o)) (snd (fst o)) (snd o)) ops a.
(** The value written last to (q, averaged). *)
Definition last_set {N : num} (ops : list (Z * N * bool)) (q : Z) (averaged : bool) : option N :=
  fold_left (fun r o => if (Z.eqb (fst (fst o)) q && Bool.eqb (snd o) averaged)%bool then Some (snd (fst o)) else r) ops None.
Definition but_values {N : num} (a : atom N) : atom N := a <| a_q := [] |> <| a_aq := [] |>.
Lemma set_one {N : num} (a : atom N) q v av : q_arrays a -> (2 <= q <= 12)%Z ->
  exists a', atom_set_q a q v av = Ok a' /\ q_arrays a' /\ but_values a' = but_values a /\
    forall q' av', (2 <= q' <= 12)%Z -> atom_get_q a' q' av' =
      if (Z.eqb q q' && Bool.eqb av av')%bool then Ok v else atom_get_q a q' av'.
Proof.
  intros (H1 & H2 & H3) Hq.
  assert (R : forall q, (2 <= q <= 12)%Z -> q_range q = true).
  { intros x Hx. unfold q_range. destruct (Z.ltb_spec x 2), (Z.ltb_spec 12 x); auto; lia. }
  unfold atom_set_q, atom_put_q. rewrite (R q Hq).
  assert (G : forall (l : list N) q', length l = 11 -> (2 <= q' <= 12)%Z ->
     zget (upd (Z.to_nat (q - 2)) (fun _ => v) l) (q' - 2) = if Z.eqb q q' then Ok v else zget l (q' - 2)).
  { intros l q' Hl Hq'. unfold zget, get. destruct (Z.ltb_spec (q' - 2) 0); [lia|]. rewrite nth_error_upd.
    destruct (Nat.eqb_spec (Z.to_nat (q' - 2)) (Z.to_nat (q - 2))), (Z.eqb_spec q q'); try lia; auto.
    destruct (nth_error l (Z.to_nat (q' - 2))) eqn:E; auto. apply nth_error_None in E. lia. }
  destruct av; rewrite zput_Ok by lia; cbn [bind]; eexists; (split; [reflexivity|]); (split; [repeat split; cbn; try rewrite length_upd; try apply H3; auto|]);
    (split; [reflexivity|]); intros q' av' Hq'; unfold atom_get_q; rewrite (R q' Hq'); destruct av'; cbn;
    rewrite ?Bool.andb_true_r, ?Bool.andb_false_r; auto.
Qed.
Theorem C29_set_then_get :
  forall (N : num) (a : atom N) (ops : list (Z * N * bool)),
  q_arrays a -> Forall (fun o => 2 <= fst (fst o) <= 12)%Z ops ->
  exists a', set_many a ops = Ok a' /\ but_values a' = but_values a /\
    forall q averaged, (2 <= q <= 12)%Z ->
      (forall v, last_set ops q averaged = Some v -> atom_get_q a' q averaged = Ok v) /\
      (last_set ops q averaged = None -> atom_get_q a' q averaged = atom_get_q a q averaged).
Proof.
  intros N a ops Ha HF. unfold set_many.
  assert (G : exists a', foldM (fun a o => atom_set_q a (fst (fst o)) (snd (fst o)) (snd o)) ops a = Ok a' /\ q_arrays a' /\
    but_values a' = but_values a /\ forall q averaged, (2 <= q <= 12)%Z ->
      atom_get_q a' q averaged = match last_set ops q averaged with Some v => Ok v | None => atom_get_q a q averaged end).
  { revert HF. induction ops as [|o ops IH] using rev_ind; intros HF.
    - exists a. auto.
    - apply Forall_app in HF as [HF Ho]. inversion Ho as [|? ? Ho' _]; subst. destruct (IH HF) as (a1 & E1 & A1 & B1 & G1).
      destruct (set_one a1 (fst (fst o)) (snd (fst o)) (snd o) A1 Ho') as (a2 & E2 & A2 & B2 & G2).
      exists a2. split; [|split; [auto|split; [congruence|]]].
      + rewrite foldM_app, E1. cbn [bind foldM]. rewrite E2. reflexivity.
      + intros q av Hq. rewrite (G2 q av Hq), (G1 q av Hq). unfold last_set. rewrite fold_left_app. cbn [fold_left].
        destruct (Z.eqb (fst (fst o)) q && Bool.eqb (snd o) av)%bool; reflexivity. }
  destruct G as (a' & E & _ & B & G). exists a'. split; auto. split; auto. intros q av Hq. rewrite (G q av Hq).
  split; [intros v ->|intros ->]; reflexivity.
Qed.
Print Assumptions C29_set_then_get.
Example C29_runs :
  let a := with_nbrs F64 [] in
  match set_many a [(4%Z, nofZ 7, false); (6%Z, nofZ 8, true); (4%Z, nofZ 9, false)] with
  | Ok a' => (match atom_get_q a' 4 false with Ok v => neqb v (nofZ 9) | _ => false end,
              match atom_get_q a' 6 true with Ok v => neqb v (nofZ 8) | _ => false end,
              match atom_get_q a' 6 false with Ok v => neqb v (nofZ (-1)) | _ => false end)
  | Err _ => (false, false, false) end = (true, true, true).
Proof. vm_compute. reflexivity. Qed.
(** A call of set_q with a list containing a value out of range raises, but
    the values before it have been stored. *)
Theorem C29_list_not_atomic_refuted :
  exists (a : atom F64) qs vs, ~ Forall (fun q => 2 <= q <= 12)%Z qs /\ q_arrays a /\
    exists a', atom_set_qs a qs vs false = Ok (a', Some ValueError) /\
      atom_get_q a' 4 false <> atom_get_q a 4 false.
Proof.
  pose (a := with_nbrs F64 []). pose (vs := [nofZ (n := F64) 7; nofZ (n := F64) 7]).
  pose (is7 := fun r : res F64 => match r with Ok v => neqb v (nofZ 7) | Err _ => false end).
  assert (A : q_arrays a) by (repeat split; repeat constructor).
  assert (E1 : match atom_set_qs a [4; 13]%Z vs false with
               | Ok (a', Some ValueError) => is7 (atom_get_q a' 4 false) | _ => false end = true)
    by (vm_compute; reflexivity).
  assert (E2 : is7 (atom_get_q a 4 false) = false) by (vm_compute; reflexivity).
  clearbody a vs is7. exists a, [4; 13]%Z, vs. split; [|split; [exact A|]].
  - intros H. inversion H as [|? ? ? H2]; subst. inversion H2; subst. lia.
  - destruct (atom_set_qs a [4; 13]%Z vs false) as [[a' [[]|]]|]; try discriminate.
    exists a'. split; [reflexivity|]. intros H. rewrite H in E1. rewrite E1 in E2. discriminate.
Qed.
Print Assumptions C29_list_not_atomic_refuted.

(** ** C30 *)
(** After any search by cutoff, number or sann (whatever happened before),
    calculate_q gives the weight-normalised value. *)
Theorem C30_normalised_after_search :
  forall srt voro area_pow inv raw (s s' : sys Rnum) args qs averaged,
  find_neighbors srt voro area_pow inv s args = Ok (s', None) ->
  normalising (fa_method args) ->
  q_ready s' -> Forall (fun q => 2 <= q <= 12)%Z qs -> apart (s_atoms s') ->
  exists t, py_calculate_q inv raw s' qs averaged false None false = Ok t /\
    forall i a, nth_error (s_atoms s') i = Some a ->
    exists a', nth_error (s_atoms t) i = Some a' /\
      forall l E, In (Z.of_nat l) qs -> env (counted (s_atoms s') a) E ->
        atom_get_q a' (Z.of_nat l) false = Ok (steinhardt l E).
Proof.
  intros srt voro area_pow inv raw s s' args qs averaged Hf Hm Hr HF Hap.
  pose proof (proj1 (flag_after Hf) Hm) as Hv.
  destruct (C25_q_equals_definition inv raw s' qs averaged Hr HF Hap) as (t & Ht & _ & _ & H).
  { intros a _ E. congruence. }
  exists t. split; auto. intros i a Ha. destruct (H i a Ha) as (a' & Ha' & _ & H'). exists a'. split; auto.
  intros l E Hl HE. now apply H'.
Qed.
Print Assumptions C30_normalised_after_search.
(** After a Voronoi search without a filter too: the stored weights sum to 1
    (face areas as given by voro++, every cell computed, areas not summing to 0). *)
Theorem C30_normalised_after_voronoi :
  forall srt voro area_pow inv raw (s s' : sys Rnum) args mem qs averaged,
  stored s -> s_tri s = false \/ s_ghosts_created s = true ->
  find_neighbors srt voro area_pow inv s args = Ok (s', None) ->
  fa_method args = MVoronoi mem -> fa_filter args = FNone ->
  (forall i, i < length (s_atoms s') ->
     exists fs, voro i = Some fs /\ Rsum (map (fun f => area_pow (snd f) : R) fs) <> 0%R) ->
  q_ready s' -> Forall (fun q => 2 <= q <= 12)%Z qs -> apart (s_atoms s') ->
  exists t, py_calculate_q inv raw s' qs averaged false None false = Ok t /\
    forall i a, nth_error (s_atoms s') i = Some a ->
    exists a', nth_error (s_atoms t) i = Some a' /\
      forall l E, In (Z.of_nat l) qs -> env (counted (s_atoms s') a) E ->
        atom_get_q a' (Z.of_nat l) false = Ok (steinhardt l E).
Proof.
  intros srt voro area_pow inv raw s s' args mem qs averaged St AI Hf Hm Hff Hvo Hr HF Hap.
  destruct (C25_q_equals_definition inv raw s' qs averaged Hr HF Hap) as (t & Ht & _ & _ & H).
  { intros a Ha _. rewrite counted_same_cond; auto.
    - apply In_nth_error in Ha as (i & Ha). destruct (Hvo i) as (fs & Hfs & HW); [apply nth_error_Some; congruence|].
      eapply (voro_weights (area_pow := area_pow)); eauto.
    - intros b Hb. eapply voro_cond; eauto.
    - intros e He. destruct Hr as [_ Hr]. apply (Hr a Ha); auto. }
  exists t. split; auto. intros i a Ha. destruct (H i a Ha) as (a' & Ha' & _ & H'). exists a'. split; auto.
  intros l E Hl HE. now apply H'.
Qed.
Print Assumptions C30_normalised_after_voronoi.

(** The adaptive search keeps the flag of an earlier Voronoi search
    (system.cpp:1196 does not reset voronoiused), on any machine. *)
Theorem C30_adaptive_keeps_flag :
  forall (N : num) srt voro area_pow inv (s s' : sys N) args,
  find_neighbors srt voro area_pow inv s args = Ok (s', None) -> adaptive_method (fa_method args) ->
  s_vorused s' = s_vorused s.
Proof. intros N srt voro area_pow inv s s' args H Hm. now apply (proj1 (proj2 (flag_after H))). Qed.
Print Assumptions C30_adaptive_keeps_flag.
(** So the same neighbours give different q values.  Three atoms on a line
    along z in IEEE arithmetic, with the values the mathematical library has at
    the arguments that occur (cos 0 = 1, acos 1 = 0, cos (acos (-1)) = -1, ...). *)
Definition libm_axis : libm := {|
  l_cbrt := l_cbrt libm_test;
  l_cos := fun x => if SpecFloat.SFeqb x (sf_ofZ 0) then sf_ofZ 1 else sf_ofZ (-1);
  l_sin := fun _ => sf_ofZ 0;
  l_acos := fun x => if SpecFloat.SFeqb x (sf_ofZ 1) then sf_ofZ 0 else sf_lit 3141592653589793 1000000000000000;
  l_atan2 := fun _ _ => sf_ofZ 0; l_exp := fun x => x; l_log := fun x => x |}.
Definition FA : num := SF64 libm_axis.
Definition z_sys : sys FA := of_atoms FA
  (map (fun z => atom_ctor (raw_atom FA) (zv FA 1 1 z) 1 1) [1; 3; 19]%Z).
Definition z_voro (i : nat) : option (list (nat * FA)) :=
  nth_error [[(1, nofZ 1); (2, nofZ 1)]; [(0, nofZ 1)]; [(0, nofZ 1)]] i.
Definition z_args (m : meth FA) : fn_args FA := mkArgs m FNone (nofZ 2) (nlit 6 5) 2.
Definition z_adaptive := z_args (MCutoff (CutAdaptive _)).
Definition z_find (s : sys FA) (a : fn_args FA) := find_neighbors isort z_voro idp no_inv s a.
(** Neighbour lists of all atoms and q_2 of the first. *)
Definition z_q2 (r : res (outcome FA)) : option (list (list nat) * SpecFloat.spec_float) :=
  match r with
  | Ok (s, None) =>
      match py_calculate_q no_inv (fun _ => raw_atom FA) s [2%Z] false false None false with
      | Ok t => match s_atoms t with
                | a :: _ => match atom_get_q a 2 false with
                            | Ok q => Some (map (fun a => map (@nb_idx FA) (a_nbrs a)) (s_atoms t), q)
                            | Err _ => None end
                | [] => None end
      | Err _ => None end
  | _ => None
  end.
Theorem C30_stale_voronoi_refuted :
  exists q q', z_q2 (z_find z_sys z_adaptive) = Some ([[2; 1]; [0]; [0]], q) /\
    z_q2 ('(s, _) <- z_find z_sys (z_args (MVoronoi (fun _ => raw_atom FA))) ;; z_find s z_adaptive) = Some ([[2; 1]; [0]; [0]], q') /\
    SpecFloat.SFltb q (sf_lit 11 10) = true /\ SpecFloat.SFltb (sf_lit 19 10) q' = true.
Proof.
  do 2 eexists. split; [vm_compute; reflexivity|]. split; [vm_compute; reflexivity|]. split; vm_compute; reflexivity.
Qed.
Print Assumptions C30_stale_voronoi_refuted.
