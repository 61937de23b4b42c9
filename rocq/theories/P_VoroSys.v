(** Proofs about Voronoi searches and the data they leave. *)
From Coq Require Import Reals Lra ZArith List Lia.
From Verif Require Import Base Num NumR Types M_Geometry M_Container M_Neighbors M_Analysis M_Voro P_Neighbors P_QSys P_Lammps P_Voro S_Neighbors S_Voro S_Container P_Container P_VoroTri.
Import ListNotations.
Set Implicit Arguments.
Close Scope R_scope. Close Scope Z_scope.
#[local] Open Scope nat_scope.

Lemma pairwise_nth A B (P : A -> B -> Prop) : forall l m, length l = length m -> (forall i x y, nth_error l i = Some x -> nth_error m i = Some y -> P x y) -> Forall2 P l m.
Proof.
  induction l as [|x l IH]; intros [|y m] L H; try discriminate; constructor; [apply (H 0); reflexivity|]. apply IH; [injection L; auto|]. intros i. apply (H (S i)).
Qed.
Lemma upd_const A (g : A -> A) : forall (l : list A) i a, nth_error l i = Some a -> upd i (fun _ => g a) l = upd i g l.
Proof. induction l as [|x l IH]; intros [|i] a H; try discriminate; cbn in *; [congruence|]. f_equal. apply IH, H. Qed.
Lemma upd_same A : forall (l : list A) i a, nth_error l i = Some a -> upd i (fun _ => a) l = l.
Proof. induction l as [|x l IH]; intros [|i] a H; try discriminate; cbn in *; [congruence|]. f_equal. apply IH, H. Qed.
Lemma foldM_snoc A B (f : B -> A -> res B) l x : forall b, foldM f (l ++ [x]) b = (b' <- foldM f l b ;; f b' x).
Proof. induction l as [|y l IH]; intros b; cbn [app foldM bind]; [destruct (f b x); reflexivity|]. destruct (f b y); cbn [bind]; auto. Qed.

Lemma foldM_upd A (F : nat -> A -> res A) (step : list A -> nat -> res (list A)) (l0 : list A) n :
  (forall l i a, i < n -> nth_error l i = Some a -> step l i = (a' <- F i a ;; Ok (upd i (fun _ => a') l))) ->
  n <= length l0 -> (forall i a, i < n -> nth_error l0 i = Some a -> exists a', F i a = Ok a') ->
  exists l', foldM step (seq 0 n) l0 = Ok l' /\ length l' = length l0 /\
    forall i a', nth_error l' i = Some a' -> exists a, nth_error l0 i = Some a /\ (i < n -> F i a = Ok a') /\ (n <= i -> a' = a).
Proof.
  induction n as [|n IH]; intros HS HL HF.
  - exists l0. split; [reflexivity|]. split; [reflexivity|]. intros i a' H. exists a'. split; [exact H|]. split; [lia|reflexivity].
  - destruct IH as (l1 & E1 & L1 & H1); [intros l i a Hi; apply HS; lia|lia|intros i a Hi; apply HF; lia|].
    destruct (nth_error l1 n) as [a1|] eqn:Ea1; [|apply nth_error_None in Ea1; lia].
    destruct (H1 n a1 Ea1) as (a0 & Ha0 & _ & Hn). specialize (Hn (le_n n)). subst a1.
    destruct (HF n a0 ltac:(lia) Ha0) as (a' & Ea').
    exists (upd n (fun _ => a') l1). rewrite seq_S, foldM_snoc. cbn [Nat.add]. rewrite E1. cbn [bind]. rewrite (HS l1 n a0) by (auto; lia). rewrite Ea'. cbn [bind].
    split; [reflexivity|]. split; [rewrite length_upd; exact L1|]. intros i x Hx. rewrite nth_error_upd in Hx. destruct (Nat.eqb_spec i n) as [->|NE].
    + rewrite Ea1 in Hx. cbn in Hx. apply Some_inj in Hx. subst x. exists a0. split; [exact Ha0|]. split; [intros _; exact Ea'|lia].
    + destruct (H1 i x Hx) as (a & Ha & G1 & G2). exists a. split; [exact Ha|]. split; intros; [apply G1|apply G2]; lia.
Qed.

Section Search.
Variable N : num.
Variable raw : Z -> atom N.
Variable inv : m3 N -> option (m3 N).
Variable area_pow : N -> N.
Variable cells : nat -> option (cell N).
Implicit Types s : sys N.

(** What voro++ is taken to give: a cell with as many face orders as faces, at
    most 300, and neighbours that are atoms. *)
Definition good_cell (n : nat) (c : cell N) : Prop :=
  length (vc_orders c) = length (vc_faces c) /\ length (vc_faces c) <= 300 /\ Forall (fun f => fst f < n) (vc_faces c).
Definition share (fs : list (nat * N)) (f : nat * N) : N :=
  ndiv (area_pow (snd f)) (fold_left (fun w f => nadd w (area_pow (snd f))) fs (nofZ 0)).

Lemma skip_none s a k : s_filter s = 0%Z -> voro_skip s a k = Ok false.
Proof. intros H. unfold voro_skip. rewrite H. reflexivity. Qed.
Lemma slots_run s ti fs a : s_filter s = 0%Z -> nth_error (s_atoms s) ti = Some a -> length fs <= 300 ->
  Forall (fun f => fst f < length (s_atoms s)) fs ->
  exists es, voro_slots area_pow s ti fs = Ok (map Some es) /\ map nb_idx es = map fst fs /\ map nb_weight es = map (share fs) fs.
Proof.
  intros Hf Ha H3 Hi. unfold voro_slots. rewrite (get_Ok Ha). cbn [bind]. cbv zeta.
  assert (E3 : (max_nbrs <? length fs) = false) by (apply Nat.ltb_ge; exact H3). rewrite E3.
  set (W := fold_left (fun w f => nadd w (area_pow (snd f))) fs (nofZ 0)).
  set (nb := fun f : nat * N => let c := nth (fst f) (s_atoms s) a in
    mkNbr (fst f) (fst (abs_distance_ij s (a_pos a) (a_pos c))) (ndiv (area_pow (snd f)) W) (snd (abs_distance_ij s (a_pos a) (a_pos c)))).
  exists (map nb fs). split; [|split; rewrite map_map; reflexivity].
  apply mapM_nth; [rewrite !map_length, seq_length; reflexivity|]. intros i k y Hk Hy.
  assert (Li : i < length fs) by (rewrite <- (seq_length (length fs) 0); apply nth_error_Some; congruence).
  assert (k = i) as -> by (apply (nth_error_nth _ _ 0) in Hk; rewrite seq_nth in Hk by exact Li; lia).
  rewrite map_map, nth_error_map in Hy. destruct (nth_error fs i) as [f|] eqn:Ef; [|discriminate]. cbn in Hy. injection Hy as <-.
  rewrite (get_Ok Ef). cbn [bind]. rewrite (skip_none _ _ _ Hf). cbn [bind]. rewrite Forall_forall in Hi. specialize (Hi f (nth_error_In _ _ Ef)).
  rewrite (get_Ok (nth_error_nth' _ a Hi)). cbn [bind]. unfold nb. destruct (abs_distance_ij s (a_pos a) _) as [d v]. reflexivity.
Qed.
Lemma atom_search s ti a c : s_filter s = 0%Z -> nth_error (s_atoms s) ti = Some a -> cells ti = Some c -> good_cell (length (s_atoms s)) c ->
  exists es, voro_atom (faces_of cells) area_pow s ti = Ok (Some es) /\ map nb_idx es = map fst (vc_faces c) /\
    map nb_weight es = map (share (vc_faces c)) (vc_faces c).
Proof.
  intros Hf Ha Hc (_ & H3 & Hi). unfold voro_atom, faces_of. rewrite Hc. cbn [option_map].
  destruct (@slots_run s ti (vc_faces c) a Hf Ha H3 Hi) as (es & E & H1 & H2). exists es. rewrite E. cbn [bind]. cbv zeta.
  assert (FS : filter (fun o : option (nbr N) => match o with Some _ => true | None => false end) (map Some es) = map Some es).
  { clear. induction es as [|e es IH]; [reflexivity|]. cbn. now rewrite IH. }
  rewrite FS, firstn_all.
  assert (AS : all_some (map Some es) = Some es). { clear. induction es as [|e es IH]; [reflexivity|]. cbn. unfold all_some in IH. now rewrite IH. }
  rewrite AS. auto.
Qed.

(** The data of one atom after the search. *)
Definition moved (p : v3 N) (w : v3 N) : v3 N := mkV (nadd (vx w) (vx p)) (nadd (vy w) (vy p)) (nadd (vz w) (vz p)).
Lemma nth_error_firstn A : forall n (l : list A) i, i < n -> nth_error (firstn n l) i = nth_error l i.
Proof. induction n as [|n IH]; intros [|x l] [|i] H; try lia; cbn; auto. apply IH. lia. Qed.
Lemma orders_run s a (orders : list Z) : s_filter s = 0%Z -> forall n old, n <= length orders -> n <= length old ->
  exists o, foldM (fun o tj => skip <- voro_skip s a tj ;; if skip : bool then Ok o else f <- get orders tj ;; Ok (upd tj (fun _ => f) o)) (seq 0 n) old = Ok o /\
    length o = length old /\ firstn n o = firstn n orders.
Proof.
  intros Hf n old H1 H2. destruct (@foldM_upd Z (fun tj _ => get orders tj)
    (fun o tj => skip <- voro_skip s a tj ;; if skip : bool then Ok o else f <- get orders tj ;; Ok (upd tj (fun _ => f) o)) old n) as (o & E & L & H).
  - intros l i x Hi Hx. rewrite (skip_none _ _ _ Hf). reflexivity.
  - exact H2.
  - intros i x Hi Hx. destruct (nth_error orders i) as [y|] eqn:Ey; [|apply nth_error_None in Ey; lia]. exists y. apply get_Ok, Ey.
  - exists o. split; [exact E|]. split; [exact L|]. apply P_QSys.nth_error_ext'. intros i.
    destruct (Nat.lt_ge_cases i n) as [Hi|Hi].
    + rewrite !nth_error_firstn by lia. destruct (nth_error o i) as [y|] eqn:Ey; [|apply nth_error_None in Ey; lia].
      destruct (H i y Ey) as (x & _ & G & _). specialize (G Hi). apply get_inv in G. congruence.
    + rewrite !(proj2 (nth_error_None _ _)); [reflexivity|rewrite firstn_length; lia|rewrite firstn_length; lia].
Qed.

Lemma store_run s ti a c (v : vdata N) : s_filter s = 0%Z -> nth_error (s_atoms s) ti = Some a -> good_cell (length (s_atoms s)) c ->
  length (vd_orders v) = 300 ->
  exists v', store_cell s ti c v = Ok v' /\ vd_volume v' = vc_volume c /\ vd_numbers v' = vc_numbers c /\ vd_vectors v' = vc_vectors c /\
    vd_positions v' = vd_positions v ++ map (moved (a_pos a)) (triples (vc_vectors c)) /\
    firstn (length (vc_faces c)) (vd_orders v') = vc_orders c /\ length (vd_orders v') = 300.
Proof.
  intros Hf Ha (G1 & G2 & _) HL. unfold store_cell. rewrite (get_Ok Ha). cbn [bind].
  destruct (@orders_run s a (vc_orders c) Hf (length (vc_faces c)) (vd_orders v)) as (o & E & L & F); [lia|lia|]. rewrite E. cbn [bind].
  eexists. split; [reflexivity|]. cbn [vd_volume vd_numbers vd_vectors vd_positions vd_orders]. rewrite F, <- G1, firstn_all. repeat split; auto. lia.
Qed.
Lemma average_run s (vs : list (vdata N)) ti a v : nth_error (s_atoms s) ti = Some a -> nth_error vs ti = Some v ->
  Forall (fun e => nb_idx e < length vs) (a_nbrs a) ->
  exists v', average_volume s vs ti = Ok v' /\
    vd_avgvolume v' = ndiv (fold_left nadd (map (fun e => vd_volume (nth (nb_idx e) vs v)) (a_nbrs a)) (vd_volume v)) (nofZ (Z.of_nat (length (a_nbrs a)) + 1)) /\
    vd_volume v' = vd_volume v /\ vd_numbers v' = vd_numbers v /\ vd_vectors v' = vd_vectors v /\ vd_positions v' = vd_positions v /\ vd_orders v' = vd_orders v.
Proof.
  intros Ha Hv HF. unfold average_volume. rewrite (get_Ok Ha), (get_Ok Hv). cbn [bind].
  assert (G : forall es x, Forall (fun e : nbr N => nb_idx e < length vs) es ->
    foldM (fun vv e => w <- get vs (nb_idx e) ;; Ok (nadd vv (vd_volume w))) es x = Ok (fold_left nadd (map (fun e => vd_volume (nth (nb_idx e) vs v)) es) x)).
  { induction es as [|e es IH]; intros x H; [reflexivity|]. inversion_clear H. cbn [foldM map fold_left]. rewrite (get_Ok (nth_error_nth' vs v H0)). cbn [bind]. apply IH; auto. }
  rewrite (G _ _ HF). cbn [bind]. eexists. split; [reflexivity|]. cbn. auto 10.
Qed.

(** The search itself, on a system that is ready for it: [b] is the box that is
    set afterwards. *)
Theorem voronoi_core s b (vs : list (vdata N)) :
  stored s -> s_filter s = 0%Z -> (forall m, inv m <> None) -> length vs = length (s_atoms s) -> Forall (fun v => length (vd_orders v) = 300) vs ->
  (forall i, i < length (s_atoms s) -> exists c, cells i = Some c /\ good_cell (length (s_atoms s)) c) ->
  exists s' vs', (s <- get_all_neighbors_voronoi (faces_of cells) area_pow s ;; s <- box_set inv s b ;; found s) = Ok (s', None) /\
    voronoi_data cells s' vs = Ok vs' /\
    stored s' /\ length (s_atoms s') = length (s_atoms s) /\ length vs' = length vs /\ s_real s' = s_real s /\ s_actual s' = s_actual s /\ s_box s' = b /\
    s_ghosts_created s' = s_ghosts_created s /\ (forall x, box_set inv s b = Ok x -> s_tri s' = s_tri x) /\
    Forall (fun v => length (vd_orders v) = 300) vs' /\
    forall i a v c, nth_error (s_atoms s) i = Some a -> nth_error vs i = Some v -> cells i = Some c ->
    exists a' v', nth_error (s_atoms s') i = Some a' /\ nth_error vs' i = Some v' /\ a_pos a' = a_pos a /\ (a_ghost a' = a_ghost a /\ a_type a' = a_type a) /\
      map nb_idx (a_nbrs a') = map fst (vc_faces c) /\ map nb_weight (a_nbrs a') = map (share (vc_faces c)) (vc_faces c) /\
      vd_volume v' = vc_volume c /\ vd_numbers v' = vc_numbers c /\ vd_vectors v' = vc_vectors c /\
      firstn (length (a_nbrs a')) (vd_orders v') = vc_orders c /\
      vd_positions v' = vd_positions v ++ map (moved (a_pos a)) (triples (vc_vectors c)) /\
      exists vols, Forall2 (fun f x => exists d, cells (fst f) = Some d /\ vc_volume d = x) (vc_faces c) vols /\
        vd_avgvolume v' = ndiv (fold_left nadd vols (vc_volume c)) (nofZ (Z.of_nat (length vols) + 1)).
Proof.
  intros St F0 HI LV HO HC. set (n := length (s_atoms s)).
  unfold get_all_neighbors_voronoi. cbv zeta. set (s1 := s <| s_vorused := true |>).
  assert (L1 : length (s_atoms s1) = n) by reflexivity. assert (F1 : s_filter s1 = 0%Z) by exact F0.
  assert (N1 : Z.to_nat (s_nop s1) = n) by (cbn; rewrite St; apply Nat2Z.id).
  assert (S1 : s_nop s1 = s_nop s) by reflexivity. assert (R1 : s_real s1 = s_real s) by reflexivity. assert (AC1 : s_actual s1 = s_actual s) by reflexivity.
  assert (A1 : forall i a, nth_error (s_atoms s) i = Some a -> nth_error (s_atoms s1) i = Some a) by auto.
  assert (T1 : s_tri s1 = s_tri s) by reflexivity. assert (G1 : s_ghosts_created s1 = s_ghosts_created s) by reflexivity.
  clearbody s1. rewrite N1.
  assert (Hn : forall i, i < n -> exists c a es, cells i = Some c /\ good_cell n c /\ nth_error (s_atoms s) i = Some a /\ voro_atom (faces_of cells) area_pow s1 i = Ok (Some es) /\
     map nb_idx es = map fst (vc_faces c) /\ map nb_weight es = map (share (vc_faces c)) (vc_faces c)).
  { intros i Hi. destruct (HC i Hi) as (c & Hc & Hg). destruct (nth_error (s_atoms s) i) as [a|] eqn:Ea; [|apply nth_error_None in Ea; unfold n in Hi; lia].
    destruct (@atom_search s1 i _ c F1 (A1 i a Ea) Hc) as (es & E & H1 & H2); [rewrite L1; exact Hg|]. exists c, a, es. auto 10. }
  destruct (@foldM_upd (atom N) (fun ti a => r <- voro_atom (faces_of cells) area_pow s1 ti ;; Ok (match r with None => a | Some ns => a <| a_nbrs := ns |> end))
    (fun l ti => r <- voro_atom (faces_of cells) area_pow s1 ti ;; match r with None => Ok l | Some ns => Ok (upd ti (fun a => a <| a_nbrs := ns |>) l) end) (s_atoms s1) n) as (l2 & E2 & L2 & H2).
  { intros l i a Hi Ha. destruct (voro_atom _ _ _ _) as [[ns|]|]; cbn [bind]; [|rewrite (upd_same _ _ Ha); reflexivity|reflexivity]. rewrite (upd_const (fun a => a <| a_nbrs := ns |>) _ _ Ha). reflexivity. }
  { lia. }
  { intros i a Hi _. destruct (Hn i Hi) as (c & a0 & es & _ & _ & _ & E & _). rewrite E. cbn [bind]. eexists; reflexivity. }
  rewrite E2. cbn [bind]. set (s2 := s1 <| s_atoms := l2 |>).
  assert (B2 : exists s3, box_set inv s2 b = Ok s3 /\ s_atoms s3 = l2 /\ s_nop s3 = s_nop s /\ s_filter s3 = 0%Z /\ s_real s3 = s_real s /\ s_actual s3 = s_actual s /\ s_box s3 = b /\
    s_ghosts_created s3 = s_ghosts_created s /\ (forall x, box_set inv s b = Ok x -> s_tri s3 = s_tri x)).
  { assert (P2 : s_atoms s2 = l2 /\ s_nop s2 = s_nop s /\ s_filter s2 = 0%Z /\ s_real s2 = s_real s /\ s_actual s2 = s_actual s /\ s_tri s2 = s_tri s /\ s_ghosts_created s2 = s_ghosts_created s) by (unfold s2; cbn; auto 10). clearbody s2. destruct P2 as (P1 & P2 & P3 & P4 & P5 & P6 & P7).
    unfold box_set. destruct (nltb _ _).
    - destruct (inv _) eqn:E; [|destruct (HI _ E)]. eexists. split; [reflexivity|]. cbn. do 7 (split; [auto|]). intros x [= <-]. reflexivity.
    - eexists. split; [reflexivity|]. cbn. do 7 (split; [auto|]). intros x [= <-]. exact P6. }
  destruct B2 as (s3 & E3 & A3 & NO3 & F3 & R3 & AC3 & BX3 & G3 & T3). rewrite E3. cbn [bind]. unfold found.
  set (s4 := s3 <| s_found := true |>). assert (P4 : s_atoms s4 = l2 /\ s_nop s4 = s_nop s /\ s_filter s4 = 0%Z /\ s_real s4 = s_real s /\ s_actual s4 = s_actual s /\ s_box s4 = b /\
    s_ghosts_created s4 = s_ghosts_created s /\ (forall x, box_set inv s b = Ok x -> s_tri s4 = s_tri x)) by (unfold s4; cbn; auto 10).
  clearbody s4. destruct P4 as (A4 & NO4 & F4 & R4 & AC4 & BX4 & G4 & T4).
  assert (L4 : length l2 = n) by (rewrite L2; exact L1).
  assert (H4 : forall i, i < n -> exists c a es a', cells i = Some c /\ good_cell n c /\ nth_error (s_atoms s) i = Some a /\ nth_error l2 i = Some a' /\
     a_nbrs a' = es /\ a_pos a' = a_pos a /\ (a_ghost a' = a_ghost a /\ a_type a' = a_type a) /\ map nb_idx es = map fst (vc_faces c) /\ map nb_weight es = map (share (vc_faces c)) (vc_faces c)).
  { intros i Hi. destruct (Hn i Hi) as (c & a & es & Hc & Hg & Ha & E & M1 & M2). destruct (nth_error l2 i) as [a'|] eqn:Ea'; [|apply nth_error_None in Ea'; lia].
    destruct (H2 i a' Ea') as (b0 & Hb & G & _). specialize (G Hi). rewrite E in G. cbn [bind] in G. injection G as <-. rewrite (A1 i a Ha) in Hb. injection Hb as <-.
    exists c, a, es. eexists. split; [exact Hc|]. split; [exact Hg|]. split; [exact Ha|]. split; [reflexivity|]. repeat split; auto. }
  assert (NN : Z.to_nat (s_nop s4) = n) by (rewrite NO4, St; apply Nat2Z.id).
  destruct (@foldM_upd (vdata N) (fun ti v => match cells ti with None => Ok v | Some c => store_cell s4 ti c v end)
    (fun vs ti => match cells ti with None => Ok vs | Some c => v <- get vs ti ;; v <- store_cell s4 ti c v ;; Ok (upd ti (fun _ => v) vs) end) vs n) as (vs2 & E5 & L5 & H5).
  { intros l i v Hi Hv. destruct (cells i) as [c|]; cbn [bind]; [rewrite (get_Ok Hv); reflexivity|rewrite (upd_same _ _ Hv); reflexivity]. }
  { rewrite LV. apply le_n. }
  { intros i v Hi Hv. destruct (H4 i Hi) as (c & a & es & a' & Hc & Hg & Ha & Ha' & _). rewrite Hc. rewrite <- A4 in Ha'.
    destruct (@store_run s4 i a' c v F4 Ha') as (v' & E & _); [rewrite A4, L4; exact Hg| |eauto].
    rewrite Forall_forall in HO. apply HO, (nth_error_In _ _ Hv). }
  assert (H6 : forall i, i < n -> exists c a a' v v', cells i = Some c /\ nth_error (s_atoms s) i = Some a /\ nth_error l2 i = Some a' /\ nth_error vs i = Some v /\ nth_error vs2 i = Some v' /\
     vd_volume v' = vc_volume c /\ vd_numbers v' = vc_numbers c /\ vd_vectors v' = vc_vectors c /\
     vd_positions v' = vd_positions v ++ map (moved (a_pos a)) (triples (vc_vectors c)) /\
     firstn (length (a_nbrs a')) (vd_orders v') = vc_orders c /\ length (vd_orders v') = 300 /\ a_pos a' = a_pos a /\ (a_ghost a' = a_ghost a /\ a_type a' = a_type a) /\
     map nb_idx (a_nbrs a') = map fst (vc_faces c) /\ map nb_weight (a_nbrs a') = map (share (vc_faces c)) (vc_faces c) /\ good_cell n c).
  { intros i Hi. destruct (H4 i Hi) as (c & a & es & a' & Hc & Hg & Ha & Ha' & <- & Q1 & Q2 & Q3 & Q4).
    destruct (nth_error vs2 i) as [v'|] eqn:Ev'; [|apply nth_error_None in Ev'; lia]. destruct (H5 i v' Ev') as (v & Hv & G & _). specialize (G Hi). rewrite Hc in G.
    assert (Ha4 := Ha'). rewrite <- A4 in Ha4.
    destruct (@store_run s4 i a' c v F4 Ha4) as (v'' & E & W1 & W2 & W3 & W4 & W5 & W6); [rewrite A4, L4; exact Hg|rewrite Forall_forall in HO; apply HO, (nth_error_In _ _ Hv)|].
    rewrite E in G. injection G as ->. exists c, a, a', v, v'. rewrite <- Q1 at 1.
    assert (LN : length (a_nbrs a') = length (vc_faces c)) by (rewrite <- (map_length nb_idx), Q3; apply map_length). rewrite LN. rewrite <- Q1. repeat split; auto; try apply Q2; try (destruct Hg as (X1 & X2 & X3); auto). }
  assert (LVS : length vs2 = n) by (rewrite L5, LV; reflexivity).
  assert (AV : forall i, i < n -> exists a' v v', nth_error l2 i = Some a' /\ nth_error vs2 i = Some v /\ average_volume s4 vs2 i = Ok v' /\
    vd_avgvolume v' = ndiv (fold_left nadd (map (fun e => vd_volume (nth (nb_idx e) vs2 v)) (a_nbrs a')) (vd_volume v)) (nofZ (Z.of_nat (length (a_nbrs a')) + 1)) /\
    vd_volume v' = vd_volume v /\ vd_numbers v' = vd_numbers v /\ vd_vectors v' = vd_vectors v /\ vd_positions v' = vd_positions v /\ vd_orders v' = vd_orders v).
  { intros i Hi. destruct (H6 i Hi) as (c & a & a' & v & v' & Hc & Ha & Ha' & Hv & Hv' & _ & _ & _ & _ & _ & _ & _ & _ & Q & _ & Hg).
    assert (Ha4 := Ha'). rewrite <- A4 in Ha4. destruct (@average_run s4 vs2 i a' v' Ha4 Hv') as (v2 & E & W).
    - apply Forall_forall. intros e He. apply (in_map nb_idx) in He. rewrite Q in He. apply in_map_iff in He as (f & <- & Hf). destruct Hg as (_ & _ & X). rewrite Forall_forall in X. rewrite LVS. apply X, Hf.
    - exists a', v', v2. auto. }
  assert (EX : exists vs3, find_average_volume s4 vs2 = Ok vs3 /\ length vs3 = n /\ forall i v', nth_error vs3 i = Some v' -> average_volume s4 vs2 i = Ok v').
  { unfold find_average_volume. rewrite NN. clear - AV. assert (G : forall k m, k + m <= n -> exists vs3, mapM (average_volume s4 vs2) (seq k m) = Ok vs3 /\ length vs3 = m /\
      forall i v', nth_error vs3 i = Some v' -> average_volume s4 vs2 (k + i) = Ok v').
    { intros k m. revert k. induction m as [|m IH]; intros k Hk; [exists []; repeat split; auto; intros [|i]; discriminate|]. cbn [seq mapM].
      destruct (AV k ltac:(lia)) as (_ & _ & v' & _ & _ & E & _). rewrite E. cbn [bind]. destruct (IH (S k)) as (r & Er & Lr & Hr); [lia|]. rewrite Er. cbn [bind].
      exists (v' :: r). split; [reflexivity|]. split; [cbn; lia|]. intros [|i] w Hw; [rewrite Nat.add_0_r; injection Hw as <-; exact E|]. rewrite <- Nat.add_succ_comm. exact (Hr i w Hw). }
    destruct (G 0 n (le_n n)) as (r & Er & Lr & Hr). exists r. auto. }
  destruct EX as (vs3 & E7 & L7 & H7). exists s4, vs3. split; [reflexivity|]. unfold voronoi_data. rewrite NN, E5. cbn [bind]. split; [exact E7|].
  split; [unfold stored; rewrite NO4, A4, L4; exact St|]. split; [rewrite A4; exact L4|]. split; [rewrite L7, LV; reflexivity|]. split; [exact R4|]. split; [exact AC4|]. split; [exact BX4|]. split; [exact G4|]. split; [exact T4|].
  assert (FIN : forall i, i < n -> exists v', nth_error vs3 i = Some v' /\ average_volume s4 vs2 i = Ok v').
  { intros i Hi. destruct (nth_error vs3 i) as [v'|] eqn:E; [|apply nth_error_None in E; lia]. exists v'. split; [reflexivity|apply H7, E]. }
  split.
  { apply Forall_forall. intros v' Hv'. apply In_nth_error in Hv' as (i & Hv'). assert (Hi : i < n) by (rewrite <- L7; apply nth_error_Some; congruence).
    destruct (H6 i Hi) as (c & a & a' & v & w & _ & _ & _ & _ & Hw & _ & _ & _ & _ & _ & LO & _). destruct (AV i Hi) as (a2 & w2 & v2 & _ & Hw2 & E & _ & _ & _ & _ & _ & Q).
    rewrite (H7 i v' Hv') in E. injection E as <-. rewrite Hw in Hw2. injection Hw2 as <-. rewrite Q. exact LO. }
  intros i a v c Ha Hv Hc. assert (Hi : i < n) by (apply nth_error_Some; congruence).
  destruct (H6 i Hi) as (c' & a0 & a' & v0 & w & Hc' & Ha0 & Ha' & Hv0 & Hw & V1 & V2 & V3 & V4 & V5 & V6 & V7 & V8 & V9 & V10 & Hg).
  assert (c' = c) as -> by congruence. assert (a0 = a) as -> by congruence. assert (v0 = v) as -> by congruence.
  destruct (AV i Hi) as (a2 & w2 & v2 & Ha2 & Hw2 & E & U1 & U2 & U3 & U4 & U5 & U6). assert (a2 = a') as -> by congruence. assert (w2 = w) as -> by congruence.
  destruct (FIN i Hi) as (v' & Hv' & E'). assert (v2 = v') as -> by congruence.
  exists a', v'. rewrite A4. split; [exact Ha'|]. split; [exact Hv'|]. split; [exact V7|]. split; [exact V8|]. split; [exact V9|]. split; [exact V10|].
  split; [congruence|]. split; [congruence|]. split; [congruence|]. split; [congruence|]. split; [congruence|].
  exists (map (fun e => vd_volume (nth (nb_idx e) vs2 w)) (a_nbrs a')). split.
  - assert (G : forall es fs, map (@nb_idx N) es = map fst fs -> Forall (fun f : nat * N => fst f < n) fs ->
      Forall2 (fun f x => exists d, cells (fst f) = Some d /\ vc_volume d = x) fs (map (fun e => vd_volume (nth (nb_idx e) vs2 w)) es)).
    { induction es as [|e es IH]; intros [|f fs] EQ FF; try discriminate; [constructor|]. cbn [map] in *. injection EQ as EQ1 EQ2. inversion_clear FF.
      constructor; [|apply IH; auto]. rewrite EQ1. destruct (H6 (fst f) H) as (d & _ & _ & _ & x & Hd & _ & _ & _ & Hx & X1 & _). exists d. split; [exact Hd|].
      rewrite (nth_error_nth _ _ w Hx). congruence. }
    apply G; [exact V9|]. apply Hg.
  - rewrite U1, V1, map_length. reflexivity.
Qed.

(** What the search does before it starts: a triclinic cell without ghosts is put
    with its 26 copies into a larger one. *)
Lemma embed_spec (s : sys N) :
  stored s -> s_real s = Z.of_nat (length (s_atoms s)) -> all_real (s_atoms s) ->
  s_tri s = true -> s_ghosts_created s = false -> (forall m, inv m <> None) ->
  exists se new, embed_triclinic inv raw s = Ok se /\ stored se /\ s_real se = s_real s /\ s_filter se = s_filter s /\ s_ghosts_created se = true /\
    s_actual se = Some (box_get s) /\ s_atoms se = s_atoms s ++ new /\
    copies_of (box_get s) 1 1 1 (s_atoms s) new 1 (Z.of_nat (length (s_atoms s)) + 1) /\ length new = 26 * length (s_atoms s).
Proof.
  intros St Re Al Tr Gh HI. unfold embed_triclinic. rewrite Tr, Gh. cbn [andb negb].
  assert (GA : get_atoms s = Ok (s_atoms s)).
  { unfold get_atoms. rewrite Re, Nat2Z.id. assert (M := @mapM_get_prefix _ (s_atoms s) []). rewrite app_nil_r in M. exact M. }
  rewrite GA. cbn [bind].
  assert (BS : forall (s : sys N) b, exists s', box_set inv s b = Ok s' /\ s_filter s' = s_filter s /\ s_actual s' = s_actual s).
  { intros q b. unfold box_set. destruct (nltb _ _); [destruct (inv _) eqn:E; [|destruct (HI _ E)]|]; eexists; split; try reflexivity; auto. }
  assert (RC : exists sr lr, repeat_cell inv raw s (1, 1, 1)%Z (Some (s_atoms s)) true true = Ok (sr, lr) /\ s_filter sr = s_filter s /\ s_ghosts_created sr = true /\ s_actual sr = Some (box_get s)).
  { unfold repeat_cell. cbn [bind]. destruct (BS (s <| s_actual := Some (box_get s) |>) (scale_box (box_get s) (1, 1, 1)%Z)) as (q & E & F1 & F2). rewrite E. cbn [bind].
    do 2 eexists. split; [reflexivity|]. cbn. auto. }
  destruct RC as (sr & lr & Er & F1 & G1 & A1). rewrite Er. cbn [bind].
  apply repeat_spec in Er as (l' & new & -> & -> & HC & Ln & _ & _ & _). assert (L26 : length (shifts 1 1 1) = 26) by reflexivity. rewrite L26 in Ln.
  unfold embed_in_cubic_box. destruct (BS (set_atoms sr (s_atoms s ++ new)) (cube_of (s_box (set_atoms sr (s_atoms s ++ new))))) as (se & E & F2 & A2). rewrite E.
  apply box_set_atoms in E as (A3 & N3 & R3 & G3 & _). cbn in A3, N3, R3, G3, F2, A2.
  exists se, new. split; [reflexivity|]. split; [unfold stored; rewrite N3, A3; reflexivity|]. split.
  { rewrite R3. unfold count_real. rewrite filter_app, app_length, filter_every, filter_none.
    - rewrite Nat.add_0_r. symmetry. exact Re.
    - intros x Hx. destruct HC as (keys & _ & _ & F3 & _). apply In_nth_error in Hx as (i & Hx).
      destruct (F2_nth_r F3 Hx) as (k & Hk & R). destruct k as [[[a b] c] m]. destruct R as (_ & _ & _ & _ & E). unfold is_real. rewrite E. reflexivity.
    - intros x Hx. unfold is_real. rewrite (Al x Hx). reflexivity. }
  split; [congruence|]. split; [congruence|]. split; [congruence|]. auto.
Qed.

Theorem voronoi_run srt s t pad nl (vs : list (vdata N)) :
  stored s -> (embedded s = true -> s_real s = Z.of_nat (length (s_atoms s)) /\ all_real (s_atoms s)) ->
  (forall m, inv m <> None) -> length vs = searched s -> Forall (fun v => length (vd_orders v) = 300) vs ->
  (forall i, i < searched s -> exists c, cells i = Some c /\ good_cell (searched s) c) ->
  exists s' vs', find_neighbors_voronoi raw inv area_pow cells srt s FNone t pad nl vs = Ok (s', None, vs') /\
    stored s' /\ length (s_atoms s') = searched s /\ length vs' = length vs /\ s_real s' = s_real s /\ box_get s' = box_get s /\
    (box_set inv s (s_box s) = Ok s \/ s_ghosts_created s = true \/ embedded s = true -> embedded s' = false) /\
    Forall (fun v => length (vd_orders v) = 300) vs' /\
    (forall i a, nth_error (s_atoms s) i = Some a -> exists a', nth_error (s_atoms s') i = Some a' /\ same_place a' a) /\
    (embedded s = true -> exists l new, s_atoms s' = l ++ new /\ length l = length (s_atoms s) /\
       exists ks : list key, NoDup ks /\ (forall k, In k ks <-> shift_ok 1 1 1 k (length (s_atoms s))) /\ Forall2 (copy_rel (box_get s) (s_atoms s) 1) ks new) /\
    forall i v c, nth_error vs i = Some v -> cells i = Some c ->
    exists a' v', nth_error (s_atoms s') i = Some a' /\ nth_error vs' i = Some v' /\
      map nb_idx (a_nbrs a') = map fst (vc_faces c) /\ map nb_weight (a_nbrs a') = map (share (vc_faces c)) (vc_faces c) /\
      vd_volume v' = vc_volume c /\ vd_numbers v' = vc_numbers c /\ vd_vectors v' = vc_vectors c /\
      firstn (length (a_nbrs a')) (vd_orders v') = vc_orders c /\
      vd_positions v' = vd_positions v ++ map (moved (a_pos a')) (triples (vc_vectors c)) /\
      exists vols, Forall2 (fun f x => exists d, cells (fst f) = Some d /\ vc_volume d = x) (vc_faces c) vols /\
        vd_avgvolume v' = ndiv (fold_left nadd vols (vc_volume c)) (nofZ (Z.of_nat (length vols) + 1)).
Proof.
  intros St AI HI LV HO HC. unfold find_neighbors_voronoi, find_neighbors, reset_all_neighbors. rewrite (each_atom_stored _ St). cbn [bind fa_method fa_filter filter_code].
  cbv zeta. set (s0 := s <| s_atoms := map (@reset_atom_all N) (s_atoms s) |> <| s_filter := 0%Z |>).
  assert (L0 : length (s_atoms s0) = length (s_atoms s)) by apply map_length.
  assert (A0 : forall i a, nth_error (s_atoms s) i = Some a -> nth_error (s_atoms s0) i = Some (reset_atom_all a)).
  { intros i a H. change (s_atoms s0) with (map (@reset_atom_all N) (s_atoms s)). rewrite nth_error_map, H. reflexivity. }
  assert (St0 : stored s0) by (unfold stored; rewrite L0; exact St).
  assert (EM : exists se new, embed_triclinic inv raw s0 = Ok se /\ stored se /\ s_real se = s_real s /\ s_filter se = 0%Z /\ s_ghosts_created se = (embedded s || s_ghosts_created s)%bool /\
    s_tri se = (if embedded s then s_tri se else s_tri s) /\
    match s_actual se with Some b => b | None => s_box s end = box_get s /\ s_atoms se = s_atoms s0 ++ new /\ length (s_atoms se) = searched s /\
    (embedded s = true -> copies_of (box_get s) 1 1 1 (s_atoms s0) new 1 (Z.of_nat (length (s_atoms s0)) + 1))).
  { unfold searched. destruct (embedded s) eqn:EB.
    - destruct (AI eq_refl) as [Re Al]. unfold embedded in EB. apply andb_prop in EB as [Tr Gh]. apply negb_true_iff in Gh.
      assert (Re0 : s_real s0 = Z.of_nat (length (s_atoms s0))) by (rewrite L0; exact Re).
      assert (Al0 : all_real (s_atoms s0)).
      { intros x Hx. apply in_map_iff in Hx as (y & <- & Hy). change (a_ghost (reset_atom_all y)) with (a_ghost y). apply (Al y Hy). }
      destruct (@embed_spec s0 St0 Re0 Al0 Tr Gh HI) as (se & new & E & Q1 & Q2 & Q3 & Q4 & Q5 & Q6 & Q7 & Q8). exists se, new. split; [exact E|]. split; [exact Q1|]. split; [exact Q2|]. split; [exact Q3|].
      split; [exact Q4|]. split; [reflexivity|]. split; [rewrite Q5; reflexivity|]. split; [exact Q6|]. split; [rewrite Q6, app_length, Q8, L0; lia|]. intros _. exact Q7.
    - exists s0, []. unfold embed_triclinic. change (s_tri s0 && negb (s_ghosts_created s0))%bool with (embedded s). rewrite EB. split; [reflexivity|]. split; [exact St0|].
      do 3 (split; [reflexivity|]). split; [reflexivity|]. split; [reflexivity|]. split; [rewrite app_nil_r; reflexivity|]. split; [exact L0|]. discriminate. }
  destruct EM as (se & new & E0 & Ste & Re & Fe & Ge & Te & BGe & Ae & Le & Ce). rewrite E0. cbn [bind].
  destruct (@voronoi_core se (s_box s0) vs) as (s' & vs' & E1 & E2 & St' & L' & LV' & R' & AC' & BX' & G' & T' & HO' & H); auto.
  { congruence. } { intros i Hi. rewrite Le in *. apply HC, Hi. }
  assert (KEEP : forall i a, nth_error (s_atoms se) i = Some a -> exists a', nth_error (s_atoms s') i = Some a' /\ same_place a' a).
  { intros i a Ha. assert (Hi : i < searched s) by (rewrite <- Le; apply nth_error_Some; congruence). destruct (HC i Hi) as (c & Hc & _).
    destruct (nth_error vs i) as [v|] eqn:Ev; [|apply nth_error_None in Ev; lia]. destruct (H i a v c Ha Ev Hc) as (a' & v' & Ha' & _ & Q1 & (Q2 & Q3) & _). exists a'. repeat split; assumption. }
  rewrite E1. cbn [bind]. rewrite E2. cbn [bind]. exists s', vs'. split; [reflexivity|]. split; [exact St'|]. split; [congruence|]. split; [exact LV'|]. split; [congruence|].
  split; [unfold box_get at 1; rewrite AC', BX'; exact BGe|]. split; [|split; [exact HO'|split; [|split]]].
  - intros Q. unfold embedded. rewrite G', Ge. destruct (embedded s) eqn:EB; [apply andb_false_r|]. cbn [orb]. unfold embedded in EB.
    destruct (s_ghosts_created s); [apply andb_false_r|]. destruct Q as [Q|[Q|Q]]; try discriminate Q. cbn [negb] in *. rewrite andb_true_r in *.
    assert (X : exists x, box_set inv se (s_box s0) = Ok x /\ s_tri x = s_tri s).
    { change (s_box s0) with (s_box s). unfold box_set in Q |- *. destruct (nltb _ _).
      - destruct (inv _) as [ri|]; [|discriminate]. eexists. split; [reflexivity|]. injection Q as Q. rewrite <- Q. reflexivity.
      - eexists. split; [reflexivity|]. exact Te. }
    destruct X as (x & Ex & Tx). rewrite (T' x Ex), Tx. exact EB.
  - intros i a Ha. destruct (KEEP i (reset_atom_all a)) as (a' & Ha' & Q); [|exists a'; auto]. rewrite Ae. rewrite nth_error_app1; [apply A0, Ha|]. rewrite L0. apply nth_error_Some. congruence.
  - intros EB. specialize (Ce EB). exists (firstn (length (s_atoms s)) (s_atoms s')), (skipn (length (s_atoms s)) (s_atoms s')). split; [symmetry; apply firstn_skipn|].
    split; [apply firstn_length_le; rewrite L', Ae, app_length, L0; lia|].
    destruct Ce as (ks & K1 & K2 & K3 & _). exists ks. split; [exact K1|]. split; [rewrite L0 in K2; exact K2|].
    assert (SK : Forall2 same_place (skipn (length (s_atoms s)) (s_atoms s')) new).
    { assert (AL : Forall2 same_place (s_atoms s') (s_atoms se)).
      { apply pairwise_nth; [congruence|]. intros i x y Hx Hy. destruct (KEEP i y Hy) as (a' & Ha' & Q). assert (a' = x) as -> by congruence. exact Q. }
      rewrite Ae in AL. rewrite <- L0. clear - AL. revert AL. generalize (s_atoms s'). induction (s_atoms s0) as [|x q IH]; intros m AL; [exact AL|]. inversion AL; subst. cbn. apply IH. assumption. }
    revert SK. generalize (skipn (length (s_atoms s)) (s_atoms s')). clear - K3. induction K3 as [|k g ks new Hk K3 IH]; intros m SK; inversion SK; subst; constructor; [|apply IH; assumption].
    match goal with X : same_place _ _ |- _ => destruct X as (P1 & P2 & P3) end. destruct k as [[[i j] k] q]. destruct Hk as (a & Ha & D & T & G). change (s_atoms s0) with (map (@reset_atom_all N) (s_atoms s)) in Ha. rewrite nth_error_map in Ha.
    destruct (nth_error (s_atoms s) q) as [a0|] eqn:Ea0; [|discriminate Ha]. injection Ha as <-. exists a0. split; [exact Ea0|]. rewrite P1, P2, P3. auto.
  - intros i v c Hv Hc. destruct (nth_error (s_atoms se) i) as [a|] eqn:Ea; [|apply nth_error_None in Ea; assert (i < length vs) by (apply nth_error_Some; congruence); lia].
    destruct (H i a v c Ea Hv Hc) as (a' & v' & Ha' & Hv' & Q1 & _ & Q). exists a', v'. rewrite Q1. auto.
Qed.
End Search.
