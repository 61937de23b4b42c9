(** Property C74: storing the atoms of a system back into it, as most analyses
    do at the end (core.py:714, 813, 819, 1052, 1166, 1233, 1515, 1631, 1906
    through the setter core.py:135-152). *)
From Coq Require Import ZArith List Lia Bool Floats.
From Verif Require Import Base Num NumF NumP Types Ex M_Geometry M_Container M_Neighbors M_Steinhardt M_Analysis
  S_Container S_Neighbors S_Store P_Store P_History C_Neighbors C_Steinhardt.
Import ListNotations.
#[local] Open Scope nat_scope.

(** From 200 atoms on, without ghosts, nothing changes at all. *)
Theorem C74_large :
  forall (N : num) (inv : m3 N -> option (m3 N)) (raw : Z -> atom N) (s : sys N),
  all_real (s_atoms s) -> 200 <= length (s_atoms s) ->
  s_nop s = Z.of_nat (length (s_atoms s)) -> s_real s = Z.of_nat (length (s_atoms s)) -> s_ghost s = 0%Z ->
  get_atoms s = Ok (s_atoms s) /\ atoms_set inv raw s (s_atoms s) = Ok s.
Proof. intros. now apply store_large. Qed.
Print Assumptions C74_large.

(** Below 200 atoms: [s] is a system whose [l] atoms were assigned, [t] the same
    after any computation.  Storing the real atoms of [t] succeeds, changes
    nothing but the ghosts, and puts a new ghost of the same id, type and
    coordinates where each ghost was - without neighbours or results, and with
    the condition the memory held. *)
Theorem C74_small :
  forall (N : num) (inv : m3 N -> option (m3 N)) (raw raw' : Z -> atom N) (s0 s t : sys N) (l : list (atom N)),
  all_real l -> 1 <= length l < 200 -> atoms_set inv raw s0 l = Ok s -> only_computed s t ->
  exists l' old new,
    s_atoms t = l' ++ old /\ get_atoms t = Ok l' /\ length l' = length l /\
    atoms_set inv raw' t l' = Ok (t <| s_atoms := l' ++ new |>) /\
    Forall2 (@same_place N) old new /\
    (forall g, In g new -> a_ghost g = 1%Z /\ blank (raw' (a_id g)) g) /\ 200 <= length (l' ++ new).
Proof. intros N inv raw raw' s0 s t l. apply store_small. Qed.
Print Assumptions C74_small.

(** A system to which this applies again: storing counts as a computation. *)
Theorem C74_small_again :
  forall (N : num) (inv : m3 N -> option (m3 N)) (raw raw' : Z -> atom N) (s0 s t u : sys N) (l l' : list (atom N)),
  all_real l -> 1 <= length l < 200 -> atoms_set inv raw s0 l = Ok s -> only_computed s t ->
  get_atoms t = Ok l' -> atoms_set inv raw' t l' = Ok u -> only_computed s u.
Proof.
  intros N inv raw raw' s0 s t u l l' A L E C G H.
  destruct (store_small raw' A L E C) as (l2 & old & new & Et & G2 & _ & H2 & F & _).
  rewrite G in G2. injection G2 as <-. rewrite H in H2. injection H2 as ->.
  eapply only_computed_trans; [exact C|]. split; [|destruct t; reflexivity].
  rewrite Et. cbn [s_atoms]. change (s_atoms (t <| s_atoms := l' ++ new |>)) with (l' ++ new).
  apply Forall2_app; [|exact F]. clear. induction l'; constructor; auto using same_place_refl.
Qed.
Print Assumptions C74_small_again.

(** The searches for neighbours are computations in this sense, as long as no
    Voronoi search puts a triclinic cell into a larger one. *)
Theorem C74_searches_compute :
  forall (N : num) srt voro area_pow (inv : m3 N -> option (m3 N)) (raw : Z -> atom N) (s0 s s' : sys N) (l : list (atom N)) args e,
  all_real l -> 1 <= length l < 200 -> atoms_set inv raw s0 l = Ok s ->
  find_neighbors srt voro area_pow inv s args = Ok (s', e) -> only_computed s s'.
Proof.
  intros N srt voro area_pow inv raw s0 s s' l args e A L E H.
  assert (B : box_settled inv s /\ s_ghosts_created s = true).
  { rewrite atoms_set_small in E by exact L. destruct (neqb _ _); [discriminate|].
    destruct (box_set inv _ _) as [s2|] eqn:E2; cbn [bind] in E; [|discriminate]. injection E as <-. split; [|reflexivity].
    apply set_atoms_settled. apply box_set_settled in E2. unfold box_settled, box_set in *.
    change (s_box (s2 <| s_ghosts_created := true |>)) with (s_box s2). destruct (nltb _ _).
    - destruct (inv _) as [ri|]; [|discriminate].
      assert (H' := f_equal (fun r => match r with Ok x => x | Err _ => s2 end) E2). cbn beta iota in H'.
      apply (f_equal (fun x => x <| s_ghosts_created := true |>)) in H'. f_equal. exact H'.
    - assert (H' := f_equal (fun r => match r with Ok x => x | Err _ => s2 end) E2). cbn beta iota in H'.
      apply (f_equal (fun x => x <| s_ghosts_created := true |>)) in H'. f_equal. exact H'. }
  destruct B as (B & G). apply physics_computed, Ps_same.
  apply (@find_Ps N srt voro area_pow inv s args s' e B); [|exact H].
  unfold no_embed. destruct (fa_method args); auto.
Qed.
Print Assumptions C74_searches_compute.

(** ** A run in double precision: eight atoms in a low cell, every atom with its
    own images above and below as neighbours.  The libm used here has the right
    values at the arguments that occur. *)
Definition PA : num := PF libm_axis.
Definition chain_box : m3 PA := diag (N := PA) (nofZ 100) (nofZ 100) (nofZ 2).
Definition chain_atoms : list (atom PA) :=
  map (fun k => atom_ctor (raw_atom PA) (zv PA (10 * k) 50 1) k 1) [1; 2; 3; 4; 5; 6; 7; 8]%Z.
Definition chain_sys : sys PA := sbox (sys_ctor (raw_sys PA)) chain_box.
(** Memory in which the conditions of new atoms read as [c]. *)
Definition memc (c : Z) : Z -> atom PA := fun _ => raw_atom PA <| a_cond := c |>.
Definition found_by {N : num} (inv : m3 N -> option (m3 N)) (mem : Z -> atom N) (s0 : sys N) (l : list (atom N)) (args : fn_args N) : res (sys N) :=
  s <- atoms_set inv mem s0 l ;; '(s, e) <- run s args ;; match e with None => Ok s | Some x => Err x end.
Notation chain_found := (found_by no_inv (memc 0) chain_sys chain_atoms (cutoff_args PA 3 FNone)).
(** q_2 (averaged or not) of the first atom, and the same after the chi
    parameters have been calculated. *)
Definition q2_of {N : num} (mem : Z -> atom N) (averaged : bool) (s : sys N) : res N :=
  s <- py_calculate_q no_inv mem s [2%Z] averaged false None false ;;
  a <- get (s_atoms s) 0 ;; atom_get_q a 2 averaged.
Definition q2_after_chi {N : num} (mem : Z -> atom N) (averaged : bool) (s : sys N) : res N :=
  '(s, _) <- calculate_chiparams no_inv mem s false ;; q2_of mem averaged s.
Definition okb {A} (p : A -> bool) (r : res A) : bool := match r with Ok v => p v | Err _ => false end.
Definition is_one {N : num} (x : N) : bool := neqb x n1.
Definition is_nan {N : num} (x : N) : bool := negb (neqb x x).
Definition chain_check {N : num} (mem : Z -> Z -> atom N) (s : sys N) : bool :=
  forallb (fun a => Nat.eqb (length (a_nbrs a)) 2) (s_atoms s) && Nat.eqb (length (s_atoms s)) 216 &&
  okb is_one (q2_of (mem 0%Z) false s) && okb is_one (q2_of (mem 0%Z) true s) &&
  okb is_one (q2_after_chi (mem 0%Z) false s) && okb is_nan (q2_after_chi (mem 1%Z) false s) &&
  okb is_nan (q2_after_chi (mem 0%Z) true s).
Lemma okb_ok {A} (p : A -> bool) r : okb p r = true -> exists v, r = Ok v /\ p v = true.
Proof. destruct r; cbn; [eauto|discriminate]. Qed.

(** REFUTED: the results of an analysis change by another analysis before it.
    Every atom has two neighbours and q_2 = 1, averaged or not.  After
    calculate_chiparams q_2 is a number or not according to what the memory of
    the new ghosts held, and the averaged q_2 is not a number even for memory
    that is all zero. *)
Theorem C74_small_refuted :
  exists s : sys PA, chain_found = Ok s /\
    (forall a, In a (s_atoms s) -> length (a_nbrs a) = 2) /\ length (s_atoms s) = 216 /\
    (exists q, q2_of (memc 0) false s = Ok q /\ is_one q = true) /\
    (exists q, q2_of (memc 0) true s = Ok q /\ is_one q = true) /\
    (exists q, q2_after_chi (memc 0) false s = Ok q /\ is_one q = true) /\
    (exists q, q2_after_chi (memc 1) false s = Ok q /\ is_nan q = true) /\
    (exists q, q2_after_chi (memc 0) true s = Ok q /\ is_nan q = true).
Proof.
  assert (F : okb (chain_check memc) chain_found = true) by (vm_compute; reflexivity).
  apply okb_ok in F as (s & E & F). exists s. split; [exact E|]. unfold chain_check in F.
  repeat (apply andb_true_iff in F as [F ?]).
  rewrite forallb_forall in F. split; [intros a Ha; now apply Nat.eqb_eq, F|].
  split; [now apply Nat.eqb_eq|]. repeat split; now apply okb_ok.
Qed.
Print Assumptions C74_small_refuted.

(** The same run meets the hypotheses of C74_small. *)
Lemma found_by_computes N mem (s0 t : sys N) l args : all_real l -> 1 <= length l < 200 -> found_by no_inv mem s0 l args = Ok t ->
  length (s_atoms t) = 216 -> (forall a, In a (s_atoms t) -> length (a_nbrs a) = 2) ->
  exists s, atoms_set no_inv mem s0 l = Ok s /\ only_computed s t /\ exists a, In a (skipn 8 (s_atoms t)) /\ a_nbrs a <> [].
Proof.
  intros AR L E L2 N2. unfold found_by in E.
  destruct (atoms_set no_inv mem s0 l) as [s|] eqn:A; cbn [bind] in E; [|discriminate].
  destruct (run s args) as [[t' e]|] eqn:R; cbn [bind] in E; [|discriminate].
  destruct e; [discriminate|]. injection E as ->. exists s. split; [reflexivity|]. split.
  - exact (C74_searches_compute N isort no_voro idp no_inv mem s0 s t l args None AR L A R).
  - destruct (nth_error (s_atoms t) 8) as [a|] eqn:Ea; [|apply nth_error_None in Ea; lia].
    exists a. split.
    + apply (nth_error_In (skipn 8 (s_atoms t)) 0). clear -Ea. revert Ea. generalize (s_atoms t). intros k.
      do 9 (destruct k as [|? k]; [discriminate|]). auto.
    + apply nth_error_In in Ea. apply N2 in Ea. intros Z. rewrite Z in Ea. discriminate.
Qed.
Lemma chain_real : all_real chain_atoms /\ 1 <= length chain_atoms < 200.
Proof.
  unfold chain_atoms. split; [|rewrite map_length; cbn [length]; lia].
  intros a Ha. apply in_map_iff in Ha as (k & <- & _). reflexivity.
Qed.
Example C74_small_hyp : exists s t : sys PA,
  all_real chain_atoms /\ 1 <= length chain_atoms < 200 /\ atoms_set no_inv (memc 0) chain_sys chain_atoms = Ok s /\
  only_computed s t /\ exists a, In a (skipn 8 (s_atoms t)) /\ a_nbrs a <> [].
Proof.
  destruct C74_small_refuted as (t & E & N2 & L & _). destruct chain_real as (AR & LR).
  pose proof (found_by_computes PA (memc 0) chain_sys t chain_atoms (cutoff_args PA 3 FNone) AR LR E) as H.
  specialize (H L N2). destruct H as (s & H1 & H2 & H3). exists s, t. repeat (split; [assumption|]). assumption.
Qed.

(** ** Large systems with ghosts: a Voronoi search on a triclinic cell makes
    ghosts, storing the atoms drops them. *)
Theorem C74_ghosts_dropped :
  forall (N : num) (inv : m3 N -> option (m3 N)) (raw : Z -> atom N) (s : sys N) (l : list (atom N)),
  counters_ok s -> get_atoms s = Ok l -> 200 <= length l ->
  exists s', atoms_set inv raw s l = Ok s' /\ s_atoms s' = l /\ s_ghosts_created s' = s_ghosts_created s /\
    s_box s' = s_box s /\
    forall i a e, nth_error l i = Some a -> In e (a_nbrs a) -> length l <= nb_idx e ->
    forall inv' raw' qs q averaged t, In q qs -> py_calculate_q inv' raw' s' qs averaged false None false <> Ok t.
Proof.
  intros N inv raw s l C G L. destruct (store_drops inv raw C G L) as (s' & E & A & P & Gh & B & _).
  exists s'. split; [exact E|]. split; [exact A|]. split; [exact Gh|]. split; [exact B|].
  intros i a e Hi He Hb inv' raw' qs q averaged t Hq.
  apply (@q_reads N inv' raw' s' t qs q averaged false i a e); auto.
  - now rewrite A.
  - rewrite P, Nat2Z.id. apply nth_error_Some. congruence.
  - now rewrite A.
Qed.
Print Assumptions C74_ghosts_dropped.

(** 200 atoms in a sheared cell; the face of the first atom belongs to a ghost. *)
Definition tri_box : m3 PA :=
  mkM (mkV (N := PA) (nofZ 100) (nofZ 0) (nofZ 0)) (mkV (N := PA) (nofZ 50) (nofZ 100) (nofZ 0)) (mkV (N := PA) (nofZ 0) (nofZ 0) (nofZ 2)).
Definition tri_inv {N : num} : m3 N -> option (m3 N) := fun m => Some m.
Definition tri_atoms : list (atom PA) :=
  map (fun k => atom_ctor (raw_atom PA) (mkV (N := PA) (ndiv (nofZ (Z.of_nat k)) (nofZ 2)) (nofZ 50) (nofZ 1)) (Z.of_nat k) 1) (seq 1 200).
Definition tri_voro {N : num} (i : nat) : option (list (nat * N)) :=
  if Nat.eqb i 0 then Some [(200, nofZ 1)] else if Nat.eqb i 200 then Some [(0, nofZ 1)] else Some [].
Definition tri_found : res (sys PA) :=
  s <- box_set tri_inv (sys_ctor (raw_sys PA)) tri_box ;;
  s <- atoms_set tri_inv (memc 0) s tri_atoms ;;
  '(s, e) <- find_neighbors isort tri_voro idp tri_inv s (mkArgs (MVoronoi (memc 0)) FNone (nofZ 2) (nlit 6 5) 6) ;;
  match e with None => Ok s | Some x => Err x end.
Definition tri_check {N : num} (s : sys N) : bool :=
  Z.eqb (s_real s) 200 && Z.eqb (s_nop s) 5400 && Z.eqb (s_ghost s) 5200 && Z.eqb (Z.of_nat (length (s_atoms s))) 5400 &&
  forallb (fun a => Z.eqb (a_ghost a) 0) (firstn 200 (s_atoms s)) &&
  forallb (fun a => negb (Z.eqb (a_ghost a) 0)) (skipn 200 (s_atoms s)) &&
  match s_atoms s with a :: _ => match a_nbrs a with [e] => Nat.eqb (nb_idx e) 200 | _ => false end | [] => false end.
Lemma tri_check_sound N (s : sys N) : tri_check s = true ->
  counters_ok s /\ length (firstn 200 (s_atoms s)) = 200 /\ Z.of_nat (length (s_atoms s)) = 5400%Z /\ get_atoms s = Ok (firstn 200 (s_atoms s)) /\
  exists a e, nth_error (firstn 200 (s_atoms s)) 0 = Some a /\ In e (a_nbrs a) /\ nb_idx e = 200.
Proof.
  unfold tri_check. intros H. repeat (apply andb_true_iff in H as [H ?]).
  apply Z.eqb_eq in H. match goal with X : Z.eqb (s_nop s) _ = true |- _ => apply Z.eqb_eq in X; rename X into Hn end.
  match goal with X : Z.eqb (s_ghost s) _ = true |- _ => apply Z.eqb_eq in X; rename X into Hg end.
  match goal with X : Z.eqb (Z.of_nat _) _ = true |- _ => apply Z.eqb_eq in X; rename X into HL end.
  match goal with X : forallb _ (firstn _ _) = true |- _ => rewrite forallb_forall in X; rename X into Fr end.
  match goal with X : forallb _ (skipn _ _) = true |- _ => rewrite forallb_forall in X; rename X into Fg end.
  assert (L1 : length (firstn 200 (s_atoms s)) = 200) by (rewrite firstn_length; lia).
  assert (L2 : Z.of_nat (length (skipn 200 (s_atoms s))) = 5200%Z) by (rewrite skipn_length; lia).
  split; [|split; [exact L1|split; [exact HL|split]]].
  - exists (firstn 200 (s_atoms s)), (skipn 200 (s_atoms s)). split; [symmetry; apply firstn_skipn|].
    split; [intros a Ha; now apply Z.eqb_eq, Fr|]. split.
    { intros a Ha. apply Fg in Ha. apply negb_true_iff, Z.eqb_neq in Ha. exact Ha. }
    rewrite L1, L2, H, Hn, Hg. repeat split.
  - apply (get_atoms_app (g := skipn 200 (s_atoms s))); [symmetry; apply firstn_skipn|rewrite L1, H; reflexivity].
  - destruct (s_atoms s) as [|a l']; [discriminate|]. exists a. destruct (a_nbrs a) as [|e [|? ?]]; try discriminate.
    exists e. split; [reflexivity|]. split; [now left|]. now apply Nat.eqb_eq.
Qed.

(** REFUTED: after the Voronoi search and calculate_chiparams the first atom
    refers to an atom that is no longer stored, and calculate_q reads outside
    the array. *)
Theorem C74_dangling_refuted :
  exists s : sys PA, tri_found = Ok s /\ Z.of_nat (length (s_atoms s)) = 5400%Z /\
    exists s', (exists v, calculate_chiparams tri_inv (memc 0) s false = Ok (s', v)) /\ length (s_atoms s') = 200 /\
      (exists a e, nth_error (s_atoms s') 0 = Some a /\ In e (a_nbrs a) /\ nb_idx e = 200) /\
      forall inv' raw' averaged t, py_calculate_q inv' raw' s' [6%Z] averaged false None false <> Ok t.
Proof.
  assert (F : okb tri_check tri_found = true) by (vm_compute; reflexivity).
  apply okb_ok in F as (s & E & F). exists s. split; [exact E|]. clear E.
  destruct (tri_check_sound _ s F) as (C & L & L2 & G & a & e & Ha & He & Ei). split; [exact L2|].
  destruct (C74_ghosts_dropped PA tri_inv (memc 0) s _ C G ltac:(lia)) as (s' & S & A & _ & _ & Q).
  exists s'. split.
  { unfold calculate_chiparams. rewrite G. cbn [bind]. rewrite S. cbn [bind]. eauto. }
  rewrite A. split; [exact L|]. split; [eauto|].
  intros. eapply Q; [exact Ha|exact He|lia|now left].
Qed.
Print Assumptions C74_dangling_refuted.

Example C74_large_hyp : let s := set_atoms chain_sys tri_atoms in
  all_real (s_atoms s) /\ length (s_atoms s) = 200 /\ s_nop s = 200%Z /\ s_real s = 200%Z /\ s_ghost s = 0%Z.
Proof.
  cbv zeta. change (s_atoms (set_atoms chain_sys tri_atoms)) with tri_atoms.
  assert (AR : all_real tri_atoms).
  { intros a Ha. unfold tri_atoms in Ha. apply in_map_iff in Ha as (k & <- & _). reflexivity. }
  assert (L : length tri_atoms = 200) by (unfold tri_atoms; now rewrite map_length, seq_length).
  split; [exact AR|]. split; [exact L|].
  change (s_nop (set_atoms chain_sys tri_atoms)) with (Z.of_nat (length tri_atoms)).
  change (s_real (set_atoms chain_sys tri_atoms)) with (count_real tri_atoms).
  change (s_ghost (set_atoms chain_sys tri_atoms)) with (count_ghost tri_atoms).
  split; [now rewrite L|]. unfold count_real, count_ghost.
  rewrite (filter_every (f := @is_real PA)), (P_Container.filter_none (l := tri_atoms)).
  - now rewrite L.
  - intros a Ha. unfold is_real. now rewrite (AR a Ha).
  - intros a Ha. unfold is_real. now rewrite (AR a Ha).
Qed.
