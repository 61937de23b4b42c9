(** Properties C31-C33, C63: solid particles. *)
From Coq Require Import Reals Lra ZArith List Lia.
From Verif Require Import Base Num NumR NumF Types Ex M_Geometry M_Container M_Neighbors M_Steinhardt M_Cluster M_Solids
  S_Container S_Neighbors S_Steinhardt S_Cluster S_Solids P_Container P_Neighbors P_QRun P_Harmonics P_Steinhardt P_QInv P_QSys P_Order P_Solids
  C_Neighbors C_Steinhardt C_Cluster.
Import ListNotations.
Close Scope R_scope. Close Scope Z_scope.
#[local] Open Scope nat_scope.

(** ** Concrete systems *)
(** q_sys of C_Steinhardt (an atom with three neighbours, which have one
    neighbour each) after a neighbour search. *)
Definition found_sys (N : num) : sys N := q_sys N <| s_found := true |>.
Lemma found_ready (N : num) (s : sys N) : q_ready s ->
  (forall a, In a (s_atoms s) -> length (a_sij a) = 300 /\ length (a_nbrs a) <= 300) ->
  solid_ready (s <| s_found := true |>).
Proof. intros H1 H2. split; [exact H1|exact H2]. Qed.
Example found_sys_ready : forall N, solid_ready (found_sys N).
Proof.
  intros N. apply found_ready; [exact (q_sys_ready N)|].
  intros a Ha. cbn in Ha. decompose [or] Ha; subst; try contradiction; split; try reflexivity; cbn; lia.
Qed.
Lemma atoms_found (N : num) (s : sys N) : s_atoms (s <| s_found := true |>) = s_atoms s.
Proof. reflexivity. Qed.
Lemma found_sys_atoms (N : num) : s_atoms (found_sys N) = s_atoms (q_sys N).
Proof. exact (atoms_found N (q_sys N)). Qed.
Definition fl {N : num} (a : Z) (b : positive) : pynum N := PyFloat (nlit a b).
Definition solids {N : num} (s : sys N) (cc : Z) (bonds th avg : pynum N) (cluster : bool) (q : Z) (right : bool) :=
  find_solids id_inv (fun _ => raw_atom N) s cc bonds th avg cluster (PyInt q) n0 right.
(** Bond counts and solid flags of the real atoms and the value returned. *)
Definition found {N : num} (r : res (sys N * option Z)) : option (list Z * list bool * option Z) :=
  match r with
  | Ok (t, o) =>
      match get_atoms t with
      | Ok l => Some (map (@a_frenkel N) l, map (@a_solid N) l, o)
      | Err _ => None
      end
  | Err _ => None
  end.
Definition some_err {N : num} {A} (r : res (sys N * A)) : option err := match r with Err e => Some e | Ok _ => None end.
Example unit_half : in_unit (N := F64) (fl 1 2) /\ in_unit (N := F64) (fl 3 10) /\ bonds_ok (N := F64) (fl 1 2).
Proof. split; [|split]; [split; [discriminate|]|split; [discriminate|]|]; split; vm_compute; reflexivity. Qed.

(** ** C31 *)
(** The bond value of any two atoms with non-zero components. *)
Theorem C31_bounded_symmetric_self :
  forall (q : Z) (a b : atom Rnum), (2 <= q <= 12)%Z -> q_arrays a -> q_arrays b ->
  let z a m := match nth_error (a_qc a) (Z.to_nat (q - 2)) with
               | Some row => nth (Z.to_nat m) row (0, 0)%R | None => (0, 0)%R end in
  let norm2 a := Rsum (map (fun m => abs2 (z a m)) (zrange 0 (2 * q + 1))) in
  norm2 a <> 0%R -> norm2 b <> 0%R ->
  exists v : R, get_number_from_bond q a b = Ok v /\ get_number_from_bond q b a = Ok v /\
    (-1 <= v <= 1)%R /\ get_number_from_bond q a a = Ok 1%R.
Proof.
  intros q a b Hq Ha Hb z norm2 Na Nb.
  assert (Hz : forall c m, q_arrays c -> (0 <= m <= 2 * q)%Z -> z c m = zcomp c q m).
  { intros c m Hc Hm. destruct (zget_row Hq Hm Hc) as (row & E1 & E2). apply zget_inv in E1 as [_ E1]. apply zget_inv in E2 as [_ E2].
    unfold z. rewrite E1. now apply nth_error_nth. }
  assert (Hn : forall c, q_arrays c -> norm2 c = ip (zcomp c q) (zcomp c q) (zrange 0 (2 * q + 1))).
  { intros c Hc. unfold norm2, ip. apply Rsum_map_ext. intros m Hm. apply In_zrange in Hm.
    rewrite Hz by (auto; lia). unfold abs2, inner. ring. }
  rewrite Hn in Na, Nb by auto.
  assert (forall c, ip (zcomp c q) (zcomp c q) (zrange 0 (2 * q + 1)) <> 0 -> 0 < ip (zcomp c q) (zcomp c q) (zrange 0 (2 * q + 1)))%R as HP.
  { intros c Hc. pose proof (ip_nonneg (zcomp c q) (zrange 0 (2 * q + 1))). lra. }
  exists (bond q a b). rewrite !bond_eq by auto. split; [reflexivity|]. split.
  - f_equal. rewrite !bond_ip. apply ratio_sym.
  - rewrite bond_ip. split; [apply ratio_bound; auto|]. f_equal. rewrite bond_ip. apply ratio_self; auto.
Qed.
Print Assumptions C31_bounded_symmetric_self.
(** The values stored by find_solids are s_ij as defined, for neighbours with
    non-vanishing q (otherwise s_ij is 0/0). *)
Theorem C31_stored_values_are_s_ij :
  forall inv raw (s t : sys Rnum) cc bonds th avg k cutoff right r,
  solid_ready s -> apart (s_atoms s) ->
  find_solids inv raw s cc bonds th avg false (PyInt (Z.of_nat k)) cutoff right = Ok (t, r) ->
  forall i a c e b E E',
    nth_error (s_atoms s) i = Some a -> nth_error (a_nbrs a) c = Some e -> nth_error (s_atoms s) (nb_idx e) = Some b ->
    (0 < wtotal (counted (s_atoms s) a))%R -> (0 < wtotal (counted (s_atoms s) b))%R ->
    env (counted (s_atoms s) a) E -> env (counted (s_atoms s) b) E' ->
    steinhardt k E <> 0%R -> steinhardt k E' <> 0%R ->
    exists a', nth_error (s_atoms t) i = Some a' /\ nth_error (a_sij a') c = Some (s_ij k E E') /\
      (-1 <= s_ij k E E' <= 1)%R /\ s_ij k E E' = s_ij k E' E.
Proof.
  intros inv raw s t cc bonds th avg k cutoff right r Hs Hap Hrun i a c e b E E' Ea Ee Eb Wa Wb HE HE' Sa Sb.
  destruct (find_solids_inv Hrun) as (Hf & (q & Eq & Hq) & H1 & H2 & H3). injection Eq as <-.
  assert (2 <= k <= 12) as Hk by lia.
  rewrite (find_solids_eq inv raw cc false cutoff right Hs Hf Hq H1 H2 H3) in Hrun. injection Hrun as <- _.
  cbn [s_atoms after_solids set]. cbn. rewrite nth_error_map, Ea. cbn [option_map]. eexists. split; [reflexivity|].
  destruct Hs as [[Hn Hr] H300]. pose proof (nth_error_In _ _ Ea) as Ia. pose proof (nth_error_In _ _ Eb) as Ib.
  destruct (Hr a Ia) as [Qa Va]. destruct (Hr b Ib) as [Qb _]. destruct (H300 a Ia) as [L300 N300].
  assert (forall x, In x (s_atoms s) -> all_nonzero (counted (s_atoms s) x)) as HZ by (intros x Hx y Hy; exact (Hap x y Hx Hy)).
  split; [|split].
  - unfold solid_new, frenkel_new. cbv zeta.
    match goal with |- nth_error (a_sij (set a_solid _ (set a_avq _ (set a_frenkel _ (set a_sij (fun _ => set_row ?vs ?row) _))))) c = _ =>
      change (nth_error (set_row vs row) c = Some (s_ij k E E')) end.
    set (q := Z.of_nat k). set (l := s_atoms s) in *. set (vor := s_vorused s).
    assert (a_nbrs (q_all vor l [q] a) = a_nbrs a) as En by exact (f_equal (@a_nbrs Rnum) (but_q_all vor l [q] a)).
    assert (nth_error (values q (map (q_all vor l [q]) l) (q_all vor l [q] a)) c =
            Some (bond q (q_all vor l [q] a) (q_all vor l [q] b))) as X.
    { unfold values. rewrite En. apply (@nth_flat_one _ _ _ (fun e => nth_error (map (q_all vor l [q]) l) (nb_idx e)) (bond q (q_all vor l [q] a))) with e; auto.
      - intros x Hx. rewrite nth_error_map. destruct (nth_error_some (Va x Hx)) as [y ->]. eexists; reflexivity.
      - rewrite nth_error_map, Eb. reflexivity. }
    unfold set_row. rewrite nth_error_app1 by (apply nth_error_Some; congruence). rewrite X. f_equal.
    apply bond_s_ij; auto.
  - unfold s_ij. apply dot_steinhardt in Sa. apply dot_steinhardt in Sb. rewrite !dot_lm_ip in *.
    rewrite Rmult_comm. apply ratio_bound; auto.
  - unfold s_ij. rewrite !dot_lm_ip, (ip_sym (fun m => q_lm k m E)). f_equal. apply Rmult_comm.
Qed.
Print Assumptions C31_stored_values_are_s_ij.
Lemma C31_gen (s : sys Rnum) : solid_ready (s <| s_found := true |>) -> apart (s_atoms s) ->
  (forall a, In a (s_atoms s) -> (0 < wtotal (counted (s_atoms s) a))%R) ->
  (exists a, nth_error (s_atoms s) 0 = Some a /\ length (a_nbrs a) = 3) ->
  let t := s <| s_found := true |> in solid_ready t /\ apart (s_atoms t) /\
  (forall a, In a (s_atoms t) -> (0 < wtotal (counted (s_atoms t) a))%R) /\
  (exists a, nth_error (s_atoms t) 0 = Some a /\ length (a_nbrs a) = 3).
Proof. intros H1 H2 H3 H4. exact (conj H1 (conj H2 (conj H3 H4))). Qed.
Example C31_hyp : solid_ready (found_sys Rnum) /\ apart (s_atoms (found_sys Rnum)) /\
  (forall a, In a (s_atoms (found_sys Rnum)) -> (0 < wtotal (counted (s_atoms (found_sys Rnum)) a))%R) /\
  (exists a, nth_error (s_atoms (found_sys Rnum)) 0 = Some a /\ length (a_nbrs a) = 3).
Proof.
  apply (C31_gen (q_sys Rnum)); [exact (found_sys_ready Rnum)|exact q_sys_apart|..].
  - intros a Ha. rewrite q_sys_counted by auto.
    cbn in Ha. decompose [or] Ha; subst; try contradiction; unfold wtotal, Rsum; cbn; lra.
  - eexists. split; reflexivity.
Qed.
(** Four atoms along z in IEEE arithmetic (values of the mathematical library
    as in C30): 0 sees 1 and 2 above it, 1 sees 3 above, 2 sees 1 below, 3 sees
    1 below. *)
Definition axis_sys : sys FA := of_atoms FA
  [with_nbrs FA [nb FA 1 0 0 2 n1; nb FA 2 0 0 3 n1]; with_nbrs FA [nb FA 3 0 0 2 n1];
   with_nbrs FA [nb FA 1 0 0 (-1) n1]; with_nbrs FA [nb FA 1 0 0 (-2) n1]] <| s_found := true |>.
Example axis_ready : solid_ready axis_sys.
Proof.
  apply found_ready.
  - split; [reflexivity|]. intros a Ha. split.
    + cbn in Ha. decompose [or] Ha; subst; try contradiction; repeat split; repeat constructor.
    + intros e He. cbn in Ha. decompose [or] Ha; subst; try contradiction;
        cbn in He; decompose [or] He; subst; try contradiction; cbn; lia.
  - intros a Ha. cbn in Ha. decompose [or] Ha; subst; try contradiction; split; try reflexivity; cbn; lia.
Qed.
Definition some_solids {A} (s : sys FA) cc bonds th avg q right (f : sys FA -> A) : option A :=
  match solids s cc bonds th avg false q right with Ok (t, None) => Some (f t) | _ => None end.
Example C31_runs : some_solids axis_sys 0 (PyInt 0) (fl 1 2) (fl 0 1) 3 true
  (fun t => map (@sij_values FA) (s_atoms t)) = Some [[sf_ofZ 1; sf_ofZ (-1)]; [sf_ofZ (-1)]; [sf_ofZ (-1)]; [sf_ofZ (-1)]].
Proof. vm_compute. reflexivity. Qed.

(** ** C32 *)
(** What is counted: every neighbour whose value differs from the threshold
    (comparecriteria 0, the default), or none. *)
Theorem C32_what_is_counted :
  forall (N : num) inv raw (s t : sys N) cc bonds th avg q cutoff right r,
  solid_ready s ->
  find_solids inv raw s cc bonds th avg false q cutoff right = Ok (t, r) ->
  map (@but_solid N) (s_atoms t) = map (@but_solid N) (s_atoms s) /\
  forall a', In a' (s_atoms t) ->
    length (sij_values a') = length (a_nbrs a') /\
    a_frenkel a' = (if Z.eqb cc 0 then count (fun v => nltb (to_num th) v || nltb v (to_num th)) (sij_values a') else 0%Z) /\
    a_avq a' = ndiv (total (sij_values a')) (nofZ (Z.of_nat (length (a_nbrs a')))).
Proof.
  intros N inv raw s t cc bonds th avg qa cutoff right r Hs Hrun.
  destruct (find_solids_inv Hrun) as (Hf & (q & -> & Hq) & H1 & H2 & H3).
  rewrite (find_solids_eq inv raw cc false cutoff right Hs Hf Hq H1 H2 H3) in Hrun. injection Hrun as <- _.
  destruct Hs as [[Hn Hr] H300]. cbn [s_atoms after_solids set]. cbn. split.
  - rewrite map_map. apply map_ext. intros a. apply but_solid_new.
  - intros a' Ha'. apply in_map_iff in Ha' as (a & <- & Ha). destruct (Hr a Ha) as [Qa Va]. destruct (H300 a Ha) as [L300 N300].
    assert (sij_values (solid_new s q cc bonds th avg a) = 
      values q (map (q_all (s_vorused s) (s_atoms s) [q]) (s_atoms s)) (q_all (s_vorused s) (s_atoms s) [q] a)) as EV.
    { unfold solid_new, frenkel_new, sij_values. cbv zeta.
      match goal with |- firstn (length (a_nbrs _)) (a_sij (set a_solid _ (set a_avq _ (set a_frenkel _ (set a_sij (fun _ => set_row ?vs ?row) ?x))))) = _ =>
        change (firstn (length (a_nbrs x)) (set_row vs row) = vs) end.
      unfold set_row. rewrite <- length_values with (q := q) (l := map (q_all (s_vorused s) (s_atoms s) [q]) (s_atoms s)).
      - rewrite firstn_app, firstn_all, Nat.sub_diag. cbn. apply app_nil_r.
      - assert (a_nbrs (q_all (s_vorused s) (s_atoms s) [q] a) = a_nbrs a) as ->
          by exact (f_equal (@a_nbrs N) (but_q_all (s_vorused s) (s_atoms s) [q] a)).
        intros e He. rewrite map_length. auto. }
    assert (a_nbrs (solid_new s q cc bonds th avg a) = a_nbrs a) as En
      by exact (f_equal (@a_nbrs N) (but_q_all (s_vorused s) (s_atoms s) [q] a)).
    rewrite EV, En. split; [|split].
    + rewrite length_values.
      * exact (f_equal (fun a => length (a_nbrs a)) (but_q_all (s_vorused s) (s_atoms s) [q] a)).
      * assert (a_nbrs (q_all (s_vorused s) (s_atoms s) [q] a) = a_nbrs a) as ->
          by exact (f_equal (@a_nbrs N) (but_q_all (s_vorused s) (s_atoms s) [q] a)).
        intros e He. rewrite map_length. auto.
    + change (a_frenkel (solid_new s q cc bonds th avg a)) with (count (counts cc (to_num th))
        (values q (map (q_all (s_vorused s) (s_atoms s) [q]) (s_atoms s)) (q_all (s_vorused s) (s_atoms s) [q] a))).
      unfold counts. destruct (Z.eqb cc 0); cbn [andb]; [reflexivity|].
      unfold count. rewrite filter_none by auto. reflexivity.
    + assert (length (a_nbrs (q_all (s_vorused s) (s_atoms s) [q] a)) = length (a_nbrs a)) as <-
        by exact (f_equal (fun a => length (a_nbrs a)) (but_q_all (s_vorused s) (s_atoms s) [q] a)).
      reflexivity.
Qed.
Print Assumptions C32_what_is_counted.
(** So the count is not the number of neighbours above the threshold (right)
    or below it (right=False). *)
Lemma find_ok A (r : res (sys FA * option Z)) (f : sys FA -> A) v :
  match r with Ok (t, None) => Some (f t) | _ => None end = Some v -> exists t, r = Ok (t, None) /\ f t = v.
Proof. destruct r as [[t [z|]]|e]; intros H; try discriminate. injection H as <-. eauto. Qed.
Definition counted_bonds (th : pynum FA) (t : sys FA) : option (Z * Z * Z) :=
  match s_atoms t with
  | a :: _ => Some (a_frenkel a, count (fun v => nltb (to_num th) v) (sij_values a),
                    count (fun v => nltb v (to_num th)) (sij_values a))
  | [] => None
  end.
Theorem C32_threshold_refuted :
  exists (s : sys FA) th, solid_ready s /\ in_unit th /\ forall right,
    exists t a', solids s 0 (PyInt 0) th (fl 1 2) false 3 right = Ok (t, None) /\
    nth_error (s_atoms t) 0 = Some a' /\ a_frenkel a' = 2%Z /\
    count (fun v => nltb (to_num th) v) (sij_values a') = 1%Z /\
    count (fun v => nltb v (to_num th)) (sij_values a') = 1%Z.
Proof.
  exists axis_sys, (fl 1 2). split; [exact axis_ready|]. split; [split; [discriminate|]; split; vm_compute; reflexivity|].
  intros right.
  assert (F : match solids axis_sys 0 (PyInt 0) (fl 1 2) (fl 1 2) false 3 right with
     | Ok (t, None) => Some (counted_bonds (fl 1 2) t) | _ => None end = Some (Some (2, 1, 1)%Z)) by (vm_compute; reflexivity).
  apply find_ok in F as (t & Ht & F). exists t. unfold counted_bonds in F.
  destruct (s_atoms t) as [|a' l]; [discriminate|]. exists a'.
  apply Some_inj in F. split; [|split; [reflexivity|]]; [|split; [exact (f_equal (fun x => fst (fst x)) F)|split;
    [exact (f_equal (fun x => snd (fst x)) F)|exact (f_equal snd F)]]].
  exact Ht.
Qed.
Print Assumptions C32_threshold_refuted.

(** ** C33 *)
(** An atom is solid exactly when it has enough bonds and its average passes. *)
Theorem C33_classification :
  forall (N : num) inv raw (s t : sys N) cc bonds th avg q cutoff right r,
  solid_ready s ->
  find_solids inv raw s cc bonds th avg false q cutoff right = Ok (t, r) ->
  forall a', In a' (s_atoms t) -> a_solid a' = true <-> enough bonds a' /\ avg_passes cc avg a'.
Proof.
  intros N inv raw s t cc bonds th avg qa cutoff right r Hs Hrun.
  destruct (find_solids_inv Hrun) as (Hf & (q & -> & Hq) & H1 & H2 & H3).
  rewrite (find_solids_eq inv raw cc false cutoff right Hs Hf Hq H1 H2 H3) in Hrun. injection Hrun as <- _.
  cbn [s_atoms after_solids set]. cbn. intros a' Ha'. apply in_map_iff in Ha' as (a & <- & Ha).
  unfold solid_new. cbv zeta. set (x := frenkel_new _ _ _ _ _). clearbody x.
  match goal with |- a_solid (set a_solid _ x) = true <-> _ => change (a_solid (x <| a_solid := is_solid (criteria_of bonds) cc (to_num bonds) (to_num avg) x |>))
     with (is_solid (criteria_of bonds) cc (to_num bonds) (to_num avg) x) end.
  match goal with |- _ <-> enough bonds ?y /\ avg_passes cc avg ?y =>
     change (is_solid (criteria_of bonds) cc (to_num bonds) (to_num avg) x = true <-> enough bonds x /\ avg_passes cc avg x) end.
  unfold is_solid, enough, avg_passes. cbv zeta. destruct (Z.eqb cc 0), bonds as [b|f|]; try contradiction; cbn [criteria_of Z.eqb Pos.eqb to_num];
    rewrite Bool.andb_true_iff; reflexivity.
Qed.
Print Assumptions C33_classification.

(** Raising bonds or avgthreshold loses atoms only, over the reals and in IEEE
    arithmetic. *)
Theorem C33_monotone :
  forall (N : num) inv raw (s t t' : sys N) bonds bonds' th avg avg' q cutoff right r r',
  machine N -> solid_ready s -> stricter bonds bonds' -> nleb (to_num avg) (to_num avg') = true ->
  find_solids inv raw s 0 bonds th avg false q cutoff right = Ok (t, r) ->
  find_solids inv raw s 0 bonds' th avg' false q cutoff right = Ok (t', r') ->
  forall i a a', nth_error (s_atoms t) i = Some a -> nth_error (s_atoms t') i = Some a' ->
    a_solid a' = true -> a_solid a = true.
Proof.
  intros N inv raw s t t' bonds bonds' th avg avg' qa cutoff right r r' M Hs Hb Ha R1 R2 i a a' Ea Ea' Hsol.
  apply (C33_classification N inv raw s t' 0 bonds' th avg' qa cutoff right r' Hs R2 a' (nth_error_In _ _ Ea')) in Hsol.
  apply (C33_classification N inv raw s t 0 bonds th avg qa cutoff right r Hs R1 a (nth_error_In _ _ Ea)).
  destruct (find_solids_inv R1) as (Hf & (q & -> & Hq) & H1 & H2 & H3). destruct (find_solids_inv R2) as (_ & _ & _ & H2' & H3').
  rewrite (find_solids_eq inv raw 0 false cutoff right Hs Hf Hq H1 H2 H3) in R1. injection R1 as <- _.
  rewrite (find_solids_eq inv raw 0 false cutoff right Hs Hf Hq H1 H2' H3') in R2. injection R2 as <- _.
  cbn in Ea, Ea'. rewrite nth_error_map in Ea, Ea'. destruct (nth_error (s_atoms s) i) as [x|]; [|discriminate].
  cbn [option_map] in Ea, Ea'. apply Some_inj in Ea, Ea'.
  assert (a_frenkel a = a_frenkel a') as EF by (rewrite <- Ea, <- Ea'; reflexivity).
  assert (a_avq a = a_avq a') as EA by (rewrite <- Ea, <- Ea'; reflexivity).
  assert (a_nbrs a = a_nbrs a') as EN by (rewrite <- Ea, <- Ea'; reflexivity).
  clear Ea Ea'. destruct Hsol as [S1 S2]. unfold avg_passes in *. cbn [Z.eqb] in *. split.
  - unfold enough in *. rewrite EF, EN. destruct bonds, bonds'; try contradiction; cbn [stricter to_num] in Hb;
      eapply machine_le_lt; eauto.
  - rewrite EA. eapply machine_le_lt; eauto.
Qed.
Print Assumptions C33_monotone.

(** Invalid arguments are rejected, in the order of the checks, whatever the
    atoms; [s] is not required to be well formed. *)
Theorem C33_invalid_rejected :
  forall (N : num) inv raw (s : sys N) cc bonds th avg cluster q cutoff right,
  let r := find_solids inv raw s cc bonds th avg cluster q cutoff right in
  (s_found s = false -> r = Err RuntimeError) /\
  (s_found s = true ->
    ((forall z, q <> PyInt z) -> r = Err TypeError) /\
    (forall z, q = PyInt z -> ~ (2 <= z <= 12)%Z -> r = Err ValueError) /\
    (q_ok_arg q -> ~ in_unit th -> r = Err (match th with PyOther => TypeError | _ => ValueError end)) /\
    (q_ok_arg q -> in_unit th -> ~ in_unit avg -> r = Err (match avg with PyOther => TypeError | _ => ValueError end)) /\
    (q_ok_arg q -> in_unit th -> in_unit avg -> ~ bonds_ok bonds -> r = Err TypeError)).
Proof.
  intros N inv raw s cc bonds th avg cluster q cutoff right r. unfold r, find_solids. clear r.
  split; intros Hf; rewrite Hf; [reflexivity|]. cbn [negb].
  assert (HU : forall p : pynum N, ~ in_unit p -> unit_interval p = Err (match p with PyOther => TypeError | _ => ValueError end)).
  { intros p Hp. destruct p; cbn [unit_interval]; try reflexivity;
      (destruct (nleb _ _) eqn:E1; [|reflexivity]); (destruct (nleb _ n1) eqn:E2; [|reflexivity]);
      destruct Hp; (split; [discriminate|split; auto]). }
  assert (HQ : q_ok_arg q -> exists z, q = PyInt z /\ (Z.leb 2 z && Z.leb z 12)%bool = true).
  { intros (z & -> & Hz). exists z. split; auto. apply Bool.andb_true_iff. split; apply Z.leb_le; lia. }
  split; [|split; [|split; [|split]]].
  - intros H. destruct q as [z| |]; try reflexivity. destruct (H z). reflexivity.
  - intros z -> H. destruct (Z.leb_spec 2 z); [|reflexivity]. destruct (Z.leb_spec z 12); [lia|reflexivity].
  - intros H H1. destruct (HQ H) as (z & -> & ->). cbn [bind]. now rewrite (HU _ H1).
  - intros H H1 H2. destruct (HQ H) as (z & -> & ->). cbn [bind]. rewrite (unit_interval_ok H1). cbn [bind]. now rewrite (HU _ H2).
  - intros H H1 H2 H3. destruct (HQ H) as (z & -> & ->). cbn [bind]. rewrite (unit_interval_ok H1), (unit_interval_ok H2). cbn [bind].
    destruct bonds as [b|x|]; cbn in H3; [tauto| |reflexivity].
    destruct (nleb n0 x); [|reflexivity]. destruct (nleb x n1); [tauto|reflexivity].
Qed.
Print Assumptions C33_invalid_rejected.
(** Valid arguments succeed. *)
Theorem C33_succeeds :
  forall (N : num) inv raw (s : sys N) cc bonds th avg q cutoff right,
  solid_ready s -> s_found s = true -> q_ok_arg q -> in_unit th -> in_unit avg -> bonds_ok bonds ->
  exists t, find_solids inv raw s cc bonds th avg false q cutoff right = Ok (t, None).
Proof.
  intros N inv raw s cc bonds th avg qa cutoff right Hs Hf (q & -> & Hq) H1 H2 H3.
  rewrite (find_solids_eq inv raw cc false cutoff right Hs Hf Hq H1 H2 H3). eauto.
Qed.
Print Assumptions C33_succeeds.
(** With cluster=True the solid atoms so found are clustered (C34-C38) and the
    size of the largest cluster is returned. *)
Theorem C33_cluster :
  forall (N : num) inv raw (s t : sys N) cc bonds th avg q cutoff right r,
  find_solids inv raw s cc bonds th avg true q cutoff right = Ok (t, r) ->
  exists s1 lc, find_solids inv raw s cc bonds th avg false q cutoff right = Ok (s1, None) /\
    cluster_atoms inv raw s1 (fun a => Ok (Z.b2z (a_solid a))) cutoff = Ok (t, lc) /\ r = Some lc.
Proof.
  intros N inv raw s t cc bonds th avg q cutoff right r. unfold find_solids.
  destruct (negb (s_found s)); [discriminate|].
  match goal with |- context [bind ?x _] => destruct x as [z|e]; [|discriminate] end. cbn [bind].
  destruct (unit_interval th) as [x|e]; [|discriminate]. cbn [bind].
  destruct (unit_interval avg) as [y|e]; [|discriminate]. cbn [bind].
  match goal with |- context [bind ?x _] => destruct x as [c|e]; [|discriminate] end. cbn [bind].
  destruct (calculate_q s [z]) as [s1|e]; [|discriminate]. cbn [bind].
  destruct (calculate_frenkel_numbers s1 z cc x) as [s2|e]; [|discriminate]. cbn [bind].
  destruct (find_solid_atoms s2 c cc (to_num bonds) y) as [s3|e]; [|discriminate]. cbn [bind].
  destruct (cluster_atoms inv raw s3 (fun a => Ok (Z.b2z (a_solid a))) cutoff) as [[s4 lc]|e] eqn:E; [|discriminate].
  cbn [bind]. intros H. injection H as <- <-. exists s3, lc. auto.
Qed.
Print Assumptions C33_cluster.

Definition solid_flags (t : sys FA) : list bool := map (@a_solid FA) (s_atoms t).
(** Degree 2: every s_ij is 1.  Atom 0 has two bonds. *)
Example C33_runs :
  some_solids axis_sys 0 (PyInt 0) (fl 1 2) (fl 1 2) 2 true solid_flags = Some [true; true; true; true] /\
  some_solids axis_sys 0 (PyInt 1) (fl 1 2) (fl 1 2) 2 true solid_flags = Some [true; false; false; false] /\
  some_solids axis_sys 0 (fl 1 2) (fl 1 2) (fl 1 2) 2 true solid_flags = Some [true; true; true; true] /\
  some_solids axis_sys 0 (fl 1 2) (fl 1 2) (fl 1 1) 2 true solid_flags = Some [false; false; false; false] /\
  some_solids axis_sys 0 (PyInt 0) (fl 1 2) (fl 1 2) 3 true solid_flags = Some [false; false; false; false].
Proof. repeat split; vm_compute; reflexivity. Qed.
Example C33_hyp : machine FA /\ solid_ready axis_sys /\ s_found axis_sys = true /\
  stricter (N := FA) (PyInt 0) (PyInt 1) /\ in_unit (N := FA) (fl 1 2) /\ bonds_ok (N := FA) (fl 1 2) /\
  ~ in_unit (N := FA) (fl 3 2) /\ ~ bonds_ok (N := FA) (fl 3 2).
Proof.
  split; [right; exists libm_axis; reflexivity|]. split; [exact axis_ready|]. split; [reflexivity|].
  split; [vm_compute; reflexivity|]. split; [split; [discriminate|split; vm_compute; reflexivity]|].
  split; [split; vm_compute; reflexivity|]. split.
  - intros (_ & _ & H). vm_compute in H. discriminate H.
  - intros (_ & H). vm_compute in H. discriminate H.
Qed.
Example C33_cluster_runs :
  found (find_solids id_inv (fun _ => raw_atom FA) axis_sys 0 (PyInt 0) (fl 1 2) (fl 1 2) true (PyInt 2) (nofZ 5) true) =
  Some ([2; 1; 1; 1]%Z, [true; true; true; true], Some 4%Z).
Proof. vm_compute. reflexivity. Qed.
Example C33_errors :
  some_err (solids axis_sys 0 (PyInt 0) (fl 3 2) (fl 1 2) true 2 true) = Some ValueError /\
  some_err (solids axis_sys 0 (PyInt 0) (fl 1 2) PyOther true 2 true) = Some TypeError /\
  some_err (solids axis_sys 0 (fl 3 2) (fl 1 2) (fl 1 2) true 2 true) = Some TypeError /\
  some_err (solids axis_sys 0 (PyInt 0) (fl 1 2) (fl 1 2) true 1 true) = Some ValueError.
Proof. repeat split; vm_compute; reflexivity. Qed.

(** ** C63 *)
(** Turning every neighbour vector by an orthogonal matrix changes no s_ij,
    count, average or solid flag. *)
Theorem C63_rotation_invariant :
  forall inv raw (s : sys Rnum) cc bonds th avg q cutoff right (m : m3 Rnum),
  solid_ready s -> s_found s = true -> q_ok_arg q -> in_unit th -> in_unit avg -> bonds_ok bonds ->
  apart (s_atoms s) -> orthogonal m ->
  exists t t', find_solids inv raw s cc bonds th avg false q cutoff right = Ok (t, None) /\
    find_solids inv raw (turn m s) cc bonds th avg false q cutoff right = Ok (t', None) /\
    let f a := (a_sij a, a_frenkel a, a_avq a, a_solid a) in
    map f (s_atoms t') = map f (s_atoms t).
Proof.
  intros inv raw s cc bonds th avg qa cutoff right m Hs Hf (q & -> & Hq) H1 H2 H3 Hap Hm.
  assert (Hs' : solid_ready (turn m s)).
  { destruct Hs as [[Hn Hr] H300]. split.
    - split; [cbn; now rewrite map_length|]. intros a Ha. cbn in Ha.
      apply in_map_iff in Ha as (b & <- & Hb). destruct (Hr b Hb) as [X1 X2]. split; [exact X1|].
      intros e He. cbn in He. apply in_map_iff in He as (e0 & <- & He0). cbn. rewrite map_length. now apply X2.
    - intros a Ha. cbn in Ha. apply in_map_iff in Ha as (b & <- & Hb). cbn. rewrite map_length. now apply H300. }
  assert (Hf' : s_found (turn m s) = true) by exact Hf.
  rewrite (find_solids_eq inv raw cc false cutoff right Hs Hf Hq H1 H2 H3).
  rewrite (find_solids_eq inv raw cc false cutoff right Hs' Hf' Hq H1 H2 H3).
  do 2 eexists. split; [reflexivity|]. split; [reflexivity|]. intros f.
  change (s_atoms (after_solids (turn m s) q cc bonds th avg)) with
    (map (solid_new (turn m s) q cc bonds th avg) (map (turned m) (s_atoms s))).
  change (s_atoms (after_solids s q cc bonds th avg)) with (map (solid_new s q cc bonds th avg) (s_atoms s)).
  rewrite !map_map. apply map_ext_in. intros a Ha.
  replace q with (Z.of_nat (Z.to_nat q)) by lia. apply solid_new_turned; auto. lia.
Qed.
Print Assumptions C63_rotation_invariant.
Example C63_hyp : orthogonal (mkM (mkV 0 0 1) (mkV (-4/5) (3/5) 0) (mkV (3/5) (4/5) 0) : m3 Rnum)%R /\
  solid_ready (found_sys Rnum) /\ apart (s_atoms (found_sys Rnum)) /\
  in_unit (N := Rnum) (fl 1 2) /\ bonds_ok (N := Rnum) (PyInt 7).
Proof.
  split; [exact (proj1 C26_hyp)|]. split; [exact (proj1 C31_hyp)|]. split; [exact (proj1 (proj2 C31_hyp))|].
  split; [|exact I]. split; [discriminate|].
  split; apply Rleb_true; cbn; lra.
Qed.
