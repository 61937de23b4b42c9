(** Proofs about Voronoi vectors. *)
From Coq Require Import Reals Lra ZArith List Lia.
From Verif Require Import Base Num NumR Types M_Geometry M_Container M_Neighbors M_Analysis M_Voro P_Neighbors P_Lammps S_Voro.
Import ListNotations.
Set Implicit Arguments.
Close Scope R_scope. Close Scope Z_scope.
#[local] Open Scope nat_scope.

(** ** Counting *)
Lemma such_filter A (f : A -> bool) l : such (fun x => f x = true) l (length (filter f l)).
Proof.
  induction l as [|x l IH]; cbn [filter]; [constructor|]. destruct (f x) eqn:E; [constructor; auto|].
  apply such_no; [congruence|auto].
Qed.
Lemma such_iff A (P Q : A -> Prop) l n : (forall x, P x <-> Q x) -> such P l n -> such Q l n.
Proof. intros H. induction 1; [constructor|constructor; [apply H|]; auto|apply such_no; [rewrite <- H|]; auto]. Qed.
Lemma such_fun A (P : A -> Prop) l n m : such P l n -> such P l m -> n = m.
Proof. intros H. revert m. induction H; intros m Hm; inversion Hm; subst; auto; try contradiction. Qed.
Lemma such_map A B (g : A -> B) (P : B -> Prop) l n : such (fun x => P (g x)) l n <-> such P (map g l) n.
Proof.
  split.
  - induction 1; cbn; [constructor|constructor; auto|apply such_no; auto].
  - revert n. induction l as [|x l IH]; intros n H; inversion H; subst; [constructor|constructor; auto|apply such_no; auto].
Qed.
Lemma such_le A (P : A -> Prop) l n : such P l n -> n <= length l.
Proof. induction 1; cbn; lia. Qed.
(** Disjoint properties. *)
Lemma such_or A (P Q : A -> Prop) l n m : (forall x, P x -> ~ Q x) -> such P l n -> such Q l m -> such (fun x => P x \/ Q x) l (n + m).
Proof.
  intros D H. revert m. induction H as [|x l n Hx H IH|x l n Hx H IH]; intros m Hm; inversion Hm; subst.
  - constructor.
  - destruct (D x); auto.
  - cbn. constructor; auto.
  - rewrite Nat.add_succ_r. constructor; auto.
  - apply such_no; [tauto|auto].
Qed.
Lemma counts_bounds A (P : nat -> A -> Prop) faces v :
  (forall j k x, P j x -> P k x -> j = k) -> counts_faces P faces v ->
  length v = 4 /\ Forall (fun n => 0 <= n)%Z v /\ (fold_left Z.add v 0 <= Z.of_nat (length faces))%Z.
Proof.
  intros D (n3 & n4 & n5 & n6 & -> & H3 & H4 & H5 & H6).
  split; [reflexivity|]. split.
  { cbn [map]. repeat constructor; lia. }
  assert (S := such_le (such_or (P := fun x => (P 3 x \/ P 4 x) \/ P 5 x)
    ltac:(intros x [[U|U]|U] W; [specialize (D 3 6 x U W)|specialize (D 4 6 x U W)|specialize (D 5 6 x U W)]; discriminate)
    (such_or (P := fun x => P 3 x \/ P 4 x) ltac:(intros x [U|U] W; [specialize (D 3 5 x U W)|specialize (D 4 5 x U W)]; discriminate)
       (such_or ltac:(intros x U W; specialize (D 3 4 x U W); discriminate) H3 H4) H5) H6)).
  cbn [map fold_left]. lia.
Qed.

(** ** Lists *)
Lemma slice_mid A (l1 l2 l3 : list A) : py_slice (l1 ++ l2 ++ l3) (Z.of_nat (length l1)) (Z.of_nat (length l1) + Z.of_nat (length l2)) = l2.
Proof.
  unfold py_slice, slice_end. rewrite !app_length, !Nat2Z.inj_add.
  assert (N1 : (Z.of_nat (length l1) <? 0)%Z = false) by (apply Z.ltb_ge; lia).
  assert (N2 : (Z.of_nat (length l1) + Z.of_nat (length l2) <? 0)%Z = false) by (apply Z.ltb_ge; lia). rewrite N1, N2.
  rewrite !Z.min_l by lia. replace (Z.to_nat (Z.of_nat (length l1) + Z.of_nat (length l2))) with (length l1 + length l2) by lia.
  rewrite Nat2Z.id, skipn_app, skipn_all, Nat.sub_diag. cbn [app skipn].
  replace (length l1 + length l2 - length l1) with (length l2 + 0) by lia. rewrite firstn_app_2. cbn. apply app_nil_r.
Qed.
Lemma mapM_nth A B (g : A -> res B) xs : forall ys, length xs = length ys ->
  (forall i x y, nth_error xs i = Some x -> nth_error ys i = Some y -> g x = Ok y) -> mapM g xs = Ok ys.
Proof.
  induction xs as [|x xs IH]; intros [|y ys] L H; try discriminate; [reflexivity|]. cbn [mapM]. rewrite (H 0 x y eq_refl eq_refl). cbn [bind].
  rewrite (IH ys); [reflexivity|now injection L|]. intros i. apply (H (S i)).
Qed.
Lemma edges_length A (p : list A) : length (edges p) = length p.
Proof. destruct p as [|x p]; [reflexivity|]. unfold edges. rewrite combine_length. cbn [length]. lia. Qed.
Lemma combine_nth_some A B (l : list A) (l' : list B) : forall i x y, nth_error l i = Some x -> nth_error l' i = Some y -> nth_error (combine l l') i = Some (x, y).
Proof. revert l'. induction l as [|a l IH]; intros [|b l'] [|i] x y H1 H2; try discriminate; cbn in *; [congruence|apply IH; auto]. Qed.
Lemma last_nth A (p : list A) d : last p d = nth (length p - 1) p d.
Proof.
  induction p as [|x p IH]; [reflexivity|]. destruct p as [|y p]; [reflexivity|]. change (last (x :: y :: p) d) with (last (y :: p) d).
  rewrite IH. cbn [length]. replace (S (S (length p)) - 1) with (S (S (length p) - 1)) by lia. reflexivity.
Qed.
Lemma py_get_last A (p : list A) d : p <> [] -> py_get p (-1) = Ok (last p d).
Proof.
  intros H. destruct p as [|x p]; [congruence|]. unfold py_get. change (-1 <? 0)%Z with true. cbv iota zeta.
  assert (E : (Z.of_nat (length (x :: p)) + -1 <? 0)%Z = false) by (apply Z.ltb_ge; cbn [length]; lia). rewrite E.
  replace (Z.to_nat (Z.of_nat (length (x :: p)) + -1)) with (length (x :: p) - 1) by (cbn [length]; lia).
  rewrite last_nth. destruct (nth_error (x :: p) (length (x :: p) - 1)) as [y|] eqn:Ey.
  - rewrite (nth_error_nth _ _ d Ey). reflexivity.
  - apply nth_error_None in Ey. cbn [length] in Ey. lia.
Qed.
Lemma edges_nth A (p : list A) i e : nth_error (edges p) i = Some e ->
  py_get p (Z.of_nat i - 1) = Ok (fst e) /\ py_get p (Z.of_nat i - 1 + 1) = Ok (snd e).
Proof.
  intros H. assert (Hi : i < length p) by (rewrite <- edges_length; apply nth_error_Some; congruence).
  destruct p as [|x p]; [cbn in Hi; lia|]. destruct (nth_error (x :: p) i) as [b|] eqn:Eb; [|apply nth_error_None in Eb; lia].
  destruct (nth_error (last (x :: p) x :: x :: p) i) as [a|] eqn:Ea; [|apply nth_error_None in Ea; cbn in *; lia].
  unfold edges in H. rewrite (combine_nth_some _ _ _ Ea Eb) in H. injection H as <-. cbn [fst snd].
  split; [|replace (Z.of_nat i - 1 + 1)%Z with (Z.of_nat i) by lia; apply py_get_nat, Eb]. destruct i as [|i].
  - change (Some (last (x :: p) x) = Some a) in Ea. apply Some_inj in Ea. rewrite <- Ea. apply (py_get_last x). discriminate.
  - cbn in Ea. replace (Z.of_nat (S i) - 1)%Z with (Z.of_nat i) by lia. apply py_get_nat, Ea.
Qed.
Lemma combine_map2 A B (g : A -> B) : forall l l', combine (map g l) (map g l') = map (fun e => (g (fst e), g (snd e))) (combine l l').
Proof. induction l as [|a l IH]; intros [|b l']; [reflexivity|reflexivity|reflexivity|]. cbn [map combine fst snd]. f_equal. apply IH. Qed.
Lemma edges_map A B (g : A -> B) p : edges (map g p) = map (fun e => (g (fst e), g (snd e))) (edges p).
Proof.
  destruct p as [|x p]; [reflexivity|]. unfold edges. cbn [map].
  assert (L : last (g x :: map g p) (g x) = g (last (x :: p) x)).
  { change (g x :: map g p) with (map g (x :: p)). rewrite !last_nth, map_length. rewrite (map_nth g). reflexivity. }
  rewrite L. change (g x :: map g p) with (map g (x :: p)). change (g (last (x :: p) x) :: map g (x :: p)) with (map g (last (x :: p) x :: x :: p)).
  apply combine_map2.
Qed.
Lemma edges_In A (p : list A) e : In e (edges p) -> In (fst e) p /\ In (snd e) p.
Proof.
  intros H. apply In_nth_error in H as (i & H). destruct (edges_nth _ _ H) as [H1 H2].
  assert (G : forall j x, py_get p j = Ok x -> In x p).
  { intros j x E. unfold py_get in E. cbv zeta in E. match type of E with (if ?b then _ else _) = _ => destruct b; [discriminate|] end.
    match type of E with match ?o with _ => _ end = _ => destruct o as [y|] eqn:F; [|discriminate] end. injection E as <-. apply (nth_error_In _ _ F). }
  split; eapply G; eauto.
Qed.

(** ** The vector of a laid out cell *)
Section Cell.
Variable N : num.
Implicit Types (p : poly N).

Lemma coords_slice (vertices : list (v3 N)) k v : nth_error vertices k = Some v ->
  py_slice (concat (map (fun v => [vx v; vy v; vz v]) vertices)) (Z.of_nat k * 3) (Z.of_nat k * 3 + 3) = [vx v; vy v; vz v].
Proof.
  intros H. apply nth_error_split in H as (l1 & l2 & -> & <-). rewrite map_app, concat_app. cbn [map concat].
  assert (L : length (concat (map (fun v : v3 N => [vx v; vy v; vz v]) l1)) = length l1 * 3).
  { induction l1 as [|w l1 IH]; [reflexivity|]. cbn [map concat length app]. rewrite IH. lia. }
  assert (M := slice_mid (concat (map (fun v : v3 N => [vx v; vy v; vz v]) l1)) [vx v; vy v; vz v] (concat (map (fun v : v3 N => [vx v; vy v; vz v]) l2))).
  rewrite L in M. cbn [length] in M. replace (Z.of_nat (length l1) * 3)%Z with (Z.of_nat (length l1 * 3)) by lia. exact M.
Qed.
Lemma face_run (vertices : list (v3 N)) (f : list nat) pre post : Forall (fun k => k < length vertices) f ->
  face_edges (pre ++ map Z.of_nat f ++ post) (concat (map (fun v => [vx v; vy v; vz v]) vertices)) (Z.of_nat (length pre)) (Z.of_nat (length f)) =
  Ok (map distance (edges (map (fun k => nth k vertices (mkV n0 n0 n0)) f))).
Proof.
  intros HF. unfold face_edges. rewrite <- (map_length Z.of_nat f), slice_mid. cbv zeta. rewrite edges_map, map_map.
  apply mapM_nth; [rewrite !map_length, seq_length, edges_length; reflexivity|].
  intros i j y Hj Hy. rewrite nth_error_map in Hj, Hy. destruct (nth_error (seq _ _) i) as [i'|] eqn:Ei; [|discriminate]. injection Hj as <-.
  assert (i' = i) as ->.
  { assert (Li : i < length (map Z.of_nat f)) by (rewrite <- (seq_length (length (map Z.of_nat f)) 0); apply nth_error_Some; congruence).
    apply (nth_error_nth _ _ 0) in Ei. rewrite seq_nth in Ei by exact Li. lia. }
  destruct (nth_error (edges f) i) as [[j1 j2]|] eqn:Ee; [|discriminate]. injection Hy as <-.
  assert (EZ : nth_error (edges (map Z.of_nat f)) i = Some (Z.of_nat j1, Z.of_nat j2)) by (rewrite edges_map, nth_error_map, Ee; reflexivity).
  destruct (edges_nth _ _ EZ) as [P1 P2]. cbn [fst snd] in P1, P2. unfold edge_length. rewrite P1. cbn [bind]. rewrite P2. cbn [bind].
  destruct (edges_In _ _ (nth_error_In _ _ Ee)) as [I1 I2]. rewrite Forall_forall in HF. cbn [fst snd] in *.
  assert (V : forall k, In k f -> nth_error vertices k = Some (nth k vertices (mkV n0 n0 n0))).
  { intros k Hk. specialize (HF k Hk). apply nth_error_nth'. exact HF. }
  rewrite (coords_slice _ _ (V j1 I1)), (coords_slice _ _ (V j2 I2)). reflexivity.
Qed.
Lemma edge_lengths_run p vectors : vectors = concat (map (fun v => [vx v; vy v; vz v]) (p_vertices p)) ->
  forall faces pre, Forall (fun f : list nat * N => Forall (fun k => k < length (p_vertices p)) (fst f)) faces ->
  edge_lengths (pre ++ concat (map (fun f => Z.of_nat (length (fst f)) :: map Z.of_nat (fst f)) faces)) vectors
    (Z.of_nat (length pre) + 1) (map (fun f => Z.of_nat (length (fst f))) faces) =
  Ok (map (fun f => map distance (edges (points p f))) faces).
Proof.
  intros ->. induction faces as [|f faces IH]; intros pre H; [reflexivity|]. inversion_clear H as [|? ? Hf HF]. cbn [map concat edge_lengths].
  replace (pre ++ (Z.of_nat (length (fst f)) :: map Z.of_nat (fst f)) ++ concat (map (fun f => Z.of_nat (length (fst f)) :: map Z.of_nat (fst f)) faces))
    with ((pre ++ [Z.of_nat (length (fst f))]) ++ map Z.of_nat (fst f) ++ concat (map (fun f => Z.of_nat (length (fst f)) :: map Z.of_nat (fst f)) faces))
    by (rewrite <- app_assoc; reflexivity).
  assert (E := @face_run (p_vertices p) (fst f) (pre ++ [Z.of_nat (length (fst f))]) (concat (map (fun f => Z.of_nat (length (fst f)) :: map Z.of_nat (fst f)) faces)) Hf).
  rewrite app_length in E. cbn [length] in E. rewrite Nat2Z.inj_add in E. change (Z.of_nat 1) with 1%Z in E. rewrite E. cbn [bind].
  rewrite app_assoc. specialize (IH ((pre ++ [Z.of_nat (length (fst f))]) ++ map Z.of_nat (fst f)) HF).
  rewrite !app_length, map_length in IH. cbn [length] in IH.
  replace (Z.of_nat (length pre) + 1 + (Z.of_nat (length (fst f)) + 1))%Z with (Z.of_nat (length pre + 1 + length (fst f)) + 1)%Z by lia.
  rewrite IH. reflexivity.
Qed.

Variable npsum : list N -> N.
Variables ec ac : N.
Definition n_edges (ed : list N) : nat := length (filter (fun x => nltb ec x) (map (fun x => ndiv x (npsum ed)) ed)).
Lemma refined_run : forall (edges : list (list N)) (weights : list N) k pre, length pre = k -> length weights = length edges ->
  mapM (fun q => let sum := npsum (snd q) in
         w <- py_get (pre ++ weights) (Z.of_nat (fst q)) ;;
         if nltb ac w then Ok [length (filter (fun x => nltb ec x) (map (fun x => ndiv x sum) (snd q)))] else Ok [])
    (combine (seq k (length edges)) edges) =
  Ok (map (fun q => if nltb ac (snd q) then [n_edges (fst q)] else []) (combine edges weights)).
Proof.
  induction edges as [|ed edges IH]; intros [|w weights] k pre L1 L2; try discriminate; [reflexivity|].
  cbn [length seq combine mapM map fst snd]. cbv zeta.
  assert (PG : py_get (pre ++ w :: weights) (Z.of_nat k) = Ok w) by (apply py_get_nat; rewrite nth_error_app2, L1, Nat.sub_diag by lia; reflexivity).
  rewrite PG. cbn [bind].
  specialize (IH weights (S k) (pre ++ [w])). rewrite app_length in IH. cbn [length] in IH.
  rewrite <- app_assoc in IH. cbn [app] in IH. rewrite IH by (cbn in L2; lia). fold (n_edges ed). destruct (nltb ac w); reflexivity.
Qed.
Lemma list4 (a b c d a' b' c' d' : Z) : a = a' -> b = b' -> c = c' -> d = d' -> [a; b; c; d] = [a'; b'; c'; d'].
Proof. intros; subst; reflexivity. Qed.
Lemma vorovector_count l : vorovector l = map Z.of_nat (map (fun k => length (filter (Nat.eqb k) l)) [3; 4; 5; 6]).
Proof.
  unfold vorovector. assert (G : forall l a b c d, fold_left (fun v ed =>
    match v with
    | [n3; n4; n5; n6] =>
        if (ed =? 3)%nat then [n3 + 1; n4; n5; n6]
        else if (ed =? 4)%nat then [n3; n4 + 1; n5; n6]
        else if (ed =? 5)%nat then [n3; n4; n5 + 1; n6]
        else if (ed =? 6)%nat then [n3; n4; n5; n6 + 1]
        else v
    | _ => v
    end)%Z l [a; b; c; d] =
    [a + Z.of_nat (length (filter (Nat.eqb 3) l)); b + Z.of_nat (length (filter (Nat.eqb 4) l));
     c + Z.of_nat (length (filter (Nat.eqb 5) l)); d + Z.of_nat (length (filter (Nat.eqb 6) l))]%Z).
  { clear l. induction l as [|x l IH]; intros a b c d; [cbn; apply list4; lia|]. cbn [fold_left filter].
    rewrite (Nat.eqb_sym 3 x), (Nat.eqb_sym 4 x), (Nat.eqb_sym 5 x), (Nat.eqb_sym 6 x).
    destruct (Nat.eqb_spec x 3) as [->|]; [|destruct (Nat.eqb_spec x 4) as [->|]; [|destruct (Nat.eqb_spec x 5) as [->|]; [|destruct (Nat.eqb_spec x 6) as [->|]]]];
      cbv iota; rewrite IH; repeat match goal with |- context [Nat.eqb ?u ?v] => let t := eval compute in (Nat.eqb u v) in change (Nat.eqb u v) with t end;
      cbn [length]; apply list4; lia. }
  rewrite G. reflexivity.
Qed.
Lemma count_concat A (g : A -> list nat) (P : A -> Prop) k l :
  (forall x, (P x /\ g x = [k]) \/ (~ P x /\ (g x = [] \/ exists j, g x = [j] /\ j <> k))) ->
  such P l (length (filter (Nat.eqb k) (concat (map g l)))).
Proof.
  intros H. induction l as [|x l IH]; [constructor|]. cbn [map concat]. rewrite filter_app, app_length.
  destruct (H x) as [[HP ->]|[HP [->|(j & -> & Hj)]]]; cbn [filter length].
  - rewrite Nat.eqb_refl. cbn [length Nat.add]. constructor; auto.
  - cbn. apply such_no; auto.
  - destruct (Nat.eqb_spec k j); [congruence|]. cbn. apply such_no; auto.
Qed.
Lemma combine_map_l A B C (g : A -> B) (l : list A) (l' : list C) : combine (map g l) l' = map (fun q => (g (fst q), snd q)) (combine l l').
Proof. revert l'. induction l as [|x l IH]; intros [|y l']; cbn; [reflexivity|reflexivity|reflexivity|f_equal; auto]. Qed.

Theorem atom_run p (a : atom N) (v : vdata N) :
  length (a_nbrs a) = length (p_faces p) ->
  laid_out p (firstn (length (a_nbrs a)) (vd_orders v)) (vd_numbers v) (vd_vectors v) ->
  exists v', atom_vorovector npsum ec ac a v = Ok v' /\
    vd_edges v' = map (fun f => map distance (edges (points p f))) (p_faces p) /\
    counts_faces (face_counts npsum ec ac) (combine (map (points p) (p_faces p)) (map nb_weight (a_nbrs a))) (vd_vector v') /\
    vd_volume v' = vd_volume v /\ vd_avgvolume v' = vd_avgvolume v /\ vd_numbers v' = vd_numbers v /\ vd_vectors v' = vd_vectors v /\
    vd_positions v' = vd_positions v /\ vd_orders v' = vd_orders v.
Proof.
  intros HL (H1 & H2 & H3 & H4). unfold atom_vorovector. rewrite H1, H2.
  assert (E := @edge_lengths_run p _ H3 _ [] H4). cbn [app length] in E. change (Z.of_nat 0 + 1)%Z with 1%Z in E. rewrite E. cbn [bind].
  unfold refined_edges. set (W := map nb_weight (a_nbrs a)). set (ED := map (fun f => map distance (edges (points p f))) (p_faces p)).
  assert (R := @refined_run ED W 0 [] eq_refl ltac:(unfold W, ED; rewrite !map_length; exact HL)). cbn [app] in R. cbv zeta in R. cbv zeta. rewrite R. cbn [bind].
  eexists. split; [reflexivity|]. cbn [vd_edges vd_vector vd_volume vd_avgvolume vd_numbers vd_vectors vd_positions vd_orders]. split; [reflexivity|].
  split; [|auto 10]. rewrite vorovector_count. cbn [map].
  exists (length (filter (Nat.eqb 3) (concat (map (fun q => if nltb ac (snd q) then [n_edges (fst q)] else []) (combine ED W))))),
         (length (filter (Nat.eqb 4) (concat (map (fun q => if nltb ac (snd q) then [n_edges (fst q)] else []) (combine ED W))))),
         (length (filter (Nat.eqb 5) (concat (map (fun q => if nltb ac (snd q) then [n_edges (fst q)] else []) (combine ED W))))),
         (length (filter (Nat.eqb 6) (concat (map (fun q => if nltb ac (snd q) then [n_edges (fst q)] else []) (combine ED W))))).
  split; [reflexivity|].
  assert (G : forall k, such (face_counts npsum ec ac k) (combine (map (points p) (p_faces p)) W)
     (length (filter (Nat.eqb k) (concat (map (fun q => if nltb ac (snd q) then [n_edges (fst q)] else []) (combine ED W)))))).
  { intros k. assert (CE : combine ED W = map (fun q => (map distance (edges (fst q)), snd q)) (combine (map (points p) (p_faces p)) W)).
    { unfold ED. rewrite <- (map_map (points p) (fun q => map distance (edges q))). apply combine_map_l. }
    rewrite CE, map_map. cbn [fst snd]. apply count_concat. intros [q w]. cbn [fst snd]. unfold face_counts. cbn [fst snd].
    assert (SE : such (fun e => nltb ec (ndiv (distance e) (npsum (map distance (edges q)))) = true) (edges q) (n_edges (map distance (edges q)))).
    { unfold n_edges. rewrite map_map. generalize (npsum (map distance (edges q))). intros S. generalize (edges q). intros l.
      assert (G := such_filter (fun e => nltb ec (ndiv (distance e) S)) l).
      replace (length (filter (fun x => nltb ec x) (map (fun x => ndiv (distance x) S) l))) with (length (filter (fun e => nltb ec (ndiv (distance e) S)) l)); [exact G|].
      clear. induction l as [|x l IH]; [reflexivity|]. cbn [map filter]. destruct (nltb ec _); cbn [length]; congruence. }
    destruct (nltb ac w); [|right; split; [intros [X _]; discriminate|left; reflexivity]].
    destruct (Nat.eq_dec (n_edges (map distance (edges q))) k) as [<-|NE].
    - left. split; [split; [reflexivity|exact SE]|reflexivity].
    - right. split; [|right; eexists; split; [reflexivity|exact NE]]. intros [_ X]. apply NE, (such_fun SE X). }
  split; [apply G|]. split; [apply G|]. split; apply G.
Qed.
End Cell.
