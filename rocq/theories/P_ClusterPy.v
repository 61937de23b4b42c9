(** cluster_atoms in terms of the atoms before the call. *)
From Coq Require Import Lia.
From Verif Require Import Base Num Types M_Geometry M_Container M_Neighbors M_Steinhardt M_Cluster
  S_Container S_Neighbors S_Cluster P_Container P_Neighbors P_Temp P_QRun P_QHist P_Cluster P_ClusterRun.
Set Implicit Arguments.
Unset Strict Implicit.

Section Py.
Variable N : num.
Implicit Types (l L : list (atom N)) (s t : sys N).
Variable inv : m3 N -> option (m3 N).
Variable raw : Z -> atom N.

Lemma split_ghosts (f : atom N -> Z) l l' : map f l = map f l' -> forall r g, l' = r ++ g ->
  exists r' g', l = r' ++ g' /\ map f r' = map f r /\ map f g' = map f g.
Proof.
  intros H r g ->. exists (firstn (length r) l), (skipn (length r) l).
  rewrite firstn_skipn. split; auto. rewrite <- firstn_map, <- skipn_map, H, map_app.
  rewrite firstn_app, skipn_app, map_length, Nat.sub_diag. cbn [firstn skipn].
  rewrite firstn_all2, skipn_all2 by (rewrite map_length; lia). now rewrite app_nil_r.
Qed.
Lemma counters_same s s' : counters_ok s -> map (@a_ghost N) (s_atoms s') = map (@a_ghost N) (s_atoms s) ->
  s_real s' = s_real s -> s_ghost s' = s_ghost s -> s_nop s' = s_nop s -> counters_ok s'.
Proof.
  intros (r & g & E & Hr & Hg & E1 & E2 & E3) H H1 H2 H3.
  destruct (split_ghosts H E) as (r' & g' & E' & Mr & Mg).
  exists r', g'. rewrite H1, H2, H3. split; [auto|].
  assert (length r' = length r) as -> by (apply (f_equal (@length _)) in Mr; now rewrite !map_length in Mr).
  assert (length g' = length g) as -> by (apply (f_equal (@length _)) in Mg; now rewrite !map_length in Mg).
  split; [|split; [|auto]].
  - intros a Ha. apply (in_map (@a_ghost N)) in Ha. rewrite Mr in Ha. apply in_map_iff in Ha as (b & <- & Hb). auto.
  - intros a Ha. apply (in_map (@a_ghost N)) in Ha. rewrite Mg in Ha. apply in_map_iff in Ha as (b & <- & Hb). auto.
Qed.
Lemma counters_firstn s : counters_ok s -> get_atoms s = Ok (firstn (Z.to_nat (s_real s)) (s_atoms s)).
Proof.
  intros H. pose proof H as (r & g & E & Hr & Hg & E1 & E2 & E3).
  unfold get_atoms. rewrite E, E1, Nat2Z.id, mapM_get_prefix, firstn_app, Nat.sub_diag, firstn_all. cbn [firstn].
  now rewrite app_nil_r.
Qed.

Lemma Forall2_length {A B} (R : A -> B -> Prop) x y : Forall2 R x y -> length x = length y.
Proof. induction 1; simpl; auto. Qed.

Section Graph.
Variables (l : list (atom N)) (condition : atom N -> res Z) (cutoff : N) (s1 : sys N) (ghosts : list (atom N)).
Variable l1 : list (atom N).
Hypothesis Hl1 : Forall2 (fun a a1 => exists v, condition a = Ok v /\ a1 = set_cond a v) l l1.
Hypothesis Hs1 : s_atoms s1 = l1 ++ ghosts.
Hypothesis Hok : counters_ok s1.
Hypothesis Hreal : s_real s1 = Z.of_nat (length l).
Let L := start s1 cutoff.

Lemma F2nth {A B} (R : A -> B -> Prop) x y i a : Forall2 R x y -> nth_error x i = Some a ->
  exists b, nth_error y i = Some b /\ R a b.
Proof.
  intros F. revert i. induction F; intros [|i] E; simpl in *; try discriminate; eauto.
  apply Some_inj in E. subst. eauto.
Qed.
Lemma L_at i a : nth_error l i = Some a -> exists v, condition a = Ok v /\
  nth_error L i = Some (with_cutoff cutoff (set_cond a v) <| a_belongs := (-1)%Z |>).
Proof.
  intros E. destruct (F2nth Hl1 E) as (a1 & E1 & v & Hv & ->). exists v. split; auto.
  unfold L. rewrite start_nth by auto. assert (i < length l) as Hi by (apply nth_error_Some; congruence).
  rewrite Hreal, Nat2Z.id. destruct (Nat.ltb_spec i (length l)); [|lia].
  rewrite Hs1, nth_error_app1 by (apply Forall2_length in Hl1; lia). now rewrite E1.
Qed.
Lemma L_real i a : nth_error L i = Some a -> a_ghost a = 0%Z -> exists b, nth_error l i = Some b.
Proof.
  intros E G. destruct (start_ghost Hok E G) as [Hi _]. rewrite Hreal, Nat2Z.id in Hi. now apply nth_error_some.
Qed.
Hypothesis Hall : all_real l.

Lemma wc_ghost a v : a_ghost (with_cutoff cutoff (set_cond a v)) = a_ghost a.
Proof. unfold with_cutoff. now destruct (neqb cutoff n0). Qed.
Lemma wc_cond a v : a_cond (with_cutoff cutoff (set_cond a v)) = v.
Proof. unfold with_cutoff. now destruct (neqb cutoff n0). Qed.
Lemma wc_nbrs a v : a_nbrs (with_cutoff cutoff (set_cond a v)) = a_nbrs a.
Proof. unfold with_cutoff. now destruct (neqb cutoff n0). Qed.
Lemma wc_cut a v : a_cutoff (with_cutoff cutoff (set_cond a v)) = range cutoff a.
Proof. unfold with_cutoff, range. now destruct (neqb cutoff n0). Qed.

Lemma ch_selected i : ch L i <-> selected l condition i.
Proof.
  split.
  - intros (a & Ea & Hg & Hc). destruct (L_real Ea Hg) as [b Eb]. destruct (L_at Eb) as (v & Hv & E).
    rewrite E in Ea. apply Some_inj in Ea. subst a. exists b, v. repeat split; auto.
    cbn in Hc. now rewrite wc_cond in Hc.
  - intros (a & v & Ea & Hv & Hn). destruct (L_at Ea) as (v' & Hv' & E). exists (with_cutoff cutoff (set_cond a v') <| a_belongs := (-1)%Z |>).
    split; auto. cbn. rewrite wc_ghost, wc_cond. split; [apply Hall; eapply nth_error_In; eauto|congruence].
Qed.
Lemma ed_joined i j : ch L i /\ ed L i j <-> joined l condition cutoff i j.
Proof.
  unfold joined. rewrite <- !ch_selected. split.
  - intros (Hi & a & e & Ea & He & Ej & Hd & Hj). split; [auto|]. split; [auto|].
    destruct Hi as (a' & Ea' & Hg & _). rewrite Ea in Ea'. apply Some_inj in Ea'. subst a'.
    destruct (L_real Ea Hg) as [b Eb]. destruct (L_at Eb) as (v & Hv & E).
    rewrite E in Ea. apply Some_inj in Ea. subst a. exists b, e. cbn in He, Hd. rewrite wc_nbrs in He. rewrite wc_cut in Hd. auto.
  - intros (Hi & Hj & a & e & Ea & He & Ej & Hd). split; auto.
    destruct (L_at Ea) as (v & Hv & E). exists (with_cutoff cutoff (set_cond a v) <| a_belongs := (-1)%Z |>), e.
    split; auto. cbn. rewrite wc_nbrs, wc_cut. auto.
Qed.
Lemma reach_chain u i : ch L u /\ reach L u i <-> chain l condition cutoff u i.
Proof.
  split.
  - intros [Hu Hr]. induction Hr as [i|i j k He Hr IH]; [constructor; now apply ch_selected|].
    assert (ch L j) as Hj by (destruct He as (?&?&?&?&?&?&?); auto).
    apply chain_step with j; [apply ed_joined; auto|auto].
  - intros H. induction H as [i Hi|i j k Hj Hc [IH1 IH2]].
    + split; [now apply ch_selected|constructor].
    + apply ed_joined in Hj as [A B]. split; auto. now apply reach_step with j.
Qed.
Lemma src_source u i : src L u i <-> source l condition cutoff u i.
Proof.
  unfold src, source. rewrite reach_chain. split; intros [A B]; split; auto.
  - intros u' H. apply reach_chain in H as [C D]. auto.
  - intros u' C D. apply B, reach_chain. auto.
Qed.
End Graph.


Lemma but_same L L' : map (@st N) L = map (@st N) L' -> map (@but_cluster N) L = map (@but_cluster N) L'.
Proof.
  intros H. assert (forall a : atom N, but_cluster a = but_cluster (st a)) as E by reflexivity.
  rewrite (map_ext _ _ E L), (map_ext _ _ E L'). rewrite <- !(map_map (@st N)). now rewrite H.
Qed.

(** Everything cluster_atoms does, with a list of the first atoms of the
    clusters. *)
Definition outcome s l (condition : atom N -> res Z) (cutoff : N) (t : sys N) (lc : Z)
    (l' : list (atom N)) (roots : list nat) (mx : Z) : Prop :=
  get_atoms t = Ok l' /\ counters_ok t /\
  map (@but_cluster N) l' = map (@but_cluster N) l /\ s_maxclus t = mx /\
  (forall i, selected l condition i -> exists m r, nth_error roots m = Some r /\
     source l condition cutoff r i /\ id_at l' i = Some (Z.of_nat m + 1)%Z) /\
  (forall i, i < length l -> ~ selected l condition i -> id_at l' i = Some (-1)%Z) /\
  (forall m r, nth_error roots m = Some r -> source l condition cutoff r r) /\
  (forall m m' r r', m < m' -> nth_error roots m = Some r -> nth_error roots m' = Some r' -> r < r') /\
  (forall a, In a l' -> a_lcluster a = Z.eqb (a_belongs a) mx) /\
  (forall i a, nth_error l' i = Some a -> a_surface a = surf (s_atoms t) a) /\
  (forall m, m < length roots -> (size l' (Z.of_nat m + 1) <= lc)%Z) /\
  ((roots = [] /\ lc = 0%Z /\ mx = s_maxclus s) \/
   exists m, m < length roots /\ mx = (Z.of_nat m + 1)%Z /\ (0 < lc)%Z /\ size l' mx = lc /\
     forall m', m' < m -> (size l' (Z.of_nat m' + 1) < lc)%Z).

Lemma atoms_set_maxclus s l t : atoms_set inv raw s l = Ok t -> s_maxclus t = s_maxclus s.
Proof.
  unfold atoms_set. destruct (_ <? 200)%Z.
  - destruct (_ =? 0)%Z; [discriminate|]. destruct (neqb _ _); [discriminate|]. unfold repeat_cell. cbn [bind].
    unfold box_set. destruct (nltb _ _).
    + destruct (inv _); cbn; [|discriminate]. intros H. injection H as <-. reflexivity.
    + cbn. intros H. injection H as <-. reflexivity.
  - intros H. injection H as <-. reflexivity.
Qed.

Lemma padded_length l (ghosts : list (atom N)) :
  (if (Z.of_nat (length l) <? 200)%Z then
     length ghosts = length (shifts (small_reps (Z.of_nat (length l))) (small_reps (Z.of_nat (length l)))
                              (small_reps (Z.of_nat (length l)))) * length l
   else ghosts = []) -> length l + length ghosts = padded (length l).
Proof.
  unfold padded. cbv zeta. destruct (_ <? 200)%Z; intros H; [rewrite H; reflexivity|subst; cbn; lia].
Qed.

Theorem cluster_core s l (condition : atom N -> res Z) (cutoff : N) :
  counters_ok s -> get_atoms s = Ok l ->
  match cluster_atoms inv raw s condition cutoff with
  | Ok (t, lc) => exists l' roots mx, outcome s l condition cutoff t lc l' roots mx
  | Err e => test_condition s condition = Err e \/
      (exists a, In a l /\ condition a = Err e) \/
      (exists l1, length l1 = length l /\ atoms_set inv raw s l1 = Err e) \/
      (e = UB /\ ~ forall a e, In a l -> In e (a_nbrs a) -> nb_idx e < padded (length l))
  end.
Proof.
  intros Hs Hl. unfold cluster_atoms.
  destruct (test_condition s condition) as [u|e]; cbn [bind]; [|auto]. rewrite Hl. cbn [bind].
  assert (Hall : all_real l).
  { destruct (counters_get_atoms Hs) as (r & g & _ & E & Hr & _). rewrite Hl in E. now injection E as ->. }
  destruct (mapM _ l) as [l1|e] eqn:Em; cbn [bind].
  2:{ right. left. clear -Em. induction l as [|a l IH]; [discriminate|]. cbn in Em.
      destruct (condition a) as [v|e'] eqn:Ec; cbn in Em; [|injection Em as ->; exists a; simpl; auto].
      destruct (mapM _ l); cbn in Em; [discriminate|]. destruct (IH Em) as (b & Hb & E). exists b. simpl; auto. }
  assert (HF : Forall2 (fun a a1 => exists v, condition a = Ok v /\ a1 = set_cond a v) l l1).
  { apply mapM_inv in Em. eapply Forall2_impl; [|exact Em]. intros a b H. cbn in H.
    destruct (condition a) as [v|]; cbn in H; [|discriminate]. injection H as <-. eauto. }
  assert (Hlen : length l1 = length l) by (symmetry; eapply Forall2_length; eauto).
  assert (Hall1 : all_real l1).
  { intros b Hb. apply In_nth_error in Hb as [i Ei]. assert (i < length l) as Hi.
    { rewrite <- Hlen. apply nth_error_Some. congruence. }
    destruct (nth_error_some Hi) as [a Ea]. destruct (F2nth HF Ea) as (b' & Eb & v & _ & ->).
    rewrite Ei in Eb. apply Some_inj in Eb. subst b. cbn. apply Hall. eapply nth_error_In; eauto. }
  destruct (atoms_set inv raw s l1) as [s1|e] eqn:Ea; cbn [bind]; [|right; right; left; eauto].
  pose proof (atoms_set_maxclus Ea) as Hmx.
  destruct (atoms_set_spec Hall1 Ea) as (ghosts & A1 & A2 & Hok & A3 & A4 & _ & A5).
  assert (Hreal : s_real s1 = Z.of_nat (length l)) by congruence.
  assert (Hpad : length (s_atoms s1) = padded (length l)).
  { rewrite A1, app_length, <- Hlen. apply padded_length. destruct (_ <? 200)%Z; [apply A5|exact A5]. }
  pose proof (clusters_spec cutoff Hok) as C.
  destruct (find_clusters_recursive s1 cutoff) as [[s2 calls]|e]; cbn [bind].
  2:{ right. right. right. destruct C as [-> C]. split; auto. intros Hv. apply C. intros i a e Ei He.
      assert (length (start s1 cutoff) = length (s_atoms s1)) as Hls.
      { unfold start, reset_clusters. now rewrite map_first_length, map_length. }
      rewrite Hls, Hpad.
      destruct (Nat.lt_ge_cases i (length l)) as [Hi|Hi].
      - destruct (nth_error_some Hi) as [b Eb]. destruct (L_at cutoff HF A1 Hok Hreal Eb) as (v & _ & E).
        rewrite E in Ei. apply Some_inj in Ei. subst a. cbn in He. rewrite wc_nbrs in He.
        eapply Hv; eauto. eapply nth_error_In; eauto.
      - (* ghosts have no neighbours *)
        rewrite start_nth in Ei by auto. rewrite Hreal, Nat2Z.id in Ei. destruct (Nat.ltb_spec i (length l)); [lia|].
        rewrite A1, nth_error_app2 in Ei by lia.
        destruct (nth_error ghosts (i - length l1)) as [g|] eqn:Eg; [|discriminate]. cbn in Ei. apply Some_inj in Ei.
        assert (a_nbrs a = a_nbrs g) as En by (subst a; unfold with_cutoff; now destruct (neqb cutoff n0)).
        rewrite En in He. exfalso. clear -He Eg A5 Ea A1.
        apply nth_error_In in Eg.
        assert (a_nbrs g = []) as Hg; [|now rewrite Hg in He].
        unfold atoms_set in Ea. destruct (Z.of_nat (length l1) <? 200)%Z; [|subst ghosts; contradiction].
        destruct (_ =? 0)%Z; [discriminate|]. destruct (neqb _ _); [discriminate|].
        unfold repeat_cell in Ea. cbn [bind] in Ea.
        destruct (box_set inv _ _) as [s3|]; cbn [bind] in Ea; [|discriminate]. injection Ea as <-. cbn in A1.
        apply app_inv_head in A1. rewrite <- A1 in Eg. clear -Eg.
        unfold copies in Eg. revert Eg. generalize (Z.of_nat (length l1) + 1)%Z.
        match goal with |- context [number_from _ _ _ _ ?ks] => generalize ks end.
        induction l as [|k ks IH]; intros z; cbn; [intros []|]. destruct k as [[[i j] k] a]. cbn.
        intros [<-|H]; [reflexivity|]. eapply IH; eauto. }
  destruct C as (ci & roots & I & Es2).
  assert (Hsame : map (@st N) (s_atoms s2) = map (@st N) (start s1 cutoff)) by apply I.
  assert (Hlen2 : length (s_atoms s2) = length (s_atoms s1)).
  { apply (f_equal (@length _)) in Hsame. rewrite !map_length in Hsame. rewrite Hsame.
    unfold start, reset_clusters. now rewrite map_first_length, map_length. }
  assert (Hgh : map (@a_ghost N) (s_atoms s2) = map (@a_ghost N) (s_atoms s1)).
  { assert (forall a : atom N, a_ghost a = a_ghost (st a)) as E by reflexivity.
    rewrite (map_ext _ _ E (s_atoms s2)). rewrite <- (map_map (@st N)), Hsame, map_map.
    unfold start, reset_clusters. rewrite map_map_first by reflexivity. rewrite map_map. apply map_ext.
    intros a. unfold with_cutoff. now destruct (neqb cutoff n0). }
  assert (Hnb : map (@a_nbrs N) (s_atoms s2) = map (@a_nbrs N) (s_atoms s1)).
  { assert (forall a : atom N, a_nbrs a = a_nbrs (st a)) as E by reflexivity.
    rewrite (map_ext _ _ E (s_atoms s2)). rewrite <- (map_map (@st N)), Hsame, map_map.
    unfold start, reset_clusters. rewrite map_map_first by reflexivity. rewrite map_map. apply map_ext.
    intros a. unfold with_cutoff. now destruct (neqb cutoff n0). }
  assert (Hok2 : counters_ok s2) by (apply (counters_same Hok Hgh); rewrite Es2; reflexivity).
  assert (Hreal2 : s_real s2 = s_real s1) by now rewrite Es2.
  assert (Hmx2 : s_maxclus s2 = s_maxclus s) by (rewrite Es2; exact Hmx).
  rewrite <- Hreal2 in I.
  pose proof (largest_spec Hok2 I) as G. cbv zeta in G.
  assert (forall i a, nth_error (start s1 cutoff) i = Some a -> i < Z.to_nat (s_real s2) ->
     ~ ch (start s1 cutoff) i -> a_belongs a = (-1)%Z) as Hrest.
  { intros i a Ei Hi _. rewrite start_nth in Ei by auto. rewrite <- Hreal2 in Ei.
    destruct (Nat.ltb_spec i (Z.to_nat (s_real s2))); [|lia].
    destruct (nth_error (s_atoms s1) i); [|discriminate]. cbn in Ei. apply Some_inj in Ei. now subst a. }
  specialize (G Hrest). rewrite Hreal2, Hreal, Nat2Z.id in *. set (n := length l) in *.
  destruct (largest_cluster s2) as [[t lc]|e].
  2:{ right. right. right. destruct G as (He0 & a & ee & Ha & He & Hle). split; auto. intros Hv.
      apply In_nth_error in Ha as [i Ei].
      assert (nth_error (map (@a_nbrs N) (s_atoms s1)) i = Some (a_nbrs a)) as Eb.
      { rewrite <- Hnb, nth_error_map, Ei. reflexivity. }
      rewrite nth_error_map in Eb. destruct (nth_error (s_atoms s1) i) as [b|] eqn:Eb1; [|discriminate].
      cbn in Eb. apply Some_inj in Eb. rewrite <- Eb in He.
      assert (nb_idx ee < padded n); [|rewrite Hlen2, Hpad in Hle; lia].
      destruct (Nat.lt_ge_cases i n) as [Hi|Hi].
      - rewrite A1, nth_error_app1 in Eb1 by lia. destruct (nth_error_some Hi) as [c Ec].
        destruct (F2nth HF Ec) as (b' & Eb' & v & _ & ->). rewrite Eb1 in Eb'. apply Some_inj in Eb'. subst b.
        apply (Hv c ee); [eapply nth_error_In; eauto|exact He].
      - exfalso. rewrite A1, nth_error_app2 in Eb1 by lia. apply nth_error_In in Eb1. rename b into g.
        assert (a_nbrs g = []) as Hg; [|now rewrite Hg in He]. clear -Eb1 A1 Ea A5.
        unfold atoms_set in Ea. destruct (Z.of_nat (length l1) <? 200)%Z; [|subst ghosts; contradiction].
        destruct (_ =? 0)%Z; [discriminate|]. destruct (neqb _ _); [discriminate|].
        unfold repeat_cell in Ea. cbn [bind] in Ea.
        destruct (box_set inv _ _) as [s3|]; cbn [bind] in Ea; [|discriminate]. injection Ea as <-. cbn in A1.
        apply app_inv_head in A1. rewrite <- A1 in Eb1. clear -Eb1.
        unfold copies in Eb1. revert Eb1. generalize (Z.of_nat (length l1) + 1)%Z.
        match goal with |- context [number_from _ _ _ _ ?ks] => generalize ks end.
        induction l as [|k ks IH]; intros z; cbn; [intros []|]. destruct k as [[[i j] k] a]. cbn.
        intros [<-|H]; [reflexivity|]. eapply IH; eauto. }
  destruct G as (mx & Et & G1 & G2).
  assert (Hn2 : n <= length (s_atoms s2)).
  { rewrite Hlen2, A1, app_length. lia. }
  set (l2 := firstn n (s_atoms s2)) in *.
  exists (map (mk mx (s_atoms s2)) l2), roots, mx.
  assert (Hat : s_atoms t = map_first n (mk mx (s_atoms s2)) (s_atoms s2)) by (rewrite Et; reflexivity).
  assert (Hokt : counters_ok t).
  { apply (counters_same Hok2); try (rewrite Et; reflexivity). rewrite Hat. now apply map_map_first. }
  assert (Hid : forall i, id_at (map (mk mx (s_atoms s2)) l2) i = if (i <? n)%nat then option_map (@a_belongs N) (nth_error (s_atoms s2) i) else None).
  { intros i. unfold id_at, l2. rewrite nth_error_map. destruct (Nat.ltb_spec i n).
    - rewrite firstn_nth by auto. now destruct (nth_error (s_atoms s2) i).
    - assert (nth_error (firstn n (s_atoms s2)) i = None) as ->; auto. apply nth_error_None. rewrite firstn_length. lia. }
  assert (Hsize : forall c, size (map (mk mx (s_atoms s2)) l2) c = size l2 c).
  { intros c. unfold size. f_equal. clear. induction l2 as [|a x IH]; cbn; auto.
    destruct (Z.eqb (a_belongs a) c); cbn; auto. }
  split; [|split; [auto|split; [|split; [now rewrite Et|]]]].
  { rewrite (counters_firstn Hokt). f_equal. rewrite Hat. rewrite Et. cbn [s_real set]. try rewrite Hreal2; try rewrite Hreal; rewrite Nat2Z.id.
    unfold map_first. fold n l2. rewrite firstn_app.
    assert (length (map (mk mx (s_atoms s2)) l2) = n) as Hk by (unfold l2; rewrite map_length, firstn_length; lia).
    rewrite Hk, Nat.sub_diag. cbn [firstn]. rewrite app_nil_r. apply firstn_all2. lia. }
  { rewrite map_map. change (map (@but_cluster N) l2 = map (@but_cluster N) l).
    unfold l2. rewrite <- firstn_map.
    assert (map (@but_cluster N) (s_atoms s2) = map (@but_cluster N) (start s1 cutoff)) as -> by now apply but_same.
    unfold start, reset_clusters. rewrite map_map_first by reflexivity. rewrite map_map.
    assert (forall a : atom N, but_cluster (with_cutoff cutoff a) = but_cluster a) as E.
    { intros a. unfold with_cutoff. now destruct (neqb cutoff n0). }
    rewrite (map_ext _ _ E), A1, map_app, firstn_app, map_length, Hlen, Nat.sub_diag. cbn [firstn].
    rewrite app_nil_r. rewrite firstn_all2 by (rewrite map_length; lia).
    clear -HF. induction HF as [|a b x y (v & _ & ->) F IH]; cbn; auto. f_equal; auto. }
  assert (Hbel : forall i, i < n -> id_at (map (mk mx (s_atoms s2)) l2) i = Some (bel (s_atoms s2) i)).
  { intros i Hi. rewrite Hid. destruct (Nat.ltb_spec i n); [|lia]. unfold bel.
    destruct (@nth_error_some _ (s_atoms s2) i) as [a ->]; [lia|reflexivity]. }
  assert (Hsel : forall i, selected l condition i -> i < n).
  { intros i (a & v & E & _). unfold n. apply nth_error_Some. congruence. }
  split.
  { intros i Hi. assert (ch (start s1 cutoff) i) as Hc by (apply (ch_selected cutoff HF A1 Hok Hreal Hall); auto).
    assert (i < n) as Hin by auto.
    destruct (@i_id _ _ _ _ _ _ _ I i Hc) as (m & r & Em' & Esrc & Eb).
    { apply (i_lab I Hc). exists i. split; [lia|]. split; auto. constructor. }
    exists m, r. split; [auto|]. split; [now apply (src_source cutoff HF A1 Hok Hreal Hall)|]. rewrite Hbel by auto. now rewrite Eb. }
  split.
  { intros i Hi Hns. rewrite Hbel by auto. f_equal.
    destruct (@nth_error_some _ l i Hi) as [a Eai]. destruct (L_at cutoff HF A1 Hok Hreal Eai) as (v & _ & E).
    rewrite (i_rest I E); [reflexivity|]. intros Hc. apply Hns. now apply (ch_selected cutoff HF A1 Hok Hreal Hall). }
  split.
  { intros m r Er. apply (src_source cutoff HF A1 Hok Hreal Hall). apply (i_root I Er). }
  split; [intros; eapply (i_incr I); eauto|].
  split.
  { intros a Ha. apply in_map_iff in Ha as (b & <- & Hb). reflexivity. }
  split.
  { intros i a Ei. rewrite nth_error_map in Ei. destruct (nth_error l2 i) as [b|]; [|discriminate].
    cbn in Ei. apply Some_inj in Ei. subst a. change (surf (s_atoms s2) b = surf (s_atoms t) (mk mx (s_atoms s2) b)).
    apply surf_same; [|reflexivity]. rewrite Hat. symmetry. now apply map_map_first. }
  split.
  { intros m Hm. rewrite Hsize. auto. }
  destruct G2 as [(E1 & E2 & E3)|(m & E1 & E2 & E3 & E4 & E5)]; [left; repeat split; auto; congruence|].
  right. exists m. repeat split; auto.
  - rewrite Hsize. auto.
  - intros m' Hm'. rewrite Hsize. auto.
Qed.
End Py.

(** The counters are not touched by neighbour finding with a numeric cutoff. *)
Lemma cutoff_frame (N : num) srt voro area_pow inv (s s' : sys N) r f t pad nl e :
  find_neighbors srt voro area_pow inv s (mkArgs (MCutoff (CutVal r)) f t pad nl) = Ok (s', e) ->
  stored s -> neqb r n0 = false ->
  s_real s' = s_real s /\ s_ghost s' = s_ghost s /\ s_nop s' = s_nop s.
Proof.
  intros H St Hr. revert H. unfold find_neighbors, reset_all_neighbors. rewrite (each_atom_stored _ St). cbn [bind].
  cbv zeta. cbn [fa_method fa_filter fa_threshold]. rewrite Hr.
  destruct (if Z.ltb _ _ then _ else _) as [s2|] eqn:E; cbn [bind]; [|discriminate].
  intros [= <- _]. destruct (Z.ltb _ _) in E.
  - unfold get_all_neighbors_cells in E. cbv zeta in E.
    destruct (cell_pairs _) as [ps|]; cbn [bind] in E; [|discriminate].
    destruct (foldM _ _ _) as [l|]; cbn [bind] in E; [|discriminate]. injection E as <-. auto.
  - unfold get_all_neighbors_normal in E. cbv zeta in E.
    destruct (foldM _ _ _) as [l|]; cbn [bind] in E; [|discriminate]. injection E as <-. auto.
Qed.
Lemma start_from (N : num) (s : sys N) (c : N) i a : counters_ok s -> nth_error (start s c) i = Some a ->
  exists b, nth_error (s_atoms s) i = Some b /\ a_ghost a = a_ghost b /\ a_cond a = a_cond b /\ a_nbrs a = a_nbrs b.
Proof.
  intros H E. rewrite start_nth in E by auto. unfold with_cutoff in E.
  destruct (nth_error (s_atoms s) i) as [b|] eqn:Eb; [|destruct (_ <? _)%nat; discriminate].
  exists b. split; auto.
  destruct (_ <? _)%nat; cbn in E; apply Some_inj in E; subst a; destruct (neqb c n0); auto.
Qed.
Lemma get_inv_err {A} (l : list A) i e : get l i = Err e -> e = UB.
Proof. unfold get. destruct (nth_error l i); congruence. Qed.
Lemma length_neighbors_within (N : num) (s : sys N) r f i :
  length (neighbors_within s r f i) <= length (s_atoms s).
Proof.
  unfold neighbors_within. rewrite <- (seq_length (length (s_atoms s)) 0) at 2.
  induction (seq 0 (length (s_atoms s))) as [|j js IH]; [constructor|]. cbn [flat_map length]. rewrite app_length.
  destruct (link s i j) as [x|]; [destruct (_ && _)|]; cbn [length]; lia.
Qed.
