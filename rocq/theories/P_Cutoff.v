(** find_neighbors with a numeric cutoff, and small general facts. *)
From Coq Require Import Lia Reals Lra Permutation.
From Verif Require Import Base Num NumR Types M_Geometry M_Container M_Neighbors P_Container S_Geometry
  S_Neighbors P_Geometry P_Box P_Neighbors P_Temp P_Cells P_Search P_FindN.
Set Implicit Arguments.
Unset Strict Implicit.
Close Scope R_scope.
#[local] Opaque abs_distance_ij.
#[local] Arguments max_nbrs : simpl never.

Section Any.
Variable N : num.
Variable srt : list (datom N) -> list (datom N).
Variable voro : nat -> option (list (nat * N)).
Variable area_pow : N -> N.
Variable inv : m3 N -> option (m3 N).
Notation find := (find_neighbors srt voro area_pow inv).

Lemma cell_pairs_range (s : sys N) ps i j : cell_pairs s = Ok ps -> In (i, j) ps ->
  i < j < Z.to_nat (s_nop s).
Proof.
  unfold cell_pairs. destruct (make_grid s) as [g|]; cbn [bind]; [|discriminate].
  destruct (atom_cells s g) as [cs|] eqn:E; cbn [bind]; [|discriminate]. intros [= <-].
  rewrite in_flat_map. intros (x & _ & H). rewrite in_flat_map in H. destruct H as (y & _ & H).
  rewrite in_flat_map in H. destruct H as (z & _ & H).
  rewrite in_flat_map in H. destruct H as (ti & _ & H).
  rewrite in_flat_map in H. destruct H as (c & _ & H).
  rewrite in_flat_map in H. destruct H as (tj & Hj & H).
  apply In_members in Hj.
  assert (L : length cs = Z.to_nat (s_nop s)).
  { unfold atom_cells in E. clear -E. 
    assert (G : forall (f : nat -> res Z) l r, mapM f l = Ok r -> length r = length l).
    { intros f l; induction l as [|x l IH]; simpl; intros r H; [injection H as <-; auto|].
      destruct (f x); simpl in H; [|discriminate]. destruct (mapM f l); simpl in H; [|discriminate].
      injection H as <-. simpl. now rewrite (IH _ eq_refl). }
    apply G in E. now rewrite seq_length in E. }
  assert (tj < length cs) by (apply nth_error_Some; congruence).
  destruct (Nat.ltb_spec ti tj); simpl in H; [|tauto]. destruct H as [[= <- <-]|[]]. lia.
Qed.

(** The outcome of the numeric cutoff: the events of some list of pairs. *)
Lemma cutoff_evs (s : sys N) r f t pad nl s' e : stored s -> neqb r n0 = false ->
  find s (mkArgs (MCutoff (CutVal r)) f t pad nl) = Ok (s', e) ->
  e = None /\ s_found s' = true /\ exists ps,
    (forall i j, In (i, j) ps -> i < j < length (s_atoms s)) /\
    result_of s s' r (fun i => evs (prep s f r) (s_atoms (prep s f r)) ps i).
Proof.
  intros St Hr. unfold find_neighbors, reset_all_neighbors. rewrite (each_atom_stored _ St). cbn [bind].
  cbv zeta. cbn [fa_method fa_filter fa_threshold]. rewrite Hr.
  match goal with |- context [get_all_neighbors_cells ?x] => set (s1 := x) end.
  assert (Hn : Z.to_nat (s_nop (prep s f r)) = length (s_atoms (prep s f r))).
  { simpl. rewrite map_length, St. apply Nat2Z.id. }
  assert (HL : length (s_atoms (prep s f r)) = length (s_atoms s)) by (simpl; now rewrite map_length).
  assert (G : forall ps l, (forall i j, In (i, j) ps -> i < j < length (s_atoms s)) ->
     foldM (add_pair (prep s f r)) ps (s_atoms (prep s f r)) = Ok l ->
     forall s2, s_atoms s2 = l -> result_of s s2 r (fun i => evs (prep s f r) (s_atoms (prep s f r)) ps i)).
  { intros ps l R E s2 E2.
    pose proof (@fold_add_pair N (prep s f r) ps (s_atoms (prep s f r))) as F.
    rewrite E in F. apply grown_result with (f := f) (l' := l); auto. apply F.
    intros [i j] Hp. cbn [fst snd]. specialize (R _ _ Hp). rewrite HL. lia. }
  destruct (if Z.ltb _ _ then _ else _) as [s2|] eqn:E; cbn [bind]; [|discriminate].
  intros [= <- <-]. split; auto. split; auto. destruct (Z.ltb _ _) in E.
  - unfold get_all_neighbors_cells in E. change (s1 <| s_vorused := false |>) with (prep s f r) in E.
    cbv zeta in E. destruct (cell_pairs (prep s f r)) as [ps|] eqn:Ep; cbn [bind] in E; [|discriminate].
    destruct (foldM _ _ _) as [l|] eqn:El; cbn [bind] in E; [|discriminate]. injection E as <-.
    exists ps. assert (R : forall i j, In (i, j) ps -> i < j < length (s_atoms s)).
    { intros i j Hp. pose proof (cell_pairs_range Ep Hp). rewrite Hn, HL in H. lia. }
    split; auto. eapply G; eauto.
  - unfold get_all_neighbors_normal in E. change (s1 <| s_vorused := false |>) with (prep s f r) in E.
    cbv zeta in E. 
    destruct (foldM _ _ _) as [l|] eqn:El; cbn [bind] in E; [|discriminate]. injection E as <-.
    exists (pairs (Z.to_nat (s_nop (prep s f r)))).
    assert (R : forall i j, In (i, j) (pairs (Z.to_nat (s_nop (prep s f r)))) -> i < j < length (s_atoms s)).
    { intros i j Hp. apply In_pairs in Hp. rewrite Hn, HL in Hp. lia. }
    split; auto. eapply G; eauto.
Qed.

Lemma pair_ev_mirror (s : sys N) l i p e : fst p <> snd p -> In e (pair_ev s l i p) ->
  i <> nb_idx e /\ nb_weight e = n1 /\ nltb (nb_dist e) (s_nd s) = true /\
  (exists a b, nth_error l i = Some a /\ nth_error l (nb_idx e) = Some b /\
     filtered (s_filter s) (a_type a) (a_type b) = false) /\
  exists e', In e' (pair_ev s l (nb_idx e) p) /\ nb_idx e' = i /\ nb_dist e' = nb_dist e /\
    nb_weight e' = n1 /\
    ((i < nb_idx e /\ nb_vec e' = vopp (nb_vec e)) \/ (nb_idx e < i /\ nb_vec e = vopp (nb_vec e'))
     \/ ~ fst p < snd p).
Proof.
  destruct p as [ti tj]. cbn [fst snd]. intros Hne. unfold pair_ev.
  destruct (nth_error l ti) as [a|] eqn:Ea; [|intros []]. destruct (nth_error l tj) as [b|] eqn:Eb; [|intros []].
  destruct (abs_distance_ij s (a_pos a) (a_pos b)) as [d v].
  destruct (nltb d (s_nd s)) eqn:E1; simpl; [|intros []].
  destruct (filtered _ _ _) eqn:E2; simpl; [intros []|].
  assert (E2' : filtered (s_filter s) (a_type b) (a_type a) = false).
  { revert E2. unfold filtered. now rewrite (Z.eqb_sym (a_type b)). }
  destruct (Nat.eqb_spec i ti) as [Hi|Hi]; [|destruct (Nat.eqb_spec i tj) as [Hj|Hj]; [|intros []]];
    subst; intros [<-|[]]; cbn [nb_idx nb_dist nb_weight nb_vec].
  - split; auto. split; auto. split; auto. split; [exists a, b; auto|].
    exists (mkNbr ti d n1 (vopp v)). apply not_eq_sym, Nat.eqb_neq in Hne. rewrite Hne, Nat.eqb_refl. simpl.
    split; auto. repeat split; auto. apply Nat.eqb_neq in Hne. destruct (Nat.lt_ge_cases ti tj); [left; auto|right; right; lia].
  - split; auto. split; auto. split; auto. split; [exists b, a; auto|].
    exists (mkNbr tj d n1 v). rewrite Nat.eqb_refl. simpl. split; auto. repeat split; auto.
    destruct (Nat.lt_ge_cases ti tj); [right; left; auto|right; right; lia].
Qed.

Lemma nbrs_at_result (s s' : sys N) r lst i : result_of s s' r lst -> i < length (s_atoms s) ->
  nbrs_at s' i = lst i.
Proof.
  intros [_ H] Hi. destruct (nth_error (s_atoms s) i) as [a|] eqn:E; [|apply nth_error_None in E; lia].
  destruct (H _ _ E) as (a' & Ea' & _ & Hn & _). unfold nbrs_at. now rewrite Ea'.
Qed.
Lemma nbrs_at_out (s s' : sys N) r lst i : result_of s s' r lst -> length (s_atoms s) <= i -> nbrs_at s' i = [].
Proof.
  intros [HL _] Hi. unfold nbrs_at. assert (E : nth_error (s_atoms s') i = None) by (apply nth_error_None; lia).
  now rewrite E.
Qed.

Lemma cutoff_mirror (s : sys N) r f t pad nl s' e : stored s -> neqb r n0 = false ->
  find s (mkArgs (MCutoff (CutVal r)) f t pad nl) = Ok (s', e) ->
  forall i en, In en (nbrs_at s' i) ->
    i <> nb_idx en /\ nb_weight en = n1 /\ nltb (nb_dist en) r = true /\
    allowed f (type_at s i) (type_at s (nb_idx en)) = true /\
    exists en', In en' (nbrs_at s' (nb_idx en)) /\ nb_idx en' = i /\ nb_dist en' = nb_dist en /\
      nb_weight en' = n1 /\
      ((i < nb_idx en /\ nb_vec en' = vopp (nb_vec en)) \/ (nb_idx en < i /\ nb_vec en = vopp (nb_vec en'))).
Proof.
  intros St Hr E. destruct (cutoff_evs St Hr E) as (_ & _ & ps & R & Res). intros i en H.
  assert (Li : i < length (s_atoms s)).
  { destruct (Nat.lt_ge_cases i (length (s_atoms s))); auto. rewrite (nbrs_at_out Res) in H by auto. destruct H. }
  rewrite (nbrs_at_result Res Li) in H. unfold evs in H. apply in_flat_map in H.
  destruct H as ([x y] & Hp & H). pose proof (R _ _ Hp) as Hxy.
  apply pair_ev_mirror in H; [|cbn; lia]. destruct H as (A & B & C & (a & b & Ea & Eb & F) & e' & He' & D1 & D2 & D3 & D4).
  split; auto. split; auto. split; [exact C|]. split.
  { unfold prep in Ea, Eb. simpl in Ea, Eb. rewrite nth_error_map in Ea, Eb. unfold type_at.
    destruct (nth_error (s_atoms s) i); [|discriminate].
    destruct (nth_error (s_atoms s) (nb_idx en)); [|discriminate].
    simpl in Ea, Eb. injection Ea as <-. injection Eb as <-. rewrite <- filtered_allowed. simpl in F. now rewrite F. }
  assert (Lj : nb_idx en < length (s_atoms s)).
  { assert (nb_idx en < length (s_atoms (prep s f r))) by (apply nth_error_Some; congruence).
    simpl in H. now rewrite map_length in H. }
  exists e'. split.
  { rewrite (nbrs_at_result Res Lj). apply in_flat_map. eauto. }
  split; auto. split; auto. split; auto. destruct D4 as [D|[D|D]]; auto. cbn in D. lia.
Qed.
End Any.
