(** Proofs about the identification of diamond structures. *)
From Coq Require Import Lia Permutation Reals Lra.
From Verif Require Import Base Num NumR Types M_Geometry S_Geometry P_Geometry M_Container P_Box M_Neighbors M_Steinhardt M_CNA
  S_Neighbors S_CNA P_Neighbors P_Temp P_Graph P_QRun P_Search P_FindN P_History P_CNA P_CNARun P_CNAReal.
Close Scope R_scope.
Set Implicit Arguments.
Unset Strict Implicit.
#[local] Opaque abs_distance_ij.
#[local] Arguments max_nbrs : simpl never.

(** ** Loops whose step depends on the index *)
Section L.
Variable A : Type.
Variables (f : list A -> nat -> res (list A)) (F : nat -> A -> A) (l0 : list A).
Definition part (k : nat) (l : list A) : Prop :=
  length l = length l0 /\ forall i, nth_error l i = if i <? k then option_map (F i) (nth_error l0 i) else nth_error l0 i.
Lemma loop_part n : n <= length l0 ->
  (forall k l, k < n -> part k l -> f l k = Ok (upd k (F k) l)) ->
  exists l', foldM f (seq 0 n) l0 = Ok l' /\ part n l'.
Proof.
  intros Hn H. induction n as [|n IH].
  - exists l0. split; auto. split; auto.
  - destruct IH as (l & E & P); [lia|intros; apply H; auto|].
    rewrite seq_S, foldM_app, E. cbn [bind foldM plus]. rewrite (H n l) by (auto; lia). cbn [bind].
    eexists. split; [reflexivity|]. destruct P as [PL P]. split; [now rewrite length_upd|].
    intros i. rewrite nth_error_upd. destruct (Nat.eqb_spec i n) as [->|Hi].
    + rewrite P, Nat.ltb_irrefl. assert (n <? S n = true) as -> by (apply Nat.ltb_lt; lia). reflexivity.
    + rewrite P. destruct (Nat.ltb_spec i n), (Nat.ltb_spec i (S n)); auto; lia.
Qed.
Lemma part_all l : part (length l0) l -> forall i a, nth_error l0 i = Some a -> nth_error l i = Some (F i a).
Proof.
  intros [_ P] i a Ha. rewrite P, Ha. assert (i < length l0) by (apply nth_error_Some; congruence).
  apply Nat.ltb_lt in H. now rewrite H.
Qed.
End L.

(** The same when the loop is known to succeed. *)
Lemma foldM_part {A} (f : list A -> nat -> res (list A)) (F : nat -> A -> A) l0 n l' :
  (forall k l l', k < n -> part F l0 k l -> f l k = Ok l' -> l' = upd k (F k) l) ->
  foldM f (seq 0 n) l0 = Ok l' -> part F l0 n l'.
Proof.
  intros H. revert l'. induction n as [|n IH]; intros l' E.
  - cbn in E. injection E as <-. split; auto.
  - rewrite seq_S, foldM_app in E. destruct (foldM f (seq 0 n) l0) as [l|] eqn:El; cbn [bind foldM plus] in E; [|discriminate].
    destruct (f l n) as [l2|] eqn:E2; cbn [bind] in E; [|discriminate]. injection E as <-.
    assert (P : part F l0 n l) by (apply IH; auto; intros; eapply H; eauto).
    apply (H n l l2) in E2 as ->; auto. destruct P as [PL P]. split; [now rewrite length_upd|].
    intros i. rewrite nth_error_upd. destruct (Nat.eqb_spec i n) as [->|Hi].
    + rewrite P, Nat.ltb_irrefl. assert (n <? S n = true) as -> by (apply Nat.ltb_lt; lia). reflexivity.
    + rewrite P. destruct (Nat.ltb_spec i n), (Nat.ltb_spec i (S n)); auto; lia.
Qed.

Section D.
Variable N : num.
Implicit Types s t : sys N.

(** ** The two shell passes *)
Definition kind (v : Z) : option Z := if Z.eqb v 5 then Some 5%Z else if Z.eqb v 8 then Some 8%Z else None.
Definition kind_at (l : list (atom N)) (j : nat) : option Z :=
  match nth_error l j with Some b => kind (a_struct b) | None => None end.
Fixpoint first_kind (l : list (atom N)) (js : list nat) : option Z :=
  match js with [] => None | j :: js => match kind_at l j with Some v => Some v | None => first_kind l js end end.
Lemma diamond_at_kind s j : diamond_at s j = kind_at (s_atoms s) j. Proof. reflexivity. Qed.
Lemma first_diamond_kind s js : first_diamond s js = first_kind (s_atoms s) js.
Proof. induction js; simpl; auto. now rewrite diamond_at_kind, IHjs. Qed.
Lemma first_kind_ext l l' js : (forall j, kind_at l j = kind_at l' j) -> first_kind l js = first_kind l' js.
Proof. intros H. induction js; simpl; auto. now rewrite H, IHjs. Qed.

Definition shell_new (skip : list Z) (cubic hex : Z) (shell : atom N -> list nat) (l0 : list (atom N)) (a : atom N) : atom N :=
  if existsb (Z.eqb (a_struct a)) skip then a
  else match first_kind l0 (shell a) with
       | Some v => a <| a_struct := if Z.eqb v 5 then cubic else hex |>
       | None => a
       end.

Lemma shell_label_first (l : list (atom N)) cubic hex ns r : shell_label l cubic hex ns = Ok r ->
  r = option_map (fun v => if Z.eqb v 5 then cubic else hex) (first_kind l ns).
Proof.
  induction ns as [|n ns IH]; cbn [shell_label first_kind]; [intros [= <-]; auto|].
  unfold get, kind_at. destruct (nth_error l n) as [b|]; cbn [bind]; [|discriminate]. unfold kind.
  destruct (Z.eqb (a_struct b) 5); [intros [= <-]; auto|]. destruct (Z.eqb (a_struct b) 8); [intros [= <-]; auto|]. auto.
Qed.
Lemma shell_label_total (l : list (atom N)) cubic hex ns : (forall n, In n ns -> n < length l) -> exists r, shell_label l cubic hex ns = Ok r.
Proof.
  induction ns as [|n ns IH]; intros H; cbn [shell_label]; [eauto|].
  destruct (@nth_error_some _ l n) as [b Eb]; [apply H; simpl; auto|]. rewrite (get_Ok Eb). cbn [bind].
  destruct (Z.eqb (a_struct b) 5); [eauto|]. destruct (Z.eqb (a_struct b) 8); [eauto|]. apply IH. intros; apply H; simpl; auto.
Qed.

Lemma kind_part skip cubic hex shell l0 k l : existsb (Z.eqb 5) skip = true -> existsb (Z.eqb 8) skip = true ->
  kind cubic = None -> kind hex = None ->
  part (fun _ => shell_new skip cubic hex shell l0) l0 k l -> forall j, kind_at l j = kind_at l0 j.
Proof.
  intros H5 H8 Kc Kh [_ P] j. unfold kind_at. rewrite P. destruct (j <? k); auto.
  destruct (nth_error l0 j) as [a|]; cbn [option_map]; auto. unfold shell_new.
  destruct (existsb (Z.eqb (a_struct a)) skip) eqn:E; auto.
  assert (K : kind (a_struct a) = None).
  { unfold kind. destruct (Z.eqb_spec (a_struct a) 5) as [Q|]; [rewrite Q in E; congruence|].
    destruct (Z.eqb_spec (a_struct a) 8) as [Q|]; [rewrite Q in E; congruence|]. reflexivity. }
  destruct (first_kind l0 (shell a)) as [v|]; auto. cbn [a_struct]. rewrite K. cbn. destruct (Z.eqb v 5); auto.
Qed.

Lemma shell_pass_spec skip cubic hex shell t t' : existsb (Z.eqb 5) skip = true -> existsb (Z.eqb 8) skip = true ->
  kind cubic = None -> kind hex = None -> stored t ->
  shell_pass skip cubic hex shell t = Ok t' ->
  t' = t <| s_atoms := s_atoms t' |> /\ length (s_atoms t') = length (s_atoms t) /\
  (forall j, kind_at (s_atoms t') j = kind_at (s_atoms t) j) /\
  forall i a, nth_error (s_atoms t) i = Some a ->
    nth_error (s_atoms t') i = Some (shell_new skip cubic hex shell (s_atoms t) a).
Proof.
  intros H5 H8 Kc Kh Hst. unfold shell_pass.
  assert (En : Z.to_nat (s_nop t) = length (s_atoms t)) by (rewrite Hst; apply Nat2Z.id). rewrite En.
  destruct (foldM _ _ _) as [l'|] eqn:E; cbn [bind]; [|discriminate]. intros Ht. injection Ht as <-.
  assert (P : part (fun _ => shell_new skip cubic hex shell (s_atoms t)) (s_atoms t) (length (s_atoms t)) l').
  { eapply foldM_part; [|exact E]. intros k l l2 Hk HP. unfold shell_atom.
    destruct (nth_error_some Hk) as [a Ea].
    assert (El : nth_error l k = Some a) by (rewrite (proj2 HP), Nat.ltb_irrefl; exact Ea).
    rewrite (get_Ok El). cbn [bind]. destruct (existsb (Z.eqb (a_struct a)) skip) eqn:Es.
    - intros [= <-]. symmetry. apply (upd_id El). unfold shell_new. now rewrite Es.
    - destruct (shell_label l cubic hex (shell a)) as [r|] eqn:Er; cbn [bind]; [|discriminate].
      apply shell_label_first in Er. intros Hl2. injection Hl2 as <-.
      rewrite (@first_kind_ext l (s_atoms t)) in Er by (exact (@kind_part skip cubic hex shell (s_atoms t) k l H5 H8 Kc Kh HP)).
      subst r. destruct (first_kind (s_atoms t) (shell a)) as [v|] eqn:Ek; cbn [option_map].
      + apply (upd_ext El). unfold shell_new. now rewrite Es, Ek.
      + symmetry. apply (upd_id El). unfold shell_new. now rewrite Es, Ek. }
  split; [reflexivity|]. split; [apply P|]. split; [exact (@kind_part skip cubic hex shell (s_atoms t) _ l' H5 H8 Kc Kh P)|].
  intros i a Ha. exact (@part_all _ (fun _ => shell_new skip cubic hex shell (s_atoms t)) (s_atoms t) l' P i a Ha).
Qed.
Lemma shell_pass_total skip cubic hex shell t : stored t ->
  (forall a v, shell (a <| a_struct := v |>) = shell a) ->
  (forall a, In a (s_atoms t) -> forall n, In n (shell a) -> n < length (s_atoms t)) ->
  exists t', shell_pass skip cubic hex shell t = Ok t'.
Proof.
  intros Hst Hsh Hin. unfold shell_pass.
  assert (En : Z.to_nat (s_nop t) = length (s_atoms t)) by (rewrite Hst; apply Nat2Z.id). rewrite En.
  assert (Q : forall is l, (forall i, In i is -> i < length (s_atoms t)) -> map shell l = map shell (s_atoms t) ->
    exists l', foldM (shell_atom skip cubic hex shell) is l = Ok l').
  { induction is as [|i is IH]; intros l Hi Hl; cbn [foldM]; [eauto|].
    assert (HL : length l = length (s_atoms t)) by (apply (f_equal (@length _)) in Hl; now rewrite !map_length in Hl).
    destruct (@nth_error_some _ l i) as [a Ea]; [rewrite HL; apply Hi; simpl; auto|].
    unfold shell_atom at 1. rewrite (get_Ok Ea). cbn [bind].
    destruct (existsb _ skip); cbn [bind]; [apply IH; auto; intros; apply Hi; simpl; auto|].
    destruct (@shell_label_total l cubic hex (shell a)) as [r Er].
    { rewrite HL. assert (Hs : In (shell a) (map shell (s_atoms t))) by (rewrite <- Hl; apply in_map; eapply nth_error_In; eauto).
      apply in_map_iff in Hs as (a0 & E0 & H0). rewrite <- E0. now apply Hin. }
    rewrite Er. cbn [bind]. apply IH; [intros; apply Hi; simpl; auto|].
    destruct r; auto. rewrite map_upd_id; auto. }
  destruct (Q (seq 0 (length (s_atoms t))) (s_atoms t)) as [l' ->]; auto.
  - intros i Hi. apply in_seq in Hi. lia.
  - cbn [bind]. eauto.
Qed.

(** ** The second neighbours *)
Definition four (a : atom N) : list nat := map (@d_idx N) (firstn 4 (a_temp a)).
Definition four_at (l : list (atom N)) (j : nat) : list nat := match nth_error l j with Some b => four b | None => [] end.
Definition second_at (l : list (atom N)) (i : nat) (a : atom N) : list nat :=
  flat_map (fun j => filter (fun k => negb (i =? k)) (four_at l j)) (four a).
Definition dia_new t (i : nat) (a : atom N) : atom N :=
  a <| a_nn1 := four a |> <| a_nbrs := arrows t (s_atoms t) a (second_at (s_atoms t) i a) |>.

Lemma mapM_seq (tm : list (datom N)) k : k <= length tm ->
  mapM (fun j => t <- get tm j ;; Ok (d_idx t)) (seq 0 k) = Ok (map (@d_idx N) (firstn k tm)).
Proof.
  assert (E : forall tm pre, mapM (fun j => t <- get (pre ++ tm) j ;; Ok (d_idx t)) (seq (length pre) (length tm)) = Ok (map (@d_idx N) tm)).
  { clear. induction tm as [|d tm IH]; intros pre; cbn [length seq mapM map]; auto.
    unfold get at 1. rewrite nth_error_app2, Nat.sub_diag by lia. cbn [nth_error bind].
    specialize (IH (pre ++ [d])). rewrite <- app_assoc, app_length in IH. simpl in IH. rewrite Nat.add_1_r in IH. now rewrite IH. }
  intros Hk. specialize (E (firstn k tm) []). simpl in E. rewrite firstn_length_le in E by auto. rewrite <- E.
  apply mapM_eq. intros i Hi. apply in_seq in Hi. unfold get. rewrite <- (firstn_skipn k tm) at 1.
  rewrite nth_error_app1 by (rewrite firstn_length; lia). reflexivity.
Qed.

Lemma foldM_skip {S} (F : S -> nat -> res S) (i : nat) js : forall x : S,
  foldM (fun x j => if i =? j then Ok x else F x j) js x = foldM F (filter (fun k => negb (i =? k)) js) x.
Proof.
  induction js as [|j js IH]; intros x; cbn [foldM filter]; auto. destruct (i =? j); cbn [negb bind]; auto.
  cbn [foldM]. destruct (F x j); cbn [bind]; auto.
Qed.

Definition temps_of (l : list (atom N)) := map (@a_temp N) l.
Lemma process_temps s l i j l' : process_neighbor s l i j = Ok l' -> temps_of l' = temps_of l.
Proof.
  unfold process_neighbor, push_nbr, get. destruct (nth_error l i) eqn:E; cbn [bind]; [|discriminate].
  destruct (nth_error l j); cbn [bind]; [|discriminate]. destruct (abs_distance_ij _ _ _). unfold get; rewrite ?E. cbn [bind].
  destruct (_ <? _); [|discriminate]. intros H. injection H as <-. unfold temps_of. now rewrite map_upd_id.
Qed.
Lemma foldM_inv_temps s i js : forall l l', foldM (fun l j => process_neighbor s l i j) js l = Ok l' -> temps_of l' = temps_of l.
Proof.
  induction js as [|j js IH]; intros l l'; cbn [foldM]; [intros [= <-]; auto|].
  destruct (process_neighbor s l i j) as [l1|] eqn:E; cbn [bind]; [|discriminate]. intros H. apply IH in H. rewrite H.
  eapply process_temps; eauto.
Qed.
Lemma four_temps l l' j : temps_of l = temps_of l' -> four_at l j = four_at l' j.
Proof.
  intros H. apply (f_equal (fun x => nth_error x j)) in H. unfold temps_of in H. rewrite !nth_error_map in H. unfold four_at, four.
  destruct (nth_error l j), (nth_error l' j); simpl in H; try discriminate; auto. apply Some_inj in H. now rewrite H.
Qed.

(** The double loop over first neighbours and theirs. *)
Lemma double_loop s i js : forall l, (forall j, In j js -> exists b, nth_error l j = Some b /\ 4 <= length (a_temp b)) ->
  foldM (fun l tj => b <- get l tj ;;
      foldM (fun l k => t <- get (a_temp b) k ;; if (i =? d_idx t)%nat then Ok l else process_neighbor s l i (d_idx t)) (seq 0 4) l) js l
  = foldM (fun l j => process_neighbor s l i j) (flat_map (fun j => filter (fun k => negb (i =? k)) (four_at l j)) js) l.
Proof.
  induction js as [|j js IH]; intros l H; [reflexivity|]. cbn [flat_map]. rewrite foldM_app.
  cbn [foldM]. destruct (H j (or_introl eq_refl)) as (b & Eb & Lb). rewrite (get_Ok Eb). cbn [bind].
  rewrite (firstn_seq_map Lb (fun l j => if i =? j then Ok l else process_neighbor s l i j)).
  rewrite (foldM_skip (fun l j => process_neighbor s l i j)).
  assert (E4 : four_at l j = map (@d_idx N) (firstn 4 (a_temp b))) by (unfold four_at, four; now rewrite Eb).
  rewrite E4. destruct (foldM _ (filter _ _) l) as [l1|] eqn:E1; cbn [bind]; auto.
  apply foldM_inv_temps in E1. rewrite IH.
  - f_equal. apply flat_map_ext_in. intros k _. now rewrite (four_temps k E1).
  - intros k Hk. destruct (H k (or_intror Hk)) as (b' & Eb' & Lb').
    apply (f_equal (fun x => nth_error x k)) in E1. unfold temps_of in E1. rewrite !nth_error_map, Eb' in E1.
    destruct (nth_error l1 k) as [b1|]; simpl in E1; [|discriminate]. apply Some_inj in E1. exists b1. split; auto. now rewrite E1.
Qed.

Lemma four_length l j : length (four_at l j) <= 4.
Proof. unfold four_at, four. destruct (nth_error l j); [rewrite map_length, firstn_length; lia|simpl; lia]. Qed.
Lemma second_length l i a : length (second_at l i a) <= 16.
Proof.
  unfold second_at. assert (Q : forall js, length (flat_map (fun j => filter (fun k => negb (i =? k)) (four_at l j)) js) <= 4 * length js).
  { induction js as [|j js IH]; cbn [flat_map length]; auto. rewrite app_length.
    pose proof (filter_length_le (fun k => negb (i =? k)) (four_at l j)). pose proof (four_length l j). lia. }
  specialize (Q (four a)). assert (length (four a) <= 4) by (unfold four; rewrite map_length, firstn_length; lia). lia.
Qed.

Definition enough4 t : Prop := forall a, In a (s_atoms t) -> 4 <= length (a_temp a).
Lemma four_in t a : temps_in t -> In a (s_atoms t) -> forall n, In n (four a) -> n < length (s_atoms t).
Proof. intros H Ha n Hn. unfold four in Hn. apply in_map_iff in Hn as (d & <- & Hd). eapply H; eauto. eapply firstn_In; eauto. Qed.
Lemma second_in t i a : temps_in t -> In a (s_atoms t) -> forall n, In n (second_at (s_atoms t) i a) -> n < length (s_atoms t).
Proof.
  intros H Ha n Hn. unfold second_at in Hn. apply in_flat_map in Hn as (j & Hj & Hn). apply filter_In in Hn as [Hn _].
  unfold four_at in Hn. destruct (nth_error (s_atoms t) j) as [b|] eqn:E; [|destruct Hn].
  exact (@four_in t b H (nth_error_In _ _ E) n Hn).
Qed.

Lemma diamond_nbrs_run t : stored t -> temps_in t -> enough4 t ->
  exists t', get_diamond_neighbors t = Ok t' /\ t' = t <| s_atoms := s_atoms t' |> /\
    length (s_atoms t') = length (s_atoms t) /\
    forall i a, nth_error (s_atoms t) i = Some a -> nth_error (s_atoms t') i = Some (dia_new t i (reset_atom_main a)).
Proof.
  intros Hst Hin Hen. unfold get_diamond_neighbors. rewrite (reset_main_Ok Hst). cbn [bind]. fold (reset_t t).
  set (u := reset_t t).
  assert (Hst' : stored u) by (apply (geo_stored (reset_geo t) Hst)).
  assert (En : Z.to_nat (s_nop u) = length (s_atoms u)) by (rewrite Hst'; apply Nat2Z.id). rewrite En.
  assert (HLu : length (s_atoms u) = length (s_atoms t)) by (cbn; now rewrite map_length).
  assert (Ht : temps_of (s_atoms u) = temps_of (s_atoms t)) by (unfold temps_of; cbn; now rewrite map_map).
  assert (Hp : map (@a_pos N) (s_atoms u) = map (@a_pos N) (s_atoms t)) by (cbn; now rewrite map_map).
  destruct (@loop_part _ (diamond_atom u) (dia_new t) (s_atoms u) (length (s_atoms u)) (le_n _)) as (l' & E & P).
  { intros k l Hk HP. destruct (nth_error_some Hk) as [a Ea].
    assert (El : nth_error l k = Some a) by (rewrite (proj2 HP), Nat.ltb_irrefl; exact Ea).
    assert (Ht' : temps_of l = temps_of (s_atoms t)).
    { rewrite <- Ht. apply list_by_nth; [unfold temps_of; rewrite !map_length; apply HP|]. intros j x Hx. unfold temps_of in *.
      rewrite nth_error_map in *. rewrite (proj2 HP). destruct (nth_error (s_atoms u) j); simpl in *; [|discriminate]. now destruct (j <? k). }
    assert (Hp' : map (@a_pos N) l = map (@a_pos N) (s_atoms t)).
    { rewrite <- Hp. apply list_by_nth; [rewrite !map_length; apply HP|]. intros j x Hx.
      rewrite nth_error_map in *. rewrite (proj2 HP). destruct (nth_error (s_atoms u) j); simpl in *; [|discriminate]. now destruct (j <? k). }
    assert (HLl : length l = length (s_atoms t)) by (apply (f_equal (@length _)) in Hp'; now rewrite !map_length in Hp').
    apply nth_error_In in Ea as Hina. unfold u in Hina. cbn in Hina. apply in_map_iff in Hina as (a0 & E0 & H0).
    assert (T0 : a_temp a = a_temp a0) by now rewrite <- E0.
    assert (N0 : a_nbrs a = []) by now rewrite <- E0.
    unfold diamond_atom. rewrite (get_Ok El). cbn [bind]. rewrite mapM_seq by (rewrite T0; auto). cbn [bind].
    fold (four a). set (l1 := upd k _ l).
    assert (Ht1 : temps_of l1 = temps_of (s_atoms t)) by (rewrite <- Ht'; unfold temps_of, l1; now rewrite map_upd_id).
    rewrite double_loop.
    2:{ intros j Hj. assert (Hj' : j < length (s_atoms t)).
        { assert (Ef : four a = four a0) by (unfold four; now rewrite T0). rewrite Ef in Hj. eapply four_in; eauto. }
        destruct (nth_error_some Hj') as [b Eb]. apply (f_equal (fun x => nth_error x j)) in Ht1. unfold temps_of in Ht1.
        rewrite !nth_error_map, Eb in Ht1. destruct (nth_error l1 j) as [b1|]; simpl in Ht1; [|discriminate].
        apply Some_inj in Ht1. exists b1. split; auto. rewrite Ht1. apply Hen. eapply nth_error_In; eauto. }
    assert (E2 : flat_map (fun j => filter (fun k0 => negb (k =? k0)) (four_at l1 j)) (four a) = second_at (s_atoms t) k a).
    { apply flat_map_ext_in. intros j _. now rewrite (four_temps j Ht1). }
    rewrite E2.
    assert (El1 : nth_error l1 k = Some (a <| a_nn1 := four a |>)) by (unfold l1; now rewrite nth_error_upd, Nat.eqb_refl, El).
    assert (N1 : a_nbrs (a <| a_nn1 := four a |>) = []) by exact N0.
    rewrite (fold_process u El1).
    - rewrite N1. simpl length. rewrite Nat.add_0_l. pose proof (second_length (s_atoms t) k a) as H16.
      assert (length (second_at (s_atoms t) k a) <=? max_nbrs = true) as -> by (apply Nat.leb_le; unfold max_nbrs; lia).
      f_equal. unfold l1 at 2. rewrite upd_upd. apply (upd_ext El). unfold dia_new. cbn [app].
      rewrite (@arrows_pos N u l1 (s_atoms t) (a <| a_nn1 := four a |>) a); [reflexivity| |reflexivity].
      unfold l1. now rewrite map_upd_id.
    - rewrite N1. unfold max_nbrs. simpl. lia.
    - intros j Hj. unfold l1. rewrite length_upd, HLl. apply (@second_in t k a0 Hin H0).
      unfold second_at, four in *. now rewrite T0 in Hj. }
  rewrite E. cbn [bind]. eexists. split; [reflexivity|]. split; [reflexivity|]. cbn.
  split; [rewrite (proj1 P); exact HLu|]. intros i a Ha.
  assert (Eu : nth_error (s_atoms u) i = Some (reset_atom_main a)) by (cbn; now rewrite nth_error_map, Ha).
  exact (@part_all _ (dia_new t) (s_atoms u) l' P i _ Eu).
Qed.

(** ** identify_cndia *)
Lemma shell_new_struct skip c h sh l (a : atom N) : a_struct (shell_new skip c h sh l a) =
  if existsb (Z.eqb (a_struct a)) skip then a_struct a
  else match first_kind l (sh a) with Some v => if Z.eqb v 5 then c else h | None => a_struct a end.
Proof. unfold shell_new. destruct (existsb _ _); [reflexivity|]. destruct (first_kind _ _); reflexivity. Qed.
Definition dia_cutoff t (i : nat) (js : list nat) : N :=
  (nlit 1207 1000 * nsum (firstn 12 (map (pair_dist t i) js)) / nofZ 12)%num.
Definition dia_label t (i : nat) (js : list nat) : Z :=
  let v := label12 (sget t (dia_cutoff t i js) js) in
  if Z.eqb v 1 then 5%Z else if Z.eqb v 2 then 8%Z else v.

Lemma first_kind_range l js : first_kind l js = None \/ first_kind l js = Some 5%Z \/ first_kind l js = Some 8%Z.
Proof.
  induction js as [|j js IH]; simpl; auto. unfold kind_at, kind. destruct (nth_error l j) as [b|]; auto.
  destruct (Z.eqb (a_struct b) 5); auto. destruct (Z.eqb (a_struct b) 8); auto.
Qed.

Lemma arrows_dist s l a js : (forall j, In j js -> j < length l) ->
  map (@nb_dist N) (arrows s l a js) =
  map (fun j => match nth_error l j with Some b => fst (abs_distance_ij s (a_pos a) (a_pos b)) | None => n0 end) js.
Proof.
  induction js as [|j js IH]; intros H; auto. unfold arrows. cbn [flat_map]. fold (arrows s l a js).
  unfold arrow. cbn [map]. destruct (nth_error l j) eqn:E; [|apply nth_error_None in E; specialize (H j (or_introl eq_refl)); lia].
  destruct (abs_distance_ij _ _ _) eqn:Ed. simpl. rewrite IH by (intros; apply H; now right). reflexivity.
Qed.

Lemma second_length12 t i a : temps_in t -> enough4 t -> In a (s_atoms t) ->
  (forall b, In b (s_atoms t) -> NoDup (four b)) ->
  12 <= length (second_at (s_atoms t) i a).
Proof.
  intros Hin Hen Ha Hnd.
  assert (Q : forall js, (forall j, In j js -> j < length (s_atoms t)) ->
    3 * length js <= length (flat_map (fun j => filter (fun k => negb (i =? k)) (four_at (s_atoms t) j)) js)).
  { induction js as [|j js IH]; intros Hj; cbn [flat_map length]; auto. rewrite app_length.
    assert (Hj' : j < length (s_atoms t)) by (apply Hj; simpl; auto). destruct (nth_error_some Hj') as [b Eb].
    assert (IH' := IH (fun k Hk => Hj k (or_intror Hk))).
    assert (4 <= S (length (filter (fun k => negb (i =? k)) (four_at (s_atoms t) j)))); [|lia].
    unfold four_at. rewrite Eb. pose proof (Hnd b (nth_error_In _ _ Eb)) as ND.
    assert (L4 : length (four b) = 4) by (unfold four; rewrite map_length; apply firstn_length_le, Hen; eapply nth_error_In; eauto).
    rewrite <- L4. clear -ND. induction (four b) as [|x l IH]; simpl; auto. inversion ND as [|? ? Hx ND']; subst.
    destruct (Nat.eqb_spec i x) as [->|]; cbn [negb].
    - assert (filter (fun k => negb (x =? k)) l = l) as ->; auto. clear -Hx. induction l as [|y l IH]; simpl; auto.
      destruct (Nat.eqb_spec x y) as [->|]; [exfalso; apply Hx; simpl; auto|]. simpl. f_equal. apply IH. intros H; apply Hx; simpl; auto.
    - simpl. specialize (IH ND'). lia. }
  specialize (Q (four a) (@four_in t a Hin Ha)).
  assert (length (four a) = 4) by (unfold four; rewrite map_length; apply firstn_length_le, Hen; auto). unfold second_at. lia.
Qed.

Theorem cndia_run t : stored t -> temps_in t -> enough4 t ->
  (forall b, In b (s_atoms t) -> NoDup (four b)) ->
  (forall a, In a (s_atoms t) -> a_struct a = 0%Z) ->
  exists t', identify_cndia t = Ok t' /\ same_geometry t t' /\
    forall i a, nth_error (s_atoms t) i = Some a -> exists a', nth_error (s_atoms t') i = Some a' /\
      a_nn1 a' = four a /\ nbr_idx a' = second_at (s_atoms t) i a /\ shell_rule t' i a' /\
      let v := dia_label t i (second_at (s_atoms t) i a) in
      (a_struct a' = 5 <-> v = 5)%Z /\ (a_struct a' = 8 <-> v = 8)%Z.
Proof.
  intros Hst Hin Hen Hnd H0. unfold identify_cndia.
  destruct (diamond_nbrs_run Hst Hin Hen) as (t1 & -> & Et1 & HL1 & H1). cbn [bind].
  assert (G1 : same_geometry t t1).
  { rewrite Et1. apply geo_atoms. apply list_by_nth; [now rewrite !map_length|]. intros k p Hp.
    rewrite nth_error_map in *. destruct (nth_error (s_atoms t) k) as [a|] eqn:Ea; [|discriminate]. rewrite (H1 k a Ea). exact Hp. }
  assert (Hst1 := geo_stored G1 Hst). rewrite (each_atom_stored _ Hst1). cbn [bind].
  set (t2 := t1 <| s_atoms := map (@diamond_cutoff N) (s_atoms t1) |>).
  assert (Dc : forall a : atom N, a_pos (diamond_cutoff a) = a_pos a /\ a_nbrs (diamond_cutoff a) = a_nbrs a /\ a_nn1 (diamond_cutoff a) = a_nn1 a /\ a_struct (diamond_cutoff a) = a_struct a).
  { intros a. unfold diamond_cutoff. destruct (_ <? _); repeat split. }
  assert (G2 : same_geometry t t2).
  { eapply geo_trans; [exact G1|]. apply geo_atoms. rewrite map_map. apply map_ext. intros; apply Dc. }
  assert (A2 : forall i a, nth_error (s_atoms t) i = Some a -> exists a2, nth_error (s_atoms t2) i = Some a2 /\
     a_nn1 a2 = four a /\ nbr_idx a2 = second_at (s_atoms t) i a /\ a_struct a2 = 0%Z /\
     a_cutoff a2 = dia_cutoff t i (second_at (s_atoms t) i a)).
  { intros i a Ha. exists (diamond_cutoff (dia_new t i (reset_atom_main a))).
    split; [cbn; now rewrite nth_error_map, (H1 i a Ha)|].
    assert (Ei : nbr_idx (dia_new t i (reset_atom_main a)) = second_at (s_atoms t) i a).
    { change (nbr_idx (dia_new t i (reset_atom_main a))) with (map (@nb_idx N) (arrows t (s_atoms t) (reset_atom_main a) (second_at (s_atoms t) i a))).
      rewrite arrows_idx; [reflexivity|]. intros j Hj. eapply second_in; eauto. eapply nth_error_In; eauto. }
    destruct (Dc (dia_new t i (reset_atom_main a))) as (_ & Dn & D1 & Ds). split; [rewrite D1; reflexivity|].
    split; [unfold nbr_idx; rewrite Dn; exact Ei|]. split; [rewrite Ds; cbn; apply H0; eapply nth_error_In; eauto|].
    unfold diamond_cutoff. assert (HL : 11 <? length (a_nbrs (dia_new t i (reset_atom_main a))) = true).
    { apply Nat.ltb_lt. rewrite <- (map_length (@nb_idx N)). fold (nbr_idx (dia_new t i (reset_atom_main a))). rewrite Ei.
      pose proof (@second_length12 t i a Hin Hen (nth_error_In _ _ Ha) Hnd). lia. }
    rewrite HL. cbn [a_cutoff]. unfold dia_cutoff. cbn [a_cutoff].
    assert (Ed : map (@nb_dist N) (a_nbrs (dia_new t i (reset_atom_main a))) = map (pair_dist t i) (second_at (s_atoms t) i a)).
    { change (a_nbrs (dia_new t i (reset_atom_main a))) with (arrows t (s_atoms t) (reset_atom_main a) (second_at (s_atoms t) i a)).
      rewrite arrows_dist by (intros j Hj; eapply second_in; eauto; eapply nth_error_In; eauto).
      apply map_ext_in. intros j Hj. unfold pair_dist. rewrite Ha. reflexivity. }
    rewrite <- Ed. reflexivity. }
  assert (Hst2 := geo_stored G2 Hst).
  assert (Atoms2 : forall a2, In a2 (s_atoms t2) -> exists i a, nth_error (s_atoms t) i = Some a /\ nth_error (s_atoms t2) i = Some a2).
  { intros a2 Ha2. apply In_nth_error in Ha2 as [i Hi]. exists i.
    destruct (@nth_error_some _ (s_atoms t) i) as [a Ea]; [rewrite <- (geo_length G2); apply nth_error_Some; congruence|]. eauto. }
  unfold identify_cn12. rewrite (@identify_run N label12 t2 Hst2).
  2:{ intros a2 Ha2 n Hn. rewrite (geo_length G2). destruct (Atoms2 a2 Ha2) as (i & a & Ea & Ea2).
      destruct (A2 i a Ea) as (a2' & E2' & _ & En & _). rewrite Ea2 in E2'. apply Some_inj in E2'. subst a2'. rewrite En in Hn.
      eapply second_in; eauto. eapply nth_error_In; eauto. }
  cbn [bind]. set (t3 := t2 <| s_atoms := map (relabel label12 t2) (s_atoms t2) |>).
  assert (G3 : same_geometry t t3).
  { eapply geo_trans; [exact G2|]. apply geo_atoms. rewrite map_map. apply map_ext. intros; apply relabel_pos. }
  rewrite (each_atom_stored _ (geo_stored G3 Hst)). cbn [bind].
  set (t4 := t3 <| s_atoms := map (@diamond_rename N) (s_atoms t3) |>).
  assert (Dr : forall a : atom N, a_pos (diamond_rename a) = a_pos a /\ a_nbrs (diamond_rename a) = a_nbrs a /\ a_nn1 (diamond_rename a) = a_nn1 a).
  { intros a. unfold diamond_rename. destruct (Z.eqb _ _); [repeat split|]. destruct (Z.eqb _ _); repeat split. }
  assert (Rl : forall a : atom N, a_nbrs (relabel label12 t2 a) = a_nbrs a /\ a_nn1 (relabel label12 t2 a) = a_nn1 a).
  { intros a. unfold relabel. destruct (Z.eqb _ _); repeat split. }
  assert (G4 : same_geometry t t4).
  { eapply geo_trans; [exact G3|]. apply geo_atoms. rewrite map_map. apply map_ext. intros; apply Dr. }
  assert (A4 : forall i a, nth_error (s_atoms t) i = Some a -> exists a4, nth_error (s_atoms t4) i = Some a4 /\
     a_nn1 a4 = four a /\ nbr_idx a4 = second_at (s_atoms t) i a /\ a_struct a4 = dia_label t i (second_at (s_atoms t) i a)).
  { intros i a Ha. destruct (A2 i a Ha) as (a2 & E2 & X1 & X2 & X3 & X4).
    exists (diamond_rename (relabel label12 t2 a2)). split.
    - change (s_atoms t4) with (map (@diamond_rename N) (map (relabel label12 t2) (s_atoms t2))). now rewrite !nth_error_map, E2.
    - destruct (Dr (relabel label12 t2 a2)) as (_ & D1 & D2). destruct (Rl a2) as (R1 & R2).
      split; [congruence|]. split; [unfold nbr_idx in *; congruence|].
      assert (Es : a_struct (relabel label12 t2 a2) = label12 (sget t (dia_cutoff t i (second_at (s_atoms t) i a)) (second_at (s_atoms t) i a))).
      { unfold relabel. rewrite X3, Z.eqb_refl. cbn [a_struct]. rewrite X4, X2, <- (sget_geo _ _ G2). reflexivity. }
      unfold diamond_rename, dia_label. cbv zeta. rewrite Es. destruct (Z.eqb _ 1); [reflexivity|]. destruct (Z.eqb _ 2); [reflexivity|exact Es]. }
  assert (Atoms4 : forall a4, In a4 (s_atoms t4) -> exists i a, nth_error (s_atoms t) i = Some a /\ nth_error (s_atoms t4) i = Some a4).
  { intros a2 Ha2. apply In_nth_error in Ha2 as [i Hi]. exists i.
    destruct (@nth_error_some _ (s_atoms t) i) as [a Ea]; [rewrite <- (geo_length G4); apply nth_error_Some; congruence|]. eauto. }
  assert (Hst4 := geo_stored G4 Hst).
  destruct (@shell_pass_total [5; 8]%Z 6 9 (@a_nn1 N) t4 Hst4) as [t5 E5].
  { reflexivity. }
  { intros a4 Ha4 n Hn. rewrite (geo_length G4). destruct (Atoms4 a4 Ha4) as (i & a & Ea & Ea4).
    destruct (A4 i a Ea) as (a4' & E4' & En & _). rewrite Ea4 in E4'. apply Some_inj in E4'. subst a4'. rewrite En in Hn.
    eapply four_in; eauto. eapply nth_error_In; eauto. }
  rewrite E5. cbn [bind].
  destruct (@shell_pass_spec [5; 8]%Z 6 9 (@a_nn1 N) t4 t5 eq_refl eq_refl eq_refl eq_refl Hst4 E5) as (Et5 & HL5 & K5 & H5).
  assert (Sn : forall skip c h sh l (a : atom N), a_pos (shell_new skip c h sh l a) = a_pos a /\ a_nn1 (shell_new skip c h sh l a) = a_nn1 a /\ a_nbrs (shell_new skip c h sh l a) = a_nbrs a).
  { intros. unfold shell_new. destruct (existsb _ _); [repeat split|]. destruct (first_kind _ _); repeat split. }
  assert (G5 : same_geometry t t5).
  { eapply geo_trans; [exact G4|]. rewrite Et5. apply geo_atoms. apply list_by_nth; [now rewrite !map_length|]. intros k p Hp.
    rewrite nth_error_map in *. destruct (nth_error (s_atoms t4) k) as [a|] eqn:Ea; [|discriminate]. rewrite (H5 k a Ea).
    simpl in *. rewrite (proj1 (Sn _ _ _ _ _ _)). exact Hp. }
  assert (Hst5 := geo_stored G5 Hst).
  assert (A5 : forall i a, nth_error (s_atoms t) i = Some a -> exists a4 a5, nth_error (s_atoms t4) i = Some a4 /\ nth_error (s_atoms t5) i = Some a5 /\
     a5 = shell_new [5; 8]%Z 6 9 (@a_nn1 N) (s_atoms t4) a4 /\
     a_nn1 a5 = four a /\ nbr_idx a5 = second_at (s_atoms t) i a /\ a_struct a4 = dia_label t i (second_at (s_atoms t) i a)).
  { intros i a Ha. destruct (A4 i a Ha) as (a4 & E4 & X1 & X2 & X3). exists a4. eexists. split; auto. split; [exact (H5 i a4 E4)|].
    split; auto. destruct (Sn [5; 8]%Z 6%Z 9%Z (@a_nn1 N) (s_atoms t4) a4) as (_ & S1 & S2). unfold nbr_idx in *.
    rewrite S1, S2. auto. }
  destruct (@shell_pass_total [5; 8; 6; 9]%Z 7 10 (@nbr_idx N) t5 Hst5) as [t6 E6].
  { reflexivity. }
  { intros a5 Ha5 n Hn. rewrite (geo_length G5). apply In_nth_error in Ha5 as [i Hi].
    destruct (@nth_error_some _ (s_atoms t) i) as [a Ea]; [rewrite <- (geo_length G5); apply nth_error_Some; congruence|].
    destruct (A5 i a Ea) as (a4 & a5' & _ & E5' & _ & _ & En & _). rewrite Hi in E5'. apply Some_inj in E5'. subst a5'. rewrite En in Hn.
    eapply second_in; eauto. eapply nth_error_In; eauto. }
  rewrite E6.
  destruct (@shell_pass_spec [5; 8; 6; 9]%Z 7 10 (@nbr_idx N) t5 t6 eq_refl eq_refl eq_refl eq_refl Hst5 E6) as (Et6 & HL6 & K6 & H6).
  exists t6. split; auto. split.
  { eapply geo_trans; [exact G5|]. rewrite Et6. apply geo_atoms. apply list_by_nth; [now rewrite !map_length|]. intros k p Hp.
    rewrite nth_error_map in *. destruct (nth_error (s_atoms t5) k) as [a|] eqn:Ea; [|discriminate]. rewrite (H6 k a Ea).
    simpl in *. rewrite (proj1 (Sn _ _ _ _ _ _)). exact Hp. }
  intros i a Ha. destruct (A5 i a Ha) as (a4 & a5 & E4 & E5' & D5 & X1 & X2 & X3).
  exists (shell_new [5; 8; 6; 9]%Z 7 10 (@nbr_idx N) (s_atoms t5) a5). split; [exact (H6 i a5 E5')|].
  destruct (Sn [5; 8; 6; 9]%Z 7%Z 10%Z (@nbr_idx N) (s_atoms t5) a5) as (_ & S1 & S2).
  set (a6 := shell_new [5; 8; 6; 9]%Z 7 10 (@nbr_idx N) (s_atoms t5) a5) in *.
  split; [congruence|]. split; [unfold nbr_idx in *; congruence|].
  (* the values *)
  assert (Vr : In (dia_label t i (second_at (s_atoms t) i a)) [0; 4; 5; 8]%Z).
  { unfold dia_label. cbv zeta. pose proof (label12_range (sget t (dia_cutoff t i (second_at (s_atoms t) i a)) (second_at (s_atoms t) i a))) as Q.
    revert Q. generalize (label12 (sget t (dia_cutoff t i (second_at (s_atoms t) i a)) (second_at (s_atoms t) i a))). intros v Q.
    cbn in Q. destruct Q as [Q|[Q|[Q|[Q|[]]]]]; rewrite <- Q; simpl; auto. }
  rewrite <- X3 in *.
  assert (Kd : diamond_at t6 i = kind (a_struct a4)).
  { rewrite diamond_at_kind, K6, K5. unfold kind_at. now rewrite E4. }
  assert (F1 : first_diamond t6 (a_nn1 a6) = first_kind (s_atoms t4) (a_nn1 a4)).
  { rewrite first_diamond_kind. rewrite (@first_kind_ext (s_atoms t6) (s_atoms t4)) by (intros; now rewrite K6, K5).
    f_equal. rewrite S1, D5. apply Sn. }
  assert (F2 : first_diamond t6 (map (@nb_idx N) (a_nbrs a6)) = first_kind (s_atoms t5) (nbr_idx a5)).
  { rewrite first_diamond_kind. rewrite (@first_kind_ext (s_atoms t6) (s_atoms t5)) by (intros; now rewrite K6). unfold nbr_idx. now rewrite S2. }
  assert (V5 : a_struct a5 = if existsb (Z.eqb (a_struct a4)) [5; 8]%Z then a_struct a4 else
     match first_kind (s_atoms t4) (a_nn1 a4) with Some v => if Z.eqb v 5 then 6%Z else 9%Z | None => a_struct a4 end).
  { rewrite D5. apply shell_new_struct. }
  assert (V6 : a_struct a6 = if existsb (Z.eqb (a_struct a5)) [5; 8; 6; 9]%Z then a_struct a5 else
     match first_kind (s_atoms t5) (nbr_idx a5) with Some v => if Z.eqb v 5 then 7%Z else 10%Z | None => a_struct a5 end).
  { apply shell_new_struct. }
  unfold shell_rule. cbv zeta. rewrite Kd, F1, F2.
  pose proof (first_kind_range (s_atoms t4) (a_nn1 a4)) as R1. pose proof (first_kind_range (s_atoms t5) (nbr_idx a5)) as R2.
  cbn in Vr. rewrite V6, V5. clear V6 V5 Kd F1 F2.
  destruct Vr as [Q|[Q|[Q|[Q|[]]]]]; rewrite <- Q; destruct R1 as [R1|[R1|R1]]; rewrite R1;
    destruct R2 as [R2|[R2|R2]]; rewrite R2; cbn; repeat split; intros; repeat match goal with H : _ /\ _ |- _ => destruct H end;
    try discriminate; try lia; auto 12.
Qed.
End D.

Section D2.
Variable N : num.
Implicit Types s t : sys N.

(** ** identify_diamond_structure *)
Definition clear_t t := t <| s_atoms := map (fun a : atom N => a <| a_struct := 0%Z |>) (s_atoms t) |>.
Lemma clear_geo t : same_geometry t (clear_t t).
Proof. apply geo_atoms. now rewrite map_map. Qed.

Lemma diamond_counts t t' r : identify_diamond_structure t = Ok (t', r) -> counted_structs 11 t' r.
Proof.
  unfold identify_diamond_structure. destruct (clear_struct t); cbn [bind]; [|discriminate].
  destruct (identify_cndia a) as [t1|]; cbn [bind]; [|discriminate].
  destruct (tally 11 t1) as [r1|] eqn:E; cbn [bind]; [|discriminate]. intros H. injection H as <- <-. now apply tally_spec.
Qed.

Theorem diamond_run t : stored t -> temps_in t -> enough4 t -> (0 <= s_real t <= s_nop t)%Z ->
  (forall b, In b (s_atoms t) -> NoDup (four b)) ->
  exists t' r, identify_diamond_structure t = Ok (t', r) /\ same_geometry t t' /\
    forall i a, nth_error (s_atoms t) i = Some a -> exists a', nth_error (s_atoms t') i = Some a' /\
      a_nn1 a' = four a /\ nbr_idx a' = second_at (s_atoms t) i a /\ shell_rule t' i a' /\
      let v := dia_label t i (second_at (s_atoms t) i a) in
      (a_struct a' = 5 <-> v = 5)%Z /\ (a_struct a' = 8 <-> v = 8)%Z.
Proof.
  intros Hst Hin Hen Hr Hnd. unfold identify_diamond_structure, clear_struct. rewrite (each_atom_stored _ Hst). cbn [bind].
  fold (clear_t t). pose proof (clear_geo t) as G0.
  assert (Hin0 : temps_in (clear_t t)).
  { intros a Ha d Hd. rewrite (geo_length G0). cbn in Ha. apply in_map_iff in Ha as (a0 & <- & Ha0). apply (Hin a0 Ha0 d Hd). }
  assert (Hen0 : enough4 (clear_t t)).
  { intros a Ha. cbn in Ha. apply in_map_iff in Ha as (a0 & <- & Ha0). apply (Hen a0 Ha0). }
  assert (Hnd0 : forall b, In b (s_atoms (clear_t t)) -> NoDup (four b)).
  { intros a Ha. cbn in Ha. apply in_map_iff in Ha as (a0 & <- & Ha0). apply (Hnd a0 Ha0). }
  assert (H0 : forall a, In a (s_atoms (clear_t t)) -> a_struct a = 0%Z).
  { intros a Ha. cbn in Ha. apply in_map_iff in Ha as (a0 & <- & Ha0). reflexivity. }
  destruct (cndia_run (geo_stored G0 Hst) Hin0 Hen0 Hnd0 H0) as (t' & -> & G & H). cbn [bind].
  pose proof (geo_trans G0 G) as GG.
  assert (E2 : forall i a, second_at (s_atoms (clear_t t)) i (a <| a_struct := 0%Z |>) = second_at (s_atoms t) i a).
  { intros i a. unfold second_at. change (four (a <| a_struct := 0%Z |>)) with (four a). apply flat_map_ext_in. intros j _.
    f_equal. unfold four_at. cbn. rewrite nth_error_map. now destruct (nth_error (s_atoms t) j). }
  assert (Ed : forall i js, dia_label (clear_t t) i js = dia_label t i js).
  { intros i js. unfold dia_label, dia_cutoff.
    assert (Ep : map (pair_dist (clear_t t) i) js = map (pair_dist t i) js).
    { apply map_ext. intros j. unfold pair_dist. cbn. rewrite !nth_error_map.
      destruct (nth_error (s_atoms t) i), (nth_error (s_atoms t) j); auto. }
    rewrite Ep, <- (sget_geo _ _ G0). reflexivity. }
  assert (HH : forall i a, nth_error (s_atoms t) i = Some a -> exists a', nth_error (s_atoms t') i = Some a' /\
      a_nn1 a' = four a /\ nbr_idx a' = second_at (s_atoms t) i a /\ shell_rule t' i a' /\
      let v := dia_label t i (second_at (s_atoms t) i a) in
      (a_struct a' = 5 <-> v = 5)%Z /\ (a_struct a' = 8 <-> v = 8)%Z).
  { intros i a Ha. destruct (H i (a <| a_struct := 0%Z |>)) as (a' & E' & X1 & X2 & X3 & X4).
    { cbn. now rewrite nth_error_map, Ha. }
    exists a'. rewrite E2, Ed in X4. rewrite E2 in X2. auto. }
  destruct (@tally_total N 11 t') as [r Er].
  { rewrite (geo_length GG), <- (ce_real (proj1 GG)). unfold stored in Hst. lia. }
  { intros a' Ha'. apply In_nth_error in Ha' as [i Hi].
    destruct (@nth_error_some _ (s_atoms t) i) as [a Ea]; [rewrite <- (geo_length GG); apply nth_error_Some; congruence|].
    destruct (HH i a Ea) as (a2 & E2' & _ & _ & (_ & _ & _ & _ & Hv) & _). rewrite Hi in E2'. apply Some_inj in E2'. subst a2.
    simpl in Hv. lia. }
  rewrite Er. cbn [bind]. exists t', r. auto.
Qed.

(** Fewer than four candidates: the code reads past the end. *)
Lemma foldM_blocked_inv {S X} (P : S -> Prop) (f : S -> X -> res S) l x : In x l -> (forall s : S, P s -> f s x = Err UB) ->
  (forall (s : S) y (s' : S), P s -> f s y = Ok s' -> P s') -> (forall (s : S) y e, f s y = Err e -> e = UB) ->
  forall s : S, P s -> foldM f l s = Err UB.
Proof.
  intros Hin Hx HP HU. induction l as [|y l IH]; intros s Hs; [destruct Hin|]. cbn [foldM].
  destruct (f s y) as [s'|e] eqn:E; cbn [bind].
  - destruct Hin as [->|Hin]; [rewrite Hx in E by auto; discriminate|apply IH; eauto].
  - f_equal. eapply HU, E.
Qed.
Lemma foldM_UB {S X} (f : S -> X -> res S) l : (forall (s : S) y e, f s y = Err e -> e = UB) -> forall (s : S) e, foldM f l s = Err e -> e = UB.
Proof.
  intros H. induction l as [|x l IH]; intros s e; cbn [foldM]; [discriminate|].
  destruct (f s x) eqn:E; cbn [bind]; [apply IH|]. intros [= <-]. eauto.
Qed.
Lemma get_UB {A} (l : list A) i e : get l i = Err e -> e = UB.
Proof. unfold get. destruct (nth_error l i); congruence. Qed.
Lemma mapM_UB {A B} (f : A -> res B) l e : (forall x e, f x = Err e -> e = UB) -> mapM f l = Err e -> e = UB.
Proof.
  intros H. revert e. induction l as [|x l IH]; intros e; cbn [mapM]; [discriminate|].
  destruct (f x) eqn:E; cbn [bind]; [|intros [= <-]; eauto]. destruct (mapM f l); cbn [bind]; [discriminate|]. intros [= <-]; auto.
Qed.
Lemma diamond_atom_UB s l i e : diamond_atom s l i = Err e -> e = UB.
Proof.
  unfold diamond_atom. destruct (get l i) eqn:E; cbn [bind]; [|intros [= <-]; eapply get_UB; eauto].
  destruct (mapM _ _) eqn:E2; cbn [bind].
  - apply foldM_UB. intros x j e'. destruct (get x j) eqn:E3; cbn [bind]; [|intros [= <-]; eapply get_UB; eauto].
    apply foldM_UB. intros y k e2. destruct (get (a_temp _) k) eqn:E4; cbn [bind]; [|intros [= <-]; eapply get_UB; eauto].
    destruct (_ =? _); [discriminate|]. apply process_UB.
  - intros [= <-]. eapply mapM_UB; [|exact E2]. intros x e'. cbv beta. destruct (get (a_temp a) x) eqn:E4; cbn [bind]; [discriminate|].
    intros [= <-]; eapply get_UB; eauto.
Qed.
Lemma diamond_atom_temps s l i l' : diamond_atom s l i = Ok l' -> temps_of l' = temps_of l.
Proof.
  unfold diamond_atom. destruct (get l i) eqn:E; cbn [bind]; [|discriminate].
  destruct (mapM _ _) as [js|] eqn:E2; cbn [bind]; [|discriminate]. set (l1 := upd i _ l).
  assert (H1 : temps_of l1 = temps_of l) by (unfold temps_of, l1; now rewrite map_upd_id). rewrite <- H1. generalize l1. clear.
  revert l'. induction js as [|j js IH]; intros l' l1; cbn [foldM]; [intros [= <-]; auto|].
  destruct (get l1 j) as [b|]; cbn [bind]; [|discriminate].
  assert (Q : forall is x y, foldM (fun l k => t <- get (a_temp b) k ;; if (i =? d_idx t)%nat then Ok l else process_neighbor s l i (d_idx t)) is x = Ok y ->
     temps_of y = temps_of x).
  { clear. induction is as [|k is IH]; intros x y; cbn [foldM]; [intros [= <-]; auto|].
    destruct (get (a_temp b) k); cbn [bind]; [|discriminate]. destruct (_ =? _); cbn [bind]; [apply IH|].
    destruct (process_neighbor _ _ _ _) eqn:E; cbn [bind]; [|discriminate]. intros H. rewrite (IH _ _ H). eapply process_temps; eauto. }
  destruct (foldM _ (seq 0 4) l1) as [l2|] eqn:E; cbn [bind]; [|discriminate]. intros H. rewrite (IH _ _ H). eapply Q, E.
Qed.
Theorem diamond_UB t : stored t -> ~ enough4 t -> identify_diamond_structure t = Err UB.
Proof.
  intros Hst Hne. unfold identify_diamond_structure, clear_struct. rewrite (each_atom_stored _ Hst). cbn [bind].
  fold (clear_t t). pose proof (clear_geo t) as G0. unfold identify_cndia, get_diamond_neighbors.
  rewrite (reset_main_Ok (geo_stored G0 Hst)). cbn [bind]. fold (reset_t (clear_t t)). set (u := reset_t (clear_t t)).
  assert (Gu : same_geometry t u) by (eapply geo_trans; [exact G0|apply reset_geo]).
  assert (En : Z.to_nat (s_nop u) = length (s_atoms u)) by (rewrite (geo_stored Gu Hst); apply Nat2Z.id). rewrite En.
  assert (Ht : temps_of (s_atoms u) = temps_of (s_atoms t)) by (unfold temps_of; cbn; now rewrite !map_map).
  assert (Hex : exists i a, nth_error (s_atoms t) i = Some a /\ length (a_temp a) < 4).
  { clear -Hne. unfold enough4 in Hne. induction (s_atoms t) as [|a l IH]; [exfalso; apply Hne; intros a []|].
    destruct (Nat.le_gt_cases 4 (length (a_temp a))).
    - destruct IH as (i & b & E & L); [|exists (S i), b; auto]. intros Hl. apply Hne. intros x [<-|Hx]; auto.
    - exists 0, a. auto. }
  destruct Hex as (i & a & Ea & La).
  rewrite (@foldM_blocked_inv _ _ (fun l => temps_of l = temps_of (s_atoms t)) (diamond_atom u) _ i); auto.
  - apply in_seq. rewrite (geo_length Gu). split; [lia|]. simpl. apply nth_error_Some. congruence.
  - intros l Hl. apply (f_equal (fun x => nth_error x i)) in Hl. unfold temps_of in Hl. rewrite !nth_error_map, Ea in Hl.
    destruct (nth_error l i) as [b|] eqn:Eb; simpl in Hl; [|discriminate]. apply Some_inj in Hl.
    unfold diamond_atom. rewrite (get_Ok Eb). cbn [bind]. rewrite Hl.
    destruct (mapM _ _) as [js|e] eqn:E; cbn [bind].
    + exfalso. clear -E La. cbn [seq mapM] in E. destruct (a_temp a) as [|d0 [|d1 [|d2 [|d3 tm]]]]; simpl in La; try lia;
        cbn in E; discriminate.
    + f_equal. eapply mapM_UB; [|exact E]. intros x e'. cbv beta. destruct (get (a_temp a) x) eqn:E4; cbn [bind]; [discriminate|].
      intros [= <-]; eapply get_UB; eauto.
  - intros l y l' Hl E. rewrite <- Hl. eapply diamond_atom_temps; eauto.
  - intros l y e. apply diamond_atom_UB.
Qed.
Lemma enough4_dec t : enough4 t \/ ~ enough4 t.
Proof.
  destruct (forallb (fun a => 4 <=? length (a_temp a)) (s_atoms t)) eqn:E.
  - left. intros a Ha. rewrite forallb_forall in E. now apply Nat.leb_le, E.
  - right. intros H. assert (forallb (fun a => 4 <=? length (a_temp a)) (s_atoms t) = true); [|congruence].
    apply forallb_forall. intros a Ha. apply Nat.leb_le. auto.
Qed.

(** ** Searching by number without assigning neighbours *)
Variable srt : list (datom N) -> list (datom N).
Definition bynum_prep s (r : N) : sys N := s <| s_vorused := false |> <| s_nd := r |>.
Lemma bynumber_false cmp s s2 pref k : stored s -> no_candidates s ->
  get_temp_neighbors (bynum_prep s (guess_distance s pref)) = Ok s2 ->
  temps_ok cmp (bynum_prep s (guess_distance s pref)) s2 ->
  (0 <= k)%Z ->
  exists t ok, get_all_neighbors_bynumber srt s pref k false = Ok (t, ok) /\ same_geometry s t /\
    (ok = true <-> forall i, i < length (s_atoms s) -> Z.to_nat k <= length (cands cmp s (guess_distance s pref) i)) /\
    (ok = true -> forall i a, nth_error (s_atoms t) i = Some a -> exists l, a_temp a = srt l /\ Permutation l (cands cmp s (guess_distance s pref) i)).
Proof.
  intros Hs Ht Eg (Es2 & HL & H2) Hk. unfold get_all_neighbors_bynumber. cbv zeta.
  match goal with |- context[get_temp_neighbors ?x] => change x with (bynum_prep s (guess_distance s pref)) end.
  rewrite Eg. cbn [bind]. set (s1 := bynum_prep s (guess_distance s pref)) in *.
  assert (G1 : same_geometry s s1) by (split; reflexivity).
  assert (G2 : same_geometry s1 s2).
  { rewrite Es2. apply geo_atoms. apply list_by_nth; [now rewrite !map_length|]. intros j p Hp.
    rewrite nth_error_map in *. destruct (nth_error (s_atoms s1) j) as [a|] eqn:Ea; [|discriminate].
    destruct (H2 j a Ea) as (a2 & -> & S2 & _). simpl in *. apply statT_pos in S2. congruence. }
  assert (T2 : forall i a, nth_error (s_atoms s2) i = Some a -> Permutation (a_temp a) (cands cmp s (guess_distance s pref) i)).
  { intros i a Ha. assert (Hi : i < length (s_atoms s1)) by (rewrite <- HL; apply nth_error_Some; congruence).
    destruct (nth_error_some Hi) as [a1 Ea1]. destruct (H2 i a1 Ea1) as (a2 & Ea2 & S2 & T2). rewrite Ha in Ea2. apply Some_inj in Ea2. subst a2.
    etransitivity; [exact T2|]. rewrite (Ht a1) by (eapply nth_error_In; exact Ea1). simpl app. reflexivity. }
  pose proof (geo_trans G1 G2) as G3.
  assert (En : Z.to_nat (s_nop s2) = length (s_atoms s2)) by (rewrite (geo_stored G3 Hs); apply Nat2Z.id).
  rewrite En. destruct (@sorting_loop N srt s2 k (s_atoms s2) (seq 0 (length (s_atoms s2))) [] eq_refl) as (j & b & E & Hj & Hlt & Hend).
  cbn [app length] in E. rewrite E. cbn [bind].
  exists (s2 <| s_atoms := map_first j (sort_atom srt) (s_atoms s2) |>), b. split; [reflexivity|]. split.
  { eapply geo_trans; [exact G3|]. apply geo_atoms. now apply map_map_first. }
  split; [split|].
  - intros ->. destruct Hend as [[_ ->]|[? _]]; [|discriminate]. intros i Hi. rewrite <- (geo_length G3) in Hi.
    destruct (nth_error_some Hi) as [a Ea]. pose proof (Hlt i a Hi Ea) as Q. apply size_lt_false in Q.
    rewrite (Permutation_length (T2 i a Ea)) in Q. lia.
  - intros Hall. destruct Hend as [[-> _]|[_ (a & Ea & Q)]]; auto. exfalso. apply size_lt_true in Q.
    rewrite (Permutation_length (T2 j a Ea)) in Q. specialize (Hall j). rewrite <- (geo_length G3) in Hall.
    assert (j < length (s_atoms s2)) by (apply nth_error_Some; congruence). specialize (Hall H). lia.
  - intros ->. destruct Hend as [[_ ->]|[? _]]; [|discriminate]. intros i a Ha. cbn in Ha. rewrite map_first_all in Ha.
    rewrite nth_error_map in Ha. destruct (nth_error (s_atoms s2) i) as [a0|] eqn:E0; [|discriminate]. simpl in Ha.
    apply Some_inj in Ha. subst a. exists (a_temp a0). split; [reflexivity|]. now apply T2.
Qed.
End D2.

(** ** Over the real numbers *)
Lemma exactly_count {A} (near : A -> A -> bool) (f : A * list A -> bool) (P : list A -> Prop) k ns :
  (forall p, f p = true <-> P (common near p)) ->
  (length (filter f (picks ns)) = k <-> exactly near k P ns).
Proof.
  intros Hf. unfold exactly. split.
  - intros HL. exists (filter f (picks ns)), (filter (fun p => negb (f p)) (picks ns)).
    split; [apply filter_split_perm|]. split; auto. split; apply Forall_forall; intros p Hp; apply filter_In in Hp as [_ Hp].
    + now apply Hf.
    + intros Q. apply Hf in Q. rewrite Q in Hp. discriminate.
  - intros (ps & qs & HP & HL & F1 & F2). rewrite (filter_len_perm f HP), filter_app, app_length.
    assert (length (filter f ps) = length ps) as ->.
    { apply filter_len_all. eapply Forall_impl; [|exact F1]. intros p. apply Hf. }
    assert (filter f qs = []) as ->.
    { clear -F2 Hf. induction F2 as [|p qs Hp _ IH]; auto. simpl. destruct (f p) eqn:E; auto. exfalso. apply Hp. now apply Hf. }
    simpl. lia.
Qed.

Lemma label12_any (near : nat -> nat -> bool) ns : (forall x y, near x y = near y x) ->
  (label12 (sigs near ns) = 1%Z <-> exactly near 12 (two_bonds near) ns) /\
  (label12 (sigs near ns) = 2%Z <-> exactly near 6 (two_bonds near) ns /\ exactly near 6 (chain_of_two near) ns).
Proof.
  intros sy. unfold label12. rewrite !count_sigs.
  set (f1 := fun p : nat * list nat => sig_is 4 2 1 1 (zsig (gsig near (common near p)))).
  set (f2 := fun p : nat * list nat => negb (sig_is 4 2 1 1 (zsig (gsig near (common near p)))) && sig_is 4 2 2 0 (zsig (gsig near (common near p)))).
  assert (H1 : forall p, f1 p = true <-> two_bonds near (common near p)) by (intros; now apply (is_4211 sy)).
  assert (H2 : forall p, f2 p = true <-> chain_of_two near (common near p)).
  { intros p. rewrite <- (is_4220 sy). unfold f2, is_sig. rewrite andb_true_iff, negb_true_iff. split; [tauto|]. intros Q. split; auto.
    apply (@is_excl near 4 2 2 0 4 2 1 1)%Z in Q; [exact Q|congruence]. }
  rewrite <- (@exactly_count _ near f1 _ 12 ns H1), <- (@exactly_count _ near f1 _ 6 ns H1), <- (@exactly_count _ near f2 _ 6 ns H2).
  generalize (length (filter f1 (picks ns))) (length (filter f2 (picks ns))). intros a b.
  destruct (Z.eqb_spec (Z.of_nat a) 12); [split; split; intros; try lia|].
  destruct (Z.eqb_spec (Z.of_nat a) 6), (Z.eqb_spec (Z.of_nat b) 6); cbn [andb];
    try (destruct (Z.eqb _ 12)); split; split; intros; try lia.
Qed.

Section RD.
Variable srt : list (datom Rnum) -> list (datom Rnum).
Hypothesis Hsrt : sorts srt.
Variable voro : nat -> option (list (nat * Rnum)).
Variable area_pow : Rnum -> Rnum.
Variable inv : m3 Rnum -> option (m3 Rnum).

Definition big_real (s : sys Rnum) : bool := Z.ltb 4000 (s_real s).
Lemma find_four_run (s : sys Rnum) thr : stored s -> nonneg3 (s_len s) -> (1 <= thr)%R ->
  (big_real s = true -> cells_ok s (guess_distance (N := Rnum) s thr)) ->
  ((forall i, i < length (s_atoms s) -> 4 <= length (cands (N := Rnum) (temp_cmp (big_real s)) s (guess_distance (N := Rnum) s thr) i)) ->
   exists t, find_four srt voro area_pow inv s thr = Ok t /\ same_geometry s t /\
     forall i a, nth_error (s_atoms t) i = Some a -> exists l, a_temp a = srt l /\
        Permutation l (cands (N := Rnum) (temp_cmp (big_real s)) s (guess_distance (N := Rnum) s thr) i)) /\
  ((exists i, i < length (s_atoms s) /\ length (cands (N := Rnum) (temp_cmp (big_real s)) s (guess_distance (N := Rnum) s thr) i) < 4) ->
   find_four srt voro area_pow inv s thr = Err RuntimeError).
Proof.
  intros Hs HL Ht Hc. unfold find_four, reset_neighbors. rewrite (reset_stored Hs). cbn [bind].
  unfold find_neighbors. set (s0 := _ <| s_found := false |>).
  assert (G0 : same_geometry s s0) by (split; [reflexivity|]; cbn; now rewrite map_map).
  rewrite (reset_stored (geo_stored G0 Hs)). cbn [bind fa_filter fa_threshold fa_method].
  assert (Hlt : nltb (n := Rnum) thr n1 = false).
  { apply Rltb_false. exact Ht. }
  rewrite Hlt. set (s3 := _ <| s_usecells := _ |>).
  assert (G3 : same_geometry s s3).
  { split; [reflexivity|]. cbn. now rewrite !map_map. }
  assert (Hst3 := geo_stored G3 Hs).
  assert (Hn3 : no_candidates s3).
  { intros a Ha. cbn in Ha. apply in_map_iff in Ha as (x & <- & _). reflexivity. }
  assert (U3 : s_usecells s3 = big_real s) by reflexivity.
  assert (Eg : guess_distance s3 thr = guess_distance (N := Rnum) s thr) by (symmetry; apply ce_guess, G3).
  assert (Hg : exists s2, get_temp_neighbors (bynum_prep s3 (guess_distance s3 thr)) = Ok s2 /\
     temps_ok (N := Rnum) (temp_cmp (big_real s)) (bynum_prep s3 (guess_distance s3 thr)) s2).
  { destruct (big_real s) eqn:Hu.
    - apply get_temp_cells; auto. destruct (Hc eq_refl) as [H1 H2]. rewrite Eg. split; [exact H1|].
      intros a Ha. cbn in Ha. apply in_map_iff in Ha as (x & <- & Ha). apply in_map_iff in Ha as (y & <- & Ha). now apply (H2 y).
    - apply get_temp_brute; auto. }
  destruct Hg as (s2 & E2 & T2).
  destruct (@bynumber_false Rnum srt (temp_cmp (big_real s)) s3 s2 thr 4 Hst3 Hn3 E2 T2 ltac:(lia)) as (t & ok & E & G & Hok & HT).
  rewrite E. cbn [bind].
  assert (HLen : length (s_atoms s3) = length (s_atoms s)) by apply (geo_length G3).
  rewrite HLen, Eg in Hok. setoid_rewrite <- (cands_geo' (temp_cmp (big_real s)) (guess_distance (N := Rnum) s thr)) in Hok; [|exact G3].
  split.
  - intros Hall. apply Hok in Hall as ->. unfold found. cbn [bind]. exists (t <| s_found := true |>). split; [reflexivity|].
    split; [exact (geo_trans G3 G)|]. intros i a Ha. destruct (HT eq_refl i a Ha) as (l & E1 & P). exists l. split; auto.
    rewrite Eg in P. rewrite (@cands_geo' Rnum _ s s3); auto.
  - intros (i & Hi & Hl). destruct ok; [exfalso; pose proof (proj1 Hok eq_refl i Hi) as Q; exact (Nat.lt_irrefl _ (Nat.lt_le_trans _ _ _ Hl Q))|]. reflexivity.
Qed.

(** The four nearest atoms of every atom, and the labels. *)
Theorem diamond_real (s : sys Rnum) : stored s -> nonneg3 (s_len s) -> (0 <= s_real s <= s_nop s)%Z ->
  (big_real s = true -> cells_ok s (guess_distance s (nofZ 3))) ->
  (forall i, i < length (s_atoms s) -> 4 <= length (cands (N := Rnum) (temp_cmp (big_real s)) s (guess_distance s (nofZ 3)) i)) ->
  exists t r (nn : nat -> list (nbr Rnum)),
    identify_diamond srt voro area_pow inv s true = Ok (t, r) /\ counted_structs 11 t r /\ same_geometry s t /\
    (forall i, i < length (s_atoms s) -> nearest s i 4 (nn i)) /\
    forall i a, nth_error (s_atoms t) i = Some a ->
      a_nn1 a = map (@nb_idx Rnum) (nn i) /\ map (@nb_idx Rnum) (a_nbrs a) = second_shell nn i /\
      shell_rule t i a /\ diamond_rule s i (second_shell nn i) (a_struct a).
Proof.
  intros Hs HL Hr Hc Hall. unfold identify_diamond.
  destruct (@find_four_run s (nofZ (n := Rnum) 3) Hs HL) as [F _]; [change (1 <= 3)%R; lra|exact Hc|].
  destruct (F Hall) as (u & -> & Gu & Tu). cbn [bind].
  set (cd := fun i => cands (N := Rnum) (temp_cmp (big_real s)) s (guess_distance s (nofZ 3)) i) in *.
  assert (Ha_s : forall i a, nth_error (s_atoms u) i = Some a -> i < length (s_atoms s)).
  { intros i a Ha. rewrite <- (geo_length Gu). apply nth_error_Some. congruence. }
  assert (Pu : forall i a, nth_error (s_atoms u) i = Some a -> Permutation (a_temp a) (cd i)).
  { intros i a Ha. destruct (Tu i a Ha) as (l & -> & P). etransitivity; [apply Hsrt|exact P]. }
  assert (Hst := geo_stored Gu Hs).
  assert (Hin : temps_in u).
  { intros a Ha d Hd. apply In_nth_error in Ha as [i Hi]. rewrite (geo_length Gu). eapply cands_range.
    eapply Permutation_in; [apply (Pu i a Hi)|exact Hd]. }
  assert (Hen : enough4 u).
  { intros a Ha. apply In_nth_error in Ha as [i Hi]. rewrite (Permutation_length (Pu i a Hi)). apply Hall. eauto. }
  assert (Hnd : forall b, In b (s_atoms u) -> NoDup (four b)).
  { intros a Ha. apply In_nth_error in Ha as [i Hi]. unfold four. rewrite <- firstn_map.
    assert (ND : NoDup (map (@d_idx Rnum) (a_temp a))).
    { eapply Permutation_NoDup; [symmetry; apply Permutation_map, (Pu i a Hi)|]. apply (@cands_NoDup Rnum). }
    rewrite <- (firstn_skipn 4) in ND. clear -ND. induction (firstn 4 (map _ (a_temp a))); [constructor|].
    simpl in ND. inversion ND; subst. constructor; auto. intros H; apply H1. apply in_or_app; auto. }
  assert (Hr' : (0 <= s_real u <= s_nop u)%Z) by now rewrite <- (ce_real (proj1 Gu)), <- (ce_nop (proj1 Gu)).
  destruct (diamond_run Hst Hin Hen Hr' Hnd) as (t & r & E & G & H).
  set (nn := fun i => match nth_error (s_atoms s) i with Some a => arrows s (s_atoms s) a (four_at (s_atoms u) i) | None => [] end).
  assert (Hfour : forall i a, nth_error (s_atoms u) i = Some a -> nearest s i 4 (nn i) /\ map (@nb_idx Rnum) (nn i) = four a).
  { intros i a Ha. destruct (nth_error_some (Ha_s i a Ha)) as [a0 Ea0]. unfold nn. rewrite Ea0. unfold four_at. rewrite Ha. unfold four.
    destruct (Tu i a Ha) as (l & El & P). split.
    - apply (@nearest_cands s (temp_cmp (big_real s)) (guess_distance s (nofZ 3)) i a0 (a_temp a) 4); auto using temp_cmp_ok.
      + rewrite El. apply Hsrt.
      + apply Hen. eapply nth_error_In; eauto.
    - apply arrows_idx. intros j Hj. apply in_map_iff in Hj as (d & <- & Hd). rewrite <- (geo_length Gu).
      apply (Hin a (nth_error_In _ _ Ha)). eapply firstn_In; eauto. }
  assert (Hsec : forall i a, nth_error (s_atoms u) i = Some a -> second_at (s_atoms u) i a = second_shell nn i).
  { intros i a Ha. unfold second_at, second_shell. rewrite (proj2 (Hfour i a Ha)). apply flat_map_ext_in. intros j Hj. f_equal.
    unfold four_at. assert (Hj' : j < length (s_atoms u)) by (eapply (four_in Hin); eauto; eapply nth_error_In; eauto).
    destruct (nth_error_some Hj') as [b Eb]. rewrite Eb. symmetry. apply Hfour, Eb. }
  exists t, r, nn. split; auto. split; [eapply diamond_counts; eauto|]. split; [exact (geo_trans Gu G)|]. split.
  - intros i Hi. rewrite <- (geo_length Gu) in Hi. destruct (nth_error_some Hi) as [a Ea]. apply (Hfour i a Ea).
  - intros i a' Ha'. destruct (@nth_error_some _ (s_atoms u) i) as [a Ea]; [rewrite <- (geo_length G); apply nth_error_Some; congruence|].
    destruct (H i a Ea) as (a2 & E2 & X1 & X2 & X3 & X4). rewrite Ha' in E2. apply Some_inj in E2. subst a2.
    split; [rewrite X1; symmetry; apply (Hfour i a Ea)|]. split; [unfold nbr_idx in X2; rewrite X2; apply Hsec, Ea|]. split; auto.
    cbv zeta in X4. rewrite (Hsec i a Ea) in X4.
    set (js := second_shell nn i) in *.
    assert (Hjs : forall n, In n js -> n < length (s_atoms s)).
    { intros n Hn. unfold js in Hn. rewrite <- (Hsec i a Ea) in Hn. rewrite <- (geo_length Gu). eapply second_in; eauto. eapply nth_error_In; eauto. }
    unfold diamond_rule. cbv zeta.
    assert (Ec : dia_cutoff u i js = (1207 / 1000 * mean12 s i js)%R).
    { unfold dia_cutoff, mean12. rewrite nsum_R.
      assert (Ep : map (pair_dist u i) js = map (pair_dist s i) js).
      { apply map_ext. intros j. unfold pair_dist.
        pose proof (f_equal (fun l => nth_error l i) (proj2 Gu)) as Qi. pose proof (f_equal (fun l => nth_error l j) (proj2 Gu)) as Qj.
        cbv beta in Qi, Qj. rewrite !nth_error_map in Qi, Qj.
        destruct (nth_error (s_atoms u) i), (nth_error (s_atoms s) i); simpl in Qi; try discriminate; auto.
        destruct (nth_error (s_atoms u) j), (nth_error (s_atoms s) j); simpl in Qj; try discriminate; auto.
        apply Some_inj in Qi, Qj. rewrite Qi, Qj. now rewrite (@ce_ij Rnum u s) by (symmetry; apply Gu). }
      rewrite Ep, firstn_map. generalize (fold_right Rplus 0%R (map (pair_dist s i) (firstn 12 js))). intros x.
      change (1207 / 1000 * x / 12 = 1207 / 1000 * (x / 12))%R. field. }
    destruct (@label12_any (within s (1207 / 1000 * mean12 s i js)%R) js) as [L1 L2]; [intros; now apply within_sym|].
    rewrite <- L1, <- L2. destruct X4 as [X5 X8]. rewrite X5, X8. unfold dia_label. cbv zeta.
    assert (Es : sget u (dia_cutoff u i js) js = sigs (within s (1207 / 1000 * mean12 s i js)%R) js).
    { rewrite <- (sget_geo _ _ Gu), Ec. now apply sget_sigs. }
    rewrite Es. pose proof (label12_range (sigs (within s (1207 / 1000 * mean12 s i js)%R) js)) as Q.
    revert Q. generalize (label12 (sigs (within s (1207 / 1000 * mean12 s i js)%R) js)). intros v Q. cbn in Q.
    destruct Q as [<-|[<-|[<-|[<-|[]]]]]; cbn; lia.
Qed.
End RD.
