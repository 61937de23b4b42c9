(** find_neighbors does not look at the results of earlier searches: two
    systems that differ only in such results stay related (any arithmetic). *)
From Coq Require Import Lia.
From Verif Require Import Base Num Types M_Geometry M_Container M_Neighbors P_Container S_Neighbors
  P_Neighbors.
Set Implicit Arguments.
Unset Strict Implicit.
#[local] Opaque abs_distance_ij.
#[local] Arguments max_nbrs : simpl never.

Definition resR {A B} (R : A -> B -> Prop) (x : res A) (y : res B) : Prop :=
  match x, y with Ok a, Ok b => R a b | Err e, Err e' => e = e' | _, _ => False end.

Lemma bindR {A B A' B'} (R : A -> B -> Prop) (Q : A' -> B' -> Prop) x y f g :
  resR R x y -> (forall a b, R a b -> resR Q (f a) (g b)) -> resR Q (bind x f) (bind y g).
Proof. destruct x, y; simpl; intros H HF; auto; try contradiction. Qed.

Lemma foldM_R {A B X} (R : A -> B -> Prop) (f : A -> X -> res A) (g : B -> X -> res B) l : 
  (forall x a b, In x l -> R a b -> resR R (f a x) (g b x)) -> forall a b, R a b ->
  resR R (foldM f l a) (foldM g l b).
Proof.
  induction l as [|x l IH]; intros HF a b HR; simpl; auto.
  apply bindR with (R := R); [apply HF; auto; now left|]. intros; apply IH; auto.
  intros; apply HF; auto. now right.
Qed.

Lemma mapM_eq {A B} (f g : A -> res B) l : (forall x, In x l -> f x = g x) -> mapM f l = mapM g l.
Proof.
  induction l; intros H; simpl; auto. rewrite (H a) by (now left). destruct (g a); simpl; auto.
  rewrite IHl; auto. intros; apply H; now right.
Qed.

Section H.
Variable N : num.

(** Atoms that differ at most in the cutoff member. *)
Definition Ra (a b : atom N) : Prop := a <| a_cutoff := n0 |> = b <| a_cutoff := n0 |>.
Definition La := Forall2 Ra.
(** Systems that differ at most in cutoffs and search settings. *)
Definition sys_rest (s : sys N) : sys N :=
  s <| s_atoms := [] |> <| s_nd := n0 |> <| s_usecells := false |> <| s_vorused := false |>
    <| s_found := false |>.
Definition Sa (s1 s2 : sys N) : Prop := La (s_atoms s1) (s_atoms s2) /\ sys_rest s1 = sys_rest s2.

Lemma Ra_f {A} (f : atom N -> A) a b : Ra a b ->
  (forall x, f (x <| a_cutoff := n0 |>) = f x) -> f a = f b.
Proof. intros H Hf. rewrite <- (Hf a), <- (Hf b). now rewrite H. Qed.
Lemma Ra_pos a b : Ra a b -> a_pos a = a_pos b. Proof. intros H; apply (Ra_f H); reflexivity. Qed.
Lemma Ra_type a b : Ra a b -> a_type a = a_type b. Proof. intros H; apply (Ra_f H); reflexivity. Qed.
Lemma Ra_nbrs a b : Ra a b -> a_nbrs a = a_nbrs b. Proof. intros H; apply (Ra_f H); reflexivity. Qed.
Lemma Ra_temp a b : Ra a b -> a_temp a = a_temp b. Proof. intros H; apply (Ra_f H); reflexivity. Qed.

(** An update that commutes with erasing the cutoff. *)
Lemma Ra_upd (f : atom N -> atom N) a b :
  (forall x, (f x) <| a_cutoff := n0 |> = (f (x <| a_cutoff := n0 |>)) <| a_cutoff := n0 |>) ->
  Ra a b -> Ra (f a) (f b).
Proof. unfold Ra. intros Hf H. now rewrite (Hf a), (Hf b), H. Qed.
Lemma Ra_cut a b c d : Ra a b -> Ra (a <| a_cutoff := c |>) (b <| a_cutoff := d |>).
Proof. unfold Ra. intros H. exact H. Qed.

Lemma La_get l1 l2 i : La l1 l2 -> resR Ra (get l1 i) (get l2 i).
Proof.
  intros H. revert i; induction H; intros [|i]; simpl; auto. apply IHForall2.
Qed.
Lemma La_upd l1 l2 f g i : La l1 l2 -> (forall a b, Ra a b -> Ra (f a) (g b)) -> La (upd i f l1) (upd i g l2).
Proof.
  intros H HF. revert i; induction H; intros [|i]; simpl; constructor; auto. apply IHForall2.
Qed.
Lemma La_length l1 l2 : La l1 l2 -> length l1 = length l2.
Proof. intros H; induction H; simpl; auto. Qed.

Lemma rest_f {A} (f : sys N -> A) s1 s2 : sys_rest s1 = sys_rest s2 ->
  (forall s, f (sys_rest s) = f s) -> f s1 = f s2.
Proof. intros H Hf. now rewrite <- (Hf s1), <- (Hf s2), H. Qed.
Lemma Sa_ij s1 s2 p q : sys_rest s1 = sys_rest s2 -> abs_distance_ij s1 p q = abs_distance_ij s2 p q.
Proof. intros H. apply (rest_f (f := fun s => abs_distance_ij s p q) H). reflexivity. Qed.
Lemma Sa_len s1 s2 : sys_rest s1 = sys_rest s2 -> s_len s1 = s_len s2.
Proof. intros H. apply (rest_f H). reflexivity. Qed.
Lemma Sa_nop s1 s2 : sys_rest s1 = sys_rest s2 -> s_nop s1 = s_nop s2.
Proof. intros H. apply (rest_f H). reflexivity. Qed.
Lemma Sa_real s1 s2 : sys_rest s1 = sys_rest s2 -> s_real s1 = s_real s2.
Proof. intros H. apply (rest_f H). reflexivity. Qed.
Lemma Sa_filter s1 s2 : sys_rest s1 = sys_rest s2 -> s_filter s1 = s_filter s2.
Proof. intros H. apply (rest_f H). reflexivity. Qed.
Lemma Sa_guess s1 s2 t : sys_rest s1 = sys_rest s2 -> guess_distance s1 t = guess_distance s2 t.
Proof. intros H. apply (rest_f (f := fun s => guess_distance s t) H). reflexivity. Qed.

Lemma app_nbr_R e (x y : atom N) : Ra x y ->
  Ra (x <| a_nbrs := a_nbrs x ++ [e] |>) (y <| a_nbrs := a_nbrs y ++ [e] |>).
Proof. apply (Ra_upd (f := fun a => a <| a_nbrs := a_nbrs a ++ [e] |>)). reflexivity. Qed.
Lemma app_temp_R e (x y : atom N) : Ra x y ->
  Ra (x <| a_temp := a_temp x ++ [e] |>) (y <| a_temp := a_temp y ++ [e] |>).
Proof. apply (Ra_upd (f := fun a => a <| a_temp := a_temp a ++ [e] |>)). reflexivity. Qed.
Lemma push_nbr_R l1 l2 i e : La l1 l2 -> resR La (push_nbr l1 i e) (push_nbr l2 i e).
Proof.
  intros H. unfold push_nbr. apply bindR with (R := Ra); [now apply La_get|]. intros a b Hab.
  rewrite (Ra_nbrs Hab). destruct (_ <? _); [|reflexivity]. cbn [resR]. apply La_upd; [exact H|].
  intros x y. apply app_nbr_R.
Qed.
Lemma set_cutoff_R l1 l2 i c d : La l1 l2 -> La (set_cutoff l1 i c) (set_cutoff l2 i d).
Proof. intros H. apply La_upd; [exact H|]. intros; now apply Ra_cut. Qed.

Lemma add_pair_R s1 s2 l1 l2 p : sys_rest s1 = sys_rest s2 -> s_nd s1 = s_nd s2 -> La l1 l2 ->
  resR La (add_pair s1 l1 p) (add_pair s2 l2 p).
Proof.
  intros HS Hnd H. destruct p as [ti tj]. unfold add_pair.
  apply bindR with (R := Ra); [now apply La_get|]. intros a a' Ha.
  apply bindR with (R := Ra); [now apply La_get|]. intros b b' Hb.
  rewrite (Ra_pos Ha), (Ra_pos Hb), (Ra_type Ha), (Ra_type Hb), (Sa_ij _ _ HS), (Sa_filter HS), Hnd.
  destruct (abs_distance_ij _ _ _) as [d v]. destruct (nltb _ _); [|exact H].
  destruct (filtered _ _ _); [exact H|].
  apply bindR with (R := La); [now apply push_nbr_R|]. intros x y Hxy.
  apply bindR with (R := La); [apply push_nbr_R; now apply set_cutoff_R|]. intros x' y' Hxy'.
  simpl. now apply set_cutoff_R.
Qed.

Lemma process_R s1 s2 l1 l2 i j : sys_rest s1 = sys_rest s2 -> La l1 l2 ->
  resR La (process_neighbor s1 l1 i j) (process_neighbor s2 l2 i j).
Proof.
  intros HS H. unfold process_neighbor.
  apply bindR with (R := Ra); [now apply La_get|]. intros a a' Ha.
  apply bindR with (R := Ra); [now apply La_get|]. intros b b' Hb.
  rewrite (Ra_pos Ha), (Ra_pos Hb), (Sa_ij _ _ HS).
  destruct (abs_distance_ij _ _ _) as [d v]. now apply push_nbr_R.
Qed.

Lemma Sa_with s1 s2 l1 l2 : Sa s1 s2 -> La l1 l2 -> Sa (s1 <| s_atoms := l1 |>) (s2 <| s_atoms := l2 |>).
Proof. intros [_ H] HL. split; auto. Qed.

Definition Sa' s1 s2 := Sa s1 s2 /\ s_nd s1 = s_nd s2 /\ s_usecells s1 = s_usecells s2.

Lemma make_grid_eq s1 s2 : sys_rest s1 = sys_rest s2 -> s_nd s1 = s_nd s2 -> make_grid s1 = make_grid s2.
Proof. intros H Hn. unfold make_grid. now rewrite (Sa_len H), Hn. Qed.
Lemma atom_cell_eq s1 s2 g p : sys_rest s1 = sys_rest s2 -> atom_cell s1 g p = atom_cell s2 g p.
Proof. intros H. unfold atom_cell. now rewrite (Sa_len H). Qed.
Lemma resR_eq {A} (x y : res A) : resR eq x y -> x = y.
Proof. destruct x, y; simpl; intros; try contradiction; congruence. Qed.

Lemma cell_pairs_eq s1 s2 : Sa s1 s2 -> s_nd s1 = s_nd s2 -> cell_pairs s1 = cell_pairs s2.
Proof.
  intros [HL H] Hn. unfold cell_pairs. rewrite (make_grid_eq H Hn).
  destruct (make_grid s2) as [g|]; simpl; auto.
  assert (E : atom_cells s1 g = atom_cells s2 g); [|now rewrite E].
  unfold atom_cells. rewrite (Sa_nop H). apply mapM_eq. intros i _. apply resR_eq.
  apply bindR with (R := Ra); [now apply La_get|]. intros a b Hab.
  rewrite (atom_cell_eq _ _ H), (Ra_pos Hab). destruct (_ && _); simpl; auto.
Qed.

Lemma normal_R s1 s2 : Sa s1 s2 -> s_nd s1 = s_nd s2 ->
  resR Sa (get_all_neighbors_normal s1) (get_all_neighbors_normal s2).
Proof.
  intros [HL H] Hn. unfold get_all_neighbors_normal. cbv zeta.
  change (s_nop (s1 <| s_vorused := false |>)) with (s_nop s1).
  change (s_nop (s2 <| s_vorused := false |>)) with (s_nop s2). rewrite (Sa_nop H).
  apply bindR with (R := La).
  - apply foldM_R; [|exact HL]. intros. apply add_pair_R; auto.
  - intros l1 l2 HLL. simpl. split; auto.
Qed.

Lemma cells_R s1 s2 : Sa s1 s2 -> s_nd s1 = s_nd s2 ->
  resR Sa (get_all_neighbors_cells s1) (get_all_neighbors_cells s2).
Proof.
  intros HS Hn. pose proof HS as [HL H]. unfold get_all_neighbors_cells. cbv zeta.
  change (cell_pairs (s1 <| s_vorused := false |>)) with (cell_pairs s1).
  change (cell_pairs (s2 <| s_vorused := false |>)) with (cell_pairs s2).
  rewrite (cell_pairs_eq HS Hn). destruct (cell_pairs s2) as [ps|]; simpl; auto.
  apply bindR with (R := La).
  - apply foldM_R; [|exact HL]. intros. apply add_pair_R; auto.
  - intros l1 l2 HLL. simpl. split; auto.
Qed.

Lemma push_temp_R l1 l2 i e : La l1 l2 -> La (push_temp l1 i e) (push_temp l2 i e).
Proof.
  intros H. apply La_upd; [exact H|]. intros x y. apply app_temp_R.
Qed.
Lemma add_temp_R cmp s1 s2 l1 l2 p : sys_rest s1 = sys_rest s2 -> s_nd s1 = s_nd s2 -> La l1 l2 ->
  resR La (add_temp cmp s1 l1 p) (add_temp cmp s2 l2 p).
Proof.
  intros HS Hnd H. destruct p as [ti tj]. unfold add_temp.
  apply bindR with (R := Ra); [now apply La_get|]. intros a a' Ha.
  apply bindR with (R := Ra); [now apply La_get|]. intros b b' Hb.
  rewrite (Ra_pos Ha), (Ra_pos Hb), (Sa_ij _ _ HS), Hnd.
  destruct (abs_distance_ij _ _ _) as [d v]. destruct (cmp _ _); [|exact H].
  simpl. now apply push_temp_R, push_temp_R.
Qed.

Lemma get_temp_R s1 s2 : Sa' s1 s2 -> resR Sa (get_temp_neighbors s1) (get_temp_neighbors s2).
Proof.
  intros (HS & Hn & Hu). pose proof HS as [HL H]. unfold get_temp_neighbors. rewrite Hu.
  apply bindR with (R := La).
  - destruct (s_usecells s2).
    + rewrite (cell_pairs_eq HS Hn). destruct (cell_pairs s2) as [ps|]; simpl; auto.
      apply foldM_R; [|exact HL]. intros. apply add_temp_R; auto.
    + rewrite (Sa_nop H). apply foldM_R; [|exact HL]. intros. apply add_temp_R; auto.
  - intros l1 l2 HLL. now apply Sa_with.
Qed.

Definition Lb (x y : list (atom N) * bool) : Prop := La (fst x) (fst y) /\ snd x = snd y.
Lemma loop_atoms_R f g is : (forall i l1 l2, La l1 l2 -> resR Lb (f l1 i) (g l2 i)) ->
  forall l1 l2, La l1 l2 -> resR Lb (loop_atoms f is l1) (loop_atoms g is l2).
Proof.
  intros HF. induction is as [|i is IH]; intros l1 l2 H; simpl; [split; auto|].
  apply bindR with (R := Lb); [now apply HF|]. intros [x ok] [y ok'] [Hx Hok]. simpl in *. subst.
  destruct ok'; auto. simpl. split; auto.
Qed.

Variable srt : list (datom N) -> list (datom N).
Lemma sort_temp_R l1 l2 i : La l1 l2 -> La (sort_temp srt l1 i) (sort_temp srt l2 i).
Proof.
  intros H. apply La_upd; [exact H|]. intros a b.
  apply (Ra_upd (f := fun a => a <| a_temp := srt (a_temp a) |>)). reflexivity.
Qed.

Lemma bynumber_atom_R s1 s2 k asg i l1 l2 : sys_rest s1 = sys_rest s2 -> La l1 l2 ->
  resR Lb (bynumber_atom srt s1 k asg l1 i) (bynumber_atom srt s2 k asg l2 i).
Proof.
  intros HS H. unfold bynumber_atom.
  apply bindR with (R := Ra); [now apply La_get|]. intros a a' Ha. rewrite (Ra_temp Ha).
  destruct (size_lt _ _); [split; auto|]. cbv zeta.
  apply bindR with (R := Ra); [now apply La_get, sort_temp_R|]. intros b b' Hb. rewrite (Ra_temp Hb).
  destruct asg; [|split; auto; now apply sort_temp_R].
  apply bindR with (R := La).
  - apply foldM_R; [|now apply sort_temp_R]. intros; now apply process_R.
  - intros; split; auto.
Qed.

Definition Sb (x y : sys N * bool) : Prop := Sa (fst x) (fst y) /\ snd x = snd y.

Lemma bynumber_R s1 s2 t k asg : Sa s1 s2 -> s_usecells s1 = s_usecells s2 ->
  resR Sb (get_all_neighbors_bynumber srt s1 t k asg) (get_all_neighbors_bynumber srt s2 t k asg).
Proof.
  intros [HL H] Hu. unfold get_all_neighbors_bynumber. cbv zeta.
  rewrite (Sa_guess t H).
  apply bindR with (R := Sa).
  - apply get_temp_R. split; [split; auto|]. auto.
  - intros x y [HL' H']. rewrite (Sa_nop H').
    apply bindR with (R := Lb).
    + apply loop_atoms_R; auto. intros; now apply bynumber_atom_R.
    + intros [l ok] [l' ok'] [A B]. simpl in *. subst. split; auto. split; auto.
Qed.

Lemma adaptive_atom_R s1 s2 k pad i l1 l2 : sys_rest s1 = sys_rest s2 -> La l1 l2 ->
  resR Lb (adaptive_atom srt s1 k pad l1 i) (adaptive_atom srt s2 k pad l2 i).
Proof.
  intros HS H. unfold adaptive_atom.
  apply bindR with (R := Ra); [now apply La_get|]. intros a a' Ha. rewrite (Ra_temp Ha).
  destruct (size_lt _ _); [split; auto|]. cbv zeta.
  apply bindR with (R := Ra); [now apply La_get, sort_temp_R|]. intros b b' Hb. rewrite (Ra_temp Hb).
  apply bindR with (R := La).
  - apply foldM_R; [|now apply sort_temp_R]. intros d x y _ Hxy. destruct (nltb _ _); [|exact Hxy].
    apply bindR with (R := Ra); [now apply La_get|]. intros c c' Hc.
    apply bindR with (R := Ra); [now apply La_get|]. intros e e' He.
    rewrite (Sa_filter HS), (Ra_type Hc), (Ra_type He). destruct (filtered _ _ _); [exact Hxy|].
    apply bindR with (R := La); [now apply process_R|]. intros; now apply set_cutoff_R.
  - intros; split; auto.
Qed.

Lemma adaptive_R s1 s2 t k pad : Sa s1 s2 -> s_usecells s1 = s_usecells s2 ->
  resR Sb (get_all_neighbors_adaptive srt s1 t k pad) (get_all_neighbors_adaptive srt s2 t k pad).
Proof.
  intros [HL H] Hu. unfold get_all_neighbors_adaptive. cbv zeta.
  rewrite (Sa_guess t H).
  apply bindR with (R := Sa).
  - apply get_temp_R. split; [split; auto|]. auto.
  - intros x y [HL' H']. rewrite (Sa_nop H').
    apply bindR with (R := Lb).
    + apply loop_atoms_R; auto. intros; now apply adaptive_atom_R.
    + intros [l ok] [l' ok'] [A B]. simpl in *. subst. split; auto. split; auto.
Qed.

Lemma sann_loop_R s1 s2 fuel i temp : sys_rest s1 = sys_rest s2 -> forall m summ dcut l1 l2, La l1 l2 ->
  resR (fun x y => La (fst x) (fst y) /\ snd x = snd y)
    (sann_loop fuel s1 i temp m summ dcut l1) (sann_loop fuel s2 i temp m summ dcut l2).
Proof.
  intros HS. induction fuel as [|fuel IH]; intros m summ dcut l1 l2 H; cbn [sann_loop]; [reflexivity|].
  destruct (m <? length temp); [|split; auto].
  destruct (get temp m) as [t|]; cbn [bind]; [|reflexivity].
  destruct (nleb _ _); [|split; auto].
  destruct (get temp (S m)) as [t'|]; cbn [bind]; [|reflexivity].
  apply bindR with (R := La); [now apply process_R|]. intros x y Hxy.
  apply IH. now apply set_cutoff_R.
Qed.

Lemma sann_atom_R s1 s2 i l1 l2 : sys_rest s1 = sys_rest s2 -> La l1 l2 ->
  resR Lb (sann_atom srt s1 l1 i) (sann_atom srt s2 l2 i).
Proof.
  intros HS H. unfold sann_atom.
  apply bindR with (R := Ra); [now apply La_get|]. intros a a' Ha. rewrite (Ra_temp Ha).
  destruct (_ <? 3); [split; auto|]. cbv zeta.
  apply bindR with (R := Ra); [now apply La_get, sort_temp_R|]. intros b b' Hb. rewrite (Ra_temp Hb).
  apply bindR with (R := La).
  - apply foldM_R; [|now apply sort_temp_R]. intros; now apply process_R.
  - intros x y Hxy. apply bindR with (R := fun x y => La (fst x) (fst y) /\ snd x = snd y).
    + now apply sann_loop_R.
    + intros [x' m] [y' m'] [A B]. simpl in *. subst. split; auto.
Qed.

Lemma sann_R s1 s2 t : Sa s1 s2 -> s_usecells s1 = s_usecells s2 ->
  resR (fun x y => Sb x y /\ s_usecells (fst x) = s_usecells (fst y))
    (get_all_neighbors_sann srt s1 t) (get_all_neighbors_sann srt s2 t).
Proof.
  intros [HL H] Hu. unfold get_all_neighbors_sann. cbv zeta.
  rewrite (Sa_guess t H).
  apply bindR with (R := fun x y : sys N => Sa x y /\ s_usecells x = s_usecells y).
  - assert (G : forall s s' : sys N, get_temp_neighbors s = Ok s' -> s_usecells s' = s_usecells s).
    { intros s s'. unfold get_temp_neighbors. intros E.
      destruct (if s_usecells s then _ else _) in E; simpl in E; [|discriminate]. injection E as <-. reflexivity. }
    set (x1 := s1 <| s_vorused := false |> <| s_nd := _ |>).
    set (x2 := s2 <| s_vorused := false |> <| s_nd := _ |>).
    assert (Q : resR Sa (get_temp_neighbors x1) (get_temp_neighbors x2)).
    { apply get_temp_R. split; [split; auto|]. auto. }
    destruct (get_temp_neighbors x1) eqn:E1, (get_temp_neighbors x2) eqn:E2; simpl in *; auto.
    split; auto. now rewrite (G _ _ E1), (G _ _ E2).
  - intros x y [[HL' H'] Hu']. rewrite (Sa_nop H').
    apply bindR with (R := Lb).
    + apply loop_atoms_R; auto. intros; now apply sann_atom_R.
    + intros [l ok] [l' ok'] [A B]. simpl in *. subst. split; auto. split; auto. split; auto.
Qed.

(** Resetting removes all results. *)
Lemma reset_R s1 s2 : stored s1 -> same_physics s1 s2 -> forall f,
  resR (fun x y => Sa (x <| s_filter := f |>) (y <| s_filter := f |>) /\
          s_vorused x = s_vorused s1 /\ s_vorused y = s_vorused s2)
    (reset_all_neighbors s1) (reset_all_neighbors s2).
Proof.
  intros St [HF H] f. unfold reset_all_neighbors, each_atom.
  assert (En : s_nop s1 = s_nop s2).
  { apply (f_equal (@s_nop N)) in H. exact H. }
  assert (Hl : length (s_atoms s1) = length (s_atoms s2)).
  { clear -HF. induction HF; simpl; auto. }
  cbv zeta. rewrite <- En, <- Hl, St, Nat2Z.id, Nat.leb_refl. cbn [resR]. split; [|auto]. split.
  - cbn. rewrite St, Nat2Z.id.
    rewrite map_first_all. rewrite Hl, map_first_all.
    clear -HF. induction HF; simpl; constructor; auto.
  - apply (f_equal (fun s => s <| s_filter := f |>)) in H. exact H.
Qed.

Variable voro : nat -> option (list (nat * N)).
Variable area_pow : N -> N.
Variable inv : m3 N -> option (m3 N).

Lemma voro_skip_eq s1 s2 a a' k : Sa s1 s2 -> a_type a = a_type a' -> voro_skip s1 a k = voro_skip s2 a' k.
Proof.
  intros [HL H] Ha. apply resR_eq. unfold voro_skip. rewrite (Sa_filter H). destruct (_ || _); simpl; auto.
  apply bindR with (R := Ra); [now apply La_get|]. intros b b' Hb. rewrite Ha, (Ra_type Hb). simpl. auto.
Qed.
Lemma voro_slots_eq s1 s2 i fs : Sa s1 s2 -> voro_slots area_pow s1 i fs = voro_slots area_pow s2 i fs.
Proof.
  intros HS. assert (HS' := HS). destruct HS' as [HL H]. apply resR_eq. unfold voro_slots.
  apply bindR with (R := Ra); [now apply La_get|]. intros a a' Ha.
  destruct (_ <? _); simpl; auto. match goal with |- resR eq ?x ?y => assert (x = y) as -> end.
  - apply mapM_eq. intros k _. destruct (get fs k) as [f|]; simpl; auto. apply resR_eq.
    rewrite (voro_skip_eq k HS (Ra_type Ha)). destruct (voro_skip s2 a' k) as [[|]|]; simpl; auto.
    apply bindR with (R := Ra); [now apply La_get|]. intros c c' Hc.
    rewrite (Ra_pos Ha), (Ra_pos Hc), (Sa_ij _ _ H). destruct (abs_distance_ij _ _ _). simpl. auto.
  - destruct (mapM _ _); simpl; auto.
Qed.
Lemma voro_atom_eq s1 s2 i : Sa s1 s2 -> voro_atom voro area_pow s1 i = voro_atom voro area_pow s2 i.
Proof.
  intros H. unfold voro_atom. destruct (voro i); auto. now rewrite (voro_slots_eq _ _ H).
Qed.
Lemma voronoi_R s1 s2 : Sa s1 s2 ->
  resR Sa (get_all_neighbors_voronoi voro area_pow s1) (get_all_neighbors_voronoi voro area_pow s2).
Proof.
  intros [HL H]. unfold get_all_neighbors_voronoi. cbv zeta.
  change (s_nop (s1 <| s_vorused := true |>)) with (s_nop s1).
  change (s_nop (s2 <| s_vorused := true |>)) with (s_nop s2). rewrite (Sa_nop H).
  apply bindR with (R := La).
  - apply foldM_R; [|exact HL]. intros i l1 l2 _ Hl.
    rewrite (@voro_atom_eq (s1 <| s_vorused := true |>) (s2 <| s_vorused := true |>) i) by (split; auto).
    destruct (voro_atom _ _ _ _) as [[ns|]|]; simpl; auto.
    apply La_upd; auto. intros a b. apply (Ra_upd (f := fun a => a <| a_nbrs := ns |>)). reflexivity.
  - intros; split; auto.
Qed.

(** Updates of members that do not matter. *)
Lemma Sa_upd (f : sys N -> sys N) s1 s2 :
  (forall s, sys_rest (f s) = sys_rest (f (sys_rest s))) -> (forall s, s_atoms (f s) = s_atoms s) ->
  Sa s1 s2 -> Sa (f s1) (f s2).
Proof. intros Hf Ha [HL H]. split; [now rewrite !Ha|]. now rewrite (Hf s1), (Hf s2), H. Qed.

Lemma box_set_R s1 s2 b : Sa s1 s2 -> resR Sa (box_set inv s1 b) (box_set inv s2 b).
Proof.
  intros HS. unfold box_set. 
  destruct (nltb _ _).
  - destruct (inv _) as [ri|]; [|reflexivity]. simpl.
    apply (Sa_upd (f := fun s => sbox (assign_triclinic_params s (mtrans b) ri) b)); auto; reflexivity.
  - simpl. apply (Sa_upd (f := fun s => sbox s b)); auto; reflexivity.
Qed.

Lemma Forall2_map_first (f : atom N -> atom N) n l1 l2 :
  (forall a b, Ra a b -> Ra (f a) (f b)) -> La l1 l2 -> La (map_first n f l1) (map_first n f l2).
Proof.
  intros Hf H. unfold map_first. revert n. induction H; intros [|n]; simpl; constructor; auto.
  apply IHForall2.
Qed.

Lemma reset_again s1 s2 : Sa s1 s2 -> s_usecells s1 = s_usecells s2 ->
  resR (fun x y => Sa x y /\ s_usecells x = s_usecells y) (reset_all_neighbors s1) (reset_all_neighbors s2).
Proof.
  intros [HL H] Hu. unfold reset_all_neighbors, each_atom. rewrite (Sa_nop H), (La_length HL).
  destruct (_ <=? _); [|reflexivity]. cbn [resR]. split; [|exact Hu]. split; [|exact H].
  apply Forall2_map_first; auto. intros a b. apply (Ra_upd (f := @reset_atom_all N)). reflexivity.
Qed.

Lemma sann_retry_R is t : forall s1 s2, Sa s1 s2 -> s_usecells s1 = s_usecells s2 ->
  resR Sb (sann_retry srt is s1 t) (sann_retry srt is s2 t).
Proof.
  induction is as [|i is IH]; intros s1 s2 HS Hu; cbn [sann_retry]; [split; auto|].
  apply bindR with (R := fun x y : sys N => Sa x y /\ s_usecells x = s_usecells y);
    [now apply reset_again|].
  intros x y [Hxy Huxy].
  apply bindR with (R := fun x y => Sb x y /\ s_usecells (fst x) = s_usecells (fst y));
    [now apply sann_R|].
  intros [x' ok] [y' ok'] [[A B] C]. simpl in *. subst. destruct ok'; [split; auto|]. now apply IH.
Qed.

(** Two outcomes that differ at most in cutoffs and search settings. *)
Definition same_outcome (x y : sys N * option err) : Prop := Sa (fst x) (fst y) /\ snd x = snd y.

Lemma Sa_found x y : Sa x y -> resR same_outcome (found x) (found y).
Proof. intros [A B]. unfold found. cbn [resR]. split; [split|]; auto. Qed.
Lemma Sa_cells x y b : Sa x y -> Sa (x <| s_usecells := b |>) (y <| s_usecells := b |>).
Proof. intros [A B]. split; auto. Qed.
Lemma Sa_nd x y c : Sa x y -> Sa (x <| s_nd := c |>) (y <| s_nd := c |>).
Proof. intros [A B]. split; auto. Qed.

Lemma La_get_atoms x y : Sa x y -> resR La (get_atoms x) (get_atoms y).
Proof.
  intros [HL HR]. unfold get_atoms. rewrite (Sa_real HR). generalize (seq 0 (Z.to_nat (s_real y))). intros l.
  induction l as [|i l IH]; cbn [mapM]; [constructor|].
  apply bindR with (R := Ra); [now apply La_get|]. intros a b Hab. apply bindR with (R := La); [exact IH|].
  intros; constructor; auto.
Qed.
Lemma copies_R mem b g reps l1 l2 : La l1 l2 -> copies mem b g reps l1 = copies mem b g reps l2.
Proof.
  intros H. destruct reps as [[rx ry] rz]. unfold copies. rewrite (La_length H). generalize (Z.of_nat (length l2) + 1)%Z.
  generalize (shifts rx ry rz). intros ts.
  assert (M : forall t, Forall2 (fun p q : (Z * Z * Z) * atom N => fst p = fst q /\ Ra (snd p) (snd q)) (map (fun a => (t, a)) l1) (map (fun a => (t, a)) l2)).
  { intros t. clear - H. induction H; constructor; auto. }
  assert (F : Forall2 (fun p q : (Z * Z * Z) * atom N => fst p = fst q /\ Ra (snd p) (snd q))
     (flat_map (fun t => map (fun a => (t, a)) l1) ts) (flat_map (fun t => map (fun a => (t, a)) l2) ts)).
  { induction ts as [|t ts IH]; cbn [flat_map]; [constructor|]. apply Forall2_app; auto. }
  induction F as [|[t a] [t' a'] p q [E A] F IH]; intros z; cbn [number_from]; [reflexivity|].
  cbn [fst snd] in *. subst t'. rewrite IH. f_equal. unfold copy_atom. rewrite (Ra_pos A), (Ra_type A). reflexivity.
Qed.
Lemma La_refl (l : list (atom N)) : La l l.
Proof. induction l; constructor; auto. reflexivity. Qed.
Lemma La_filter f (l1 l2 : list (atom N)) : (forall x, f (x <| a_cutoff := n0 |>) = f x) -> La l1 l2 -> La (filter f l1) (filter f l2).
Proof.
  intros Hf H. induction H as [|a b l1 l2 A H IH]; cbn [filter]; [constructor|]. rewrite (Ra_f A Hf).
  destruct (f b); [constructor; auto|auto].
Qed.
Lemma La_map f (l1 l2 : list (atom N)) : (forall a b, Ra a b -> Ra (f a) (f b)) -> La l1 l2 -> La (map f l1) (map f l2).
Proof. intros Hf H. induction H; constructor; auto. Qed.
Lemma embed_R mem x y : Sa x y -> resR Sa (embed_triclinic inv mem x) (embed_triclinic inv mem y).
Proof.
  intros H. unfold embed_triclinic. pose proof (proj2 H) as HR.
  rewrite (rest_f (f := @s_tri N) HR), (rest_f (f := @s_ghosts_created N) HR) by reflexivity.
  destruct (_ && _); [|exact H].
  apply bindR with (R := La); [now apply La_get_atoms|]. intros l1 l2 HL.
  apply bindR with (R := fun p q => Sa (fst p) (fst q) /\ La (snd p) (snd q)).
  - unfold repeat_cell. cbn [bind]. rewrite (rest_f (f := @box_get N) HR) by reflexivity. rewrite (copies_R mem _ _ _ HL).
    apply bindR with (R := Sa).
    + apply box_set_R. destruct H as [A B]. split; [exact A|]. apply (f_equal (fun s => s <| s_actual := Some (box_get y) |>)) in B. exact B.
    + intros a b [A B]. split; [split; [exact A|]|].
      * apply (f_equal (fun s => s <| s_ghosts_created := true |>)) in B. exact B.
      * cbn [snd]. apply Forall2_app; [exact HL|apply La_refl].
  - intros [a p] [b q] [[A B] C]. cbn [fst snd] in *. unfold embed_in_cubic_box.
    replace (s_box (set_atoms b q)) with (s_box (set_atoms a p)) by (exact (rest_f (f := @s_box N) B (fun _ => eq_refl))).
    apply box_set_R. split; [exact C|].
    assert (K : count_ghost p = count_ghost q /\ count_real p = count_real q /\ length p = length q).
    { unfold count_ghost, count_real.
      assert (G : forall f, (forall x, f (x <| a_cutoff := n0 |>) = f x) -> length (filter f p) = length (filter f q))
        by (intros f Hf; apply La_length, La_filter; auto).
      split; [|split; [|exact (La_length C)]]; f_equal; apply G; reflexivity. }
    destruct K as (K1 & K2 & K3).
    apply (f_equal (fun s => s <| s_nop := Z.of_nat (length q) |> <| s_ghost := count_ghost q |> <| s_real := count_real q |>)) in B.
    unfold set_atoms. rewrite K1, K2, K3. exact B.
Qed.

Theorem find_neighbors_R s1 s2 args : stored s1 -> same_physics s1 s2 ->
  resR same_outcome (find_neighbors srt voro area_pow inv s1 args)
                    (find_neighbors srt voro area_pow inv s2 args).
Proof.
  intros St HP. unfold find_neighbors.
  apply (bindR (reset_R St HP (filter_code (fa_filter args)))).
  intros x y (HS & _). cbv zeta.
  set (x' := x <| s_filter := _ |>) in *. set (y' := y <| s_filter := _ |>) in *.
  clearbody x' y'. clear x y HP St s1 s2. pose proof (proj2 HS) as HR.
  assert (HE : forall e : err, resR same_outcome (Ok (x', Some e)) (Ok (y', Some e))) by (intros; split; auto).
  set (t := fa_threshold args).
  assert (HA : forall z : Z, resR same_outcome
    ('(s, ok) <- get_all_neighbors_adaptive srt (x' <| s_usecells := Z.ltb 4000 z |>) t (fa_nlimit args) (fa_padding args) ;;
          if ok then found s else Ok (s, Some RuntimeError))
    ('(s, ok) <- get_all_neighbors_adaptive srt (y' <| s_usecells := Z.ltb 4000 z |>) t (fa_nlimit args) (fa_padding args) ;;
          if ok then found s else Ok (s, Some RuntimeError))).
  { intros z. apply bindR with (R := Sb); [apply adaptive_R; auto; now apply Sa_cells|].
    intros [a ok] [b ok'] [A B]. cbn in A, B; subst. destruct ok'; [now apply Sa_found|]. split; auto. }
  unfold real_count. rewrite (Sa_nop HR), (Sa_real HR).
  destruct (fa_method args) as [[| | | |c]|nmax asg|mem|].
  - apply HE.
  - destruct (nltb _ _); [apply HE|].
    apply bindR with (R := fun x y => Sb x y /\ s_usecells (fst x) = s_usecells (fst y));
      [apply sann_R; auto; now apply Sa_cells|].
    intros [a ok] [b ok'] [[A B] C]. cbn in A, B; subst. destruct ok'; [now apply Sa_found|].
    apply bindR with (R := Sb); [now apply sann_retry_R|].
    intros [a' ok] [b' ok'] [A' B]. cbn in A', B; subst. destruct ok'; [now apply Sa_found|]. split; auto.
  - destruct (nltb _ _); [apply HE|]. apply HA.
  - apply HE.
  - destruct (neqb _ _).
    + destruct (nltb _ _); [apply HE|]. apply HA.
    + apply bindR with (R := Sa).
      * change (s_real (x' <| s_nd := c |>)) with (s_real x').
        change (s_real (y' <| s_nd := c |>)) with (s_real y'). rewrite (Sa_real HR).
        destruct (Z.ltb _ _); [apply cells_R|apply normal_R]; auto; now apply Sa_nd.
      * intros; now apply Sa_found.
  - destruct (nltb _ _); [apply HE|].
    apply bindR with (R := Sb); [apply bynumber_R; auto; now apply Sa_cells|].
    intros [a ok] [b ok'] [A B]. cbn in A, B; subst. destruct ok'; [now apply Sa_found|]. split; auto.
  - assert (Eb : s_box x' = s_box y') by (apply (rest_f HR); reflexivity). rewrite Eb.
    apply bindR with (R := Sa); [now apply embed_R|]. intros a0 b0 Hab0.
    apply bindR with (R := Sa); [now apply voronoi_R|]. intros a b Hab.
    apply bindR with (R := Sa); [now apply box_set_R|]. intros; now apply Sa_found.
  - now apply Sa_found.
Qed.

(** ** A search changes nothing but results and settings. *)
Definition Pa (l l' : list (atom N)) : Prop := Forall2 (@same_atom N) l l'.
Lemma Pa_refl l : Pa l l.
Proof. induction l; constructor; auto. reflexivity. Qed.
Lemma Pa_trans l1 l2 l3 : Pa l1 l2 -> Pa l2 l3 -> Pa l1 l3.
Proof.
  intros H; revert l3; induction H; intros l3 H3; inversion H3; subst; constructor.
  - unfold same_atom in *. congruence.
  - apply IHForall2; auto.
Qed.
Lemma Pa_upd f i l : (forall a, same_atom a (f a)) -> Pa l (upd i f l).
Proof.
  intros H. revert i; induction l; intros [|i]; simpl; constructor; auto; try apply Pa_refl.
  - reflexivity.
  - apply IHl.
Qed.
Lemma foldM_Pa {X} (f : list (atom N) -> X -> res (list (atom N))) xs :
  (forall l x l', f l x = Ok l' -> Pa l l') -> forall l l', foldM f xs l = Ok l' -> Pa l l'.
Proof.
  intros Hf. induction xs as [|x xs IH]; simpl; intros l l' E.
  - injection E as <-. apply Pa_refl.
  - destruct (f l x) eqn:E1; simpl in E; [|discriminate]. eapply Pa_trans; eauto.
Qed.
Lemma push_nbr_Pa l i e l' : push_nbr l i e = Ok l' -> Pa l l'.
Proof.
  unfold push_nbr. destruct (get l i); simpl; [|discriminate]. destruct (_ <? _); [|discriminate].
  intros E. assert (E' := f_equal (fun r => match r with Ok x => x | Err _ => l end) E). cbn in E'.
  subst. apply Pa_upd. reflexivity.
Qed.
Lemma set_cutoff_Pa l i c : Pa l (set_cutoff l i c).
Proof. apply Pa_upd. reflexivity. Qed.
Lemma push_temp_Pa l i e : Pa l (push_temp l i e).
Proof. apply Pa_upd. reflexivity. Qed.
Lemma sort_temp_Pa l i : Pa l (sort_temp srt l i).
Proof. apply Pa_upd. reflexivity. Qed.

Lemma add_pair_Pa s l p l' : add_pair s l p = Ok l' -> Pa l l'.
Proof.
  destruct p as [i j]. unfold add_pair.
  destruct (get l i) as [a|]; cbn [bind]; [|discriminate].
  destruct (get l j) as [b|]; cbn [bind]; [|discriminate].
  destruct (abs_distance_ij _ _ _) as [d v]. destruct (nltb _ _); [|intros [= <-]; apply Pa_refl].
  destruct (filtered _ _ _); [intros [= <-]; apply Pa_refl|].
  destruct (push_nbr l i _) as [l1|] eqn:E1; cbn [bind]; [|discriminate].
  destruct (push_nbr _ j _) as [l2|] eqn:E2; cbn [bind]; [|discriminate].
  intros [= <-]. apply push_nbr_Pa in E1, E2.
  eapply Pa_trans; [exact E1|]. eapply Pa_trans; [apply set_cutoff_Pa|]. eapply Pa_trans; [exact E2|].
  apply set_cutoff_Pa.
Qed.
Lemma process_Pa s l i j l' : process_neighbor s l i j = Ok l' -> Pa l l'.
Proof.
  unfold process_neighbor.
  destruct (get l i) as [a|]; cbn [bind]; [|discriminate].
  destruct (get l j) as [b|]; cbn [bind]; [|discriminate].
  destruct (abs_distance_ij _ _ _) as [d v]. apply push_nbr_Pa.
Qed.
Lemma add_temp_Pa cmp s l p l' : add_temp cmp s l p = Ok l' -> Pa l l'.
Proof.
  destruct p as [i j]. unfold add_temp.
  destruct (get l i) as [a|]; cbn [bind]; [|discriminate].
  destruct (get l j) as [b|]; cbn [bind]; [|discriminate].
  destruct (abs_distance_ij _ _ _) as [d v]. destruct (cmp _ _); [|intros [= <-]; apply Pa_refl].
  intros [= <-]. eapply Pa_trans; apply push_temp_Pa.
Qed.
Lemma loop_Pa f is : (forall l i l' b, f l i = Ok (l', b) -> Pa l l') ->
  forall l l' b, loop_atoms f is l = Ok (l', b) -> Pa l l'.
Proof.
  intros Hf. induction is as [|i is IH]; simpl; intros l l' b E.
  - injection E as <- _. apply Pa_refl.
  - destruct (f l i) as [[l1 ok]|] eqn:E1; simpl in E; [|discriminate]. apply Hf in E1.
    destruct ok; [|injection E as <- _; auto]. eapply Pa_trans; eauto.
Qed.

(** Same members except results and settings, the filter included. *)
Definition sys_keep (s : sys N) : sys N := s <| s_atoms := [] |> <| s_nd := n0 |> <| s_filter := 0%Z |>
  <| s_usecells := false |> <| s_vorused := false |> <| s_found := false |>.
Definition Ps (s s' : sys N) : Prop := Pa (s_atoms s) (s_atoms s') /\ sys_keep s = sys_keep s'.
Lemma Ps_same s s' : Ps s s' <-> same_physics s s'.
Proof. reflexivity. Qed.
Lemma Ps_refl s : Ps s s.
Proof. split; [apply Pa_refl|reflexivity]. Qed.
Lemma Ps_trans s1 s2 s3 : Ps s1 s2 -> Ps s2 s3 -> Ps s1 s3.
Proof. intros [A B] [C D]. split; [eapply Pa_trans; eauto|congruence]. Qed.
Lemma Ps_stored s s' : Ps s s' -> stored s -> stored s'.
Proof.
  intros [A B] H. unfold stored in *. apply (f_equal (@s_nop N)) in B. cbn in B. rewrite <- B, H. f_equal.
  clear -A. induction A; simpl; auto.
Qed.

Lemma each_Ps f s s' : (forall a, same_atom a (f a)) -> each_atom f s = Ok s' -> Ps s s'.
Proof.
  intros Hf. unfold each_atom. cbv zeta. destruct (_ <=? _); [|discriminate].
  intros E. assert (E' := f_equal (fun r => match r with Ok x => x | Err _ => s end) E). cbn beta iota in E'.
  subst s'. split; [|reflexivity]. cbn. unfold map_first.
  generalize (Z.to_nat (s_nop s)). intros n. revert n. clear -Hf.
  induction (s_atoms s) as [|a l IH]; intros [|n]; simpl; constructor; auto; try apply Pa_refl.
  - reflexivity.
  - apply IH.
Qed.
Lemma reset_Ps s s' : reset_all_neighbors s = Ok s' -> Ps s s'.
Proof. apply each_Ps. reflexivity. Qed.

Lemma normal_Ps s s' : get_all_neighbors_normal s = Ok s' -> Ps s s'.
Proof.
  unfold get_all_neighbors_normal. cbv zeta.
  destruct (foldM _ _ _) as [l|] eqn:E; cbn [bind]; [|discriminate]. intros [= <-].
  apply foldM_Pa in E; [|intros; eapply add_pair_Pa; eauto]. split; [exact E|reflexivity].
Qed.
Lemma cells_Ps s s' : get_all_neighbors_cells s = Ok s' -> Ps s s'.
Proof.
  unfold get_all_neighbors_cells. cbv zeta.
  destruct (cell_pairs _) as [ps|]; cbn [bind]; [|discriminate].
  destruct (foldM _ _ _) as [l|] eqn:E; cbn [bind]; [|discriminate]. intros [= <-].
  apply foldM_Pa in E; [|intros; eapply add_pair_Pa; eauto]. split; [exact E|reflexivity].
Qed.
Lemma get_temp_Ps s s' : get_temp_neighbors s = Ok s' -> Ps s s'.
Proof.
  unfold get_temp_neighbors. destruct (if s_usecells s then _ else _) as [l|] eqn:E; cbn [bind]; [|discriminate].
  intros [= <-]. split; [|reflexivity]. cbn. destruct (s_usecells s).
  - destruct (cell_pairs s); cbn [bind] in E; [|discriminate].
    eapply foldM_Pa; [|exact E]. intros; eapply add_temp_Pa; eauto.
  - eapply foldM_Pa; [|exact E]. intros; eapply add_temp_Pa; eauto.
Qed.
Lemma bynumber_atom_Pa s k asg l i l' b : bynumber_atom srt s k asg l i = Ok (l', b) -> Pa l l'.
Proof.
  unfold bynumber_atom. destruct (get l i) as [a|]; cbn [bind]; [|discriminate].
  destruct (size_lt _ _); [intros [= <- _]; apply Pa_refl|]. cbv zeta.
  destruct (get (sort_temp _ _ _) i) as [a1|]; cbn [bind]; [|discriminate].
  destruct asg; [|intros [= <- _]; apply sort_temp_Pa].
  destruct (foldM _ _ _) as [l2|] eqn:E; cbn [bind]; [|discriminate]. intros [= <- _].
  eapply Pa_trans; [apply sort_temp_Pa|]. eapply foldM_Pa; [|exact E]. intros ? ? ? HH; exact (process_Pa HH).
Qed.
Lemma adaptive_atom_Pa s k pad l i l' b : adaptive_atom srt s k pad l i = Ok (l', b) -> Pa l l'.
Proof.
  unfold adaptive_atom. destruct (get l i) as [a|]; cbn [bind]; [|discriminate].
  destruct (size_lt _ _); [intros [= <- _]; apply Pa_refl|]. cbv zeta.
  destruct (get (sort_temp _ _ _) i) as [a1|]; cbn [bind]; [|discriminate].
  destruct (foldM _ _ _) as [l2|] eqn:E; cbn [bind]; [|discriminate]. intros [= <- _].
  eapply Pa_trans; [apply sort_temp_Pa|]. eapply foldM_Pa; [|exact E].
  intros x d y. cbv beta. destruct (nltb _ _); [|intros [= <-]; apply Pa_refl].
  destruct (get x i); cbn [bind]; [|discriminate]. destruct (get x (d_idx d)); cbn [bind]; [|discriminate].
  destruct (filtered _ _ _); [intros [= <-]; apply Pa_refl|].
  destruct (process_neighbor _ _ _ _) eqn:E1; cbn [bind]; [|discriminate]. intros [= <-].
  eapply Pa_trans; [eapply process_Pa; exact E1|]. apply set_cutoff_Pa.
Qed.
Lemma sann_loop_Pa s i temp fuel : forall m summ dcut l l' k,
  sann_loop fuel s i temp m summ dcut l = Ok (l', k) -> Pa l l'.
Proof.
  induction fuel as [|fuel IH]; intros m summ dcut l l' k; cbn [sann_loop]; [discriminate|].
  destruct (m <? _); [|intros [= <- _]; apply Pa_refl].
  destruct (get temp m) as [t|]; cbn [bind]; [|discriminate].
  destruct (nleb _ _); [|intros [= <- _]; apply Pa_refl].
  destruct (get temp (S m)) as [t'|]; cbn [bind]; [|discriminate].
  destruct (process_neighbor _ _ _ _) eqn:E1; cbn [bind]; [|discriminate]. intros E.
  eapply Pa_trans; [eapply process_Pa; exact E1|]. eapply Pa_trans; [apply set_cutoff_Pa|]. eapply IH; exact E.
Qed.
Lemma sann_atom_Pa s l i l' b : sann_atom srt s l i = Ok (l', b) -> Pa l l'.
Proof.
  unfold sann_atom. destruct (get l i) as [a|]; cbn [bind]; [|discriminate].
  destruct (_ <? 3); [intros [= <- _]; apply Pa_refl|]. cbv zeta.
  destruct (get (sort_temp _ _ _) i) as [a1|]; cbn [bind]; [|discriminate].
  destruct (foldM _ _ _) as [l2|] eqn:E; cbn [bind]; [|discriminate].
  destruct (sann_loop _ _ _ _ _ _ _ _) as [[l3 m]|] eqn:E2; cbn [bind]; [|discriminate]. intros [= <- _].
  eapply Pa_trans; [apply sort_temp_Pa|]. eapply Pa_trans; [eapply foldM_Pa; [|exact E]|].
  - intros ? ? ? HH; exact (process_Pa HH).
  - eapply sann_loop_Pa; exact E2.
Qed.
Lemma loop_Ps f n (s s1 s' : sys N) b :
  (forall l i l' b, f s1 l i = Ok (l', b) -> Pa l l') ->
  Ps s s1 ->
  ('(l, ok) <- loop_atoms (f s1) n (s_atoms s1) ;; Ok (s1 <| s_atoms := l |>, ok)) = Ok (s', b) -> Ps s s'.
Proof.
  intros Hf HP. destruct (loop_atoms _ _ _) as [[l ok]|] eqn:E; cbn [bind]; [|discriminate].
  intros [= <- _]. apply loop_Pa in E; auto. eapply Ps_trans; [exact HP|]. split; [exact E|reflexivity].
Qed.
Lemma bynumber_Ps s t k asg s' b : get_all_neighbors_bynumber srt s t k asg = Ok (s', b) -> Ps s s'.
Proof.
  unfold get_all_neighbors_bynumber. cbv zeta.
  destruct (get_temp_neighbors _) as [s1|] eqn:E; cbn [bind]; [|discriminate]. apply get_temp_Ps in E.
  apply (@loop_Ps (fun s1 => bynumber_atom srt s1 k asg)); [intros; eapply bynumber_atom_Pa; eauto|].
  eapply Ps_trans; [|exact E]. split; [apply Pa_refl|reflexivity].
Qed.
Lemma adaptive_Ps s t k pad s' b : get_all_neighbors_adaptive srt s t k pad = Ok (s', b) -> Ps s s'.
Proof.
  unfold get_all_neighbors_adaptive. cbv zeta.
  destruct (get_temp_neighbors _) as [s1|] eqn:E; cbn [bind]; [|discriminate]. apply get_temp_Ps in E.
  apply (@loop_Ps (fun s1 => adaptive_atom srt s1 k pad)); [intros; eapply adaptive_atom_Pa; eauto|].
  eapply Ps_trans; [|exact E]. split; [apply Pa_refl|reflexivity].
Qed.
Lemma sann_Ps s t s' b : get_all_neighbors_sann srt s t = Ok (s', b) -> Ps s s'.
Proof.
  unfold get_all_neighbors_sann. cbv zeta.
  destruct (get_temp_neighbors _) as [s1|] eqn:E; cbn [bind]; [|discriminate]. apply get_temp_Ps in E.
  apply (@loop_Ps (fun s1 => sann_atom srt s1)); [intros; eapply sann_atom_Pa; eauto|].
  eapply Ps_trans; [|exact E]. split; [apply Pa_refl|reflexivity].
Qed.
Lemma sann_retry_Ps is t : forall s s' b, sann_retry srt is s t = Ok (s', b) -> Ps s s'.
Proof.
  induction is as [|i is IH]; intros s s' b; cbn [sann_retry]; [intros [= <- _]; apply Ps_refl|].
  destruct (reset_all_neighbors s) as [s1|] eqn:E1; cbn [bind]; [|discriminate].
  destruct (get_all_neighbors_sann _ _ _) as [[s2 ok]|] eqn:E2; cbn [bind]; [|discriminate].
  apply reset_Ps in E1. apply sann_Ps in E2.
  destruct ok; intros E.
  - injection E as <- _. eapply Ps_trans; eauto.
  - eapply Ps_trans; [exact E1|]. eapply Ps_trans; [exact E2|]. eapply IH; exact E.
Qed.
Lemma voronoi_Ps s s' : get_all_neighbors_voronoi voro area_pow s = Ok s' -> Ps s s'.
Proof.
  unfold get_all_neighbors_voronoi. cbv zeta.
  destruct (foldM _ _ _) as [l|] eqn:E; cbn [bind]; [|discriminate]. intros [= <-].
  apply foldM_Pa in E; [split; [exact E|reflexivity]|].
  intros x i y. cbv beta. destruct (voro_atom _ _ _ _) as [[ns|]|]; cbn [bind]; intros [= <-]; [|apply Pa_refl].
  apply Pa_upd. reflexivity.
Qed.

(** The box members are what setting the box again produces. *)
Definition box_settled (s : sys N) : Prop := box_set inv s (s_box s) = Ok s.
Lemma box_settled_Ps s s' : box_settled s -> Ps s s' -> box_settled s'.
Proof.
  unfold box_settled. intros H [_ K].
  assert (Eb : s_box s' = s_box s) by (apply (f_equal (@s_box N)) in K; now cbn in K).
  rewrite Eb. unfold box_set in *. destruct (nltb _ _).
  - destruct (inv _) as [ri|]; [|discriminate].
    assert (H' := f_equal (fun r => match r with Ok x => x | Err _ => s end) H). cbn beta iota in H'.
    assert (K1 : sys_keep (sbox (assign_triclinic_params s (mtrans (s_box s)) ri) (s_box s)) = sys_keep s)
      by now rewrite H'. rewrite K in K1.
    destruct s, s'. cbn in *. injection K1. injection K. intros. subst. reflexivity.
  - assert (H' := f_equal (fun r => match r with Ok x => x | Err _ => s end) H). cbn beta iota in H'.
    assert (K1 : sys_keep (sbox s (s_box s)) = sys_keep s) by now rewrite H'. rewrite K in K1.
    destruct s, s'. cbn in *. injection K1. injection K. intros. subst. reflexivity.
Qed.

Definition searches := find_neighbors srt voro area_pow inv.

Lemma found_Ps s x : found s = Ok x -> Ps s (fst x).
Proof. unfold found. intros [= <-]. split; [apply Pa_refl|reflexivity]. Qed.

(** The search does not embed the cell in a larger one. *)
Definition no_embed (s : sys N) (args : fn_args N) : Prop :=
  match fa_method args with MVoronoi _ => s_tri s = false \/ s_ghosts_created s = true | _ => True end.
Lemma no_embed_Ps s s' args : Ps s s' -> no_embed s args -> no_embed s' args.
Proof.
  intros [_ K]. unfold no_embed. destruct (fa_method args); auto.
  assert (E1 : s_tri s' = s_tri s) by (apply (f_equal (@s_tri N)) in K; now cbn in K).
  assert (E2 : s_ghosts_created s' = s_ghosts_created s) by (apply (f_equal (@s_ghosts_created N)) in K; now cbn in K).
  now rewrite E1, E2.
Qed.

Theorem find_Ps s args s' e : box_settled s -> no_embed s args ->
  searches s args = Ok (s', e) -> Ps s s'.
Proof.
  intros HB HE0. unfold searches, find_neighbors.
  destruct (reset_all_neighbors s) as [s0|] eqn:E0; cbn [bind]; [|discriminate]. apply reset_Ps in E0.
  cbv zeta. set (s1 := s0 <| s_filter := _ |>).
  assert (P1 : Ps s s1) by (eapply Ps_trans; [exact E0|]; split; [apply Pa_refl|reflexivity]).
  clearbody s1. clear E0 s0.
  assert (PC : forall b, Ps s (s1 <| s_usecells := b |>))
    by (intros; eapply Ps_trans; [exact P1|]; split; [apply Pa_refl|reflexivity]).
  assert (HE : forall x, Ok (s1, Some x) = Ok (s', e) -> Ps s s') by (intros x [= <- _]; exact P1).
  assert (HA : forall b t k pad,
    ('(s, ok) <- get_all_neighbors_adaptive srt (s1 <| s_usecells := b |>) t k pad ;;
          if ok then found s else Ok (s, Some RuntimeError)) = Ok (s', e) -> Ps s s').
  { intros b t k pad. destruct (get_all_neighbors_adaptive _ _ _ _ _) as [[s2 ok]|] eqn:E; cbn [bind]; [|discriminate].
    apply adaptive_Ps in E. destruct ok.
    - intros F. apply found_Ps in F. eapply Ps_trans; [apply PC|]. eapply Ps_trans; eauto.
    - intros [= <- _]. eapply Ps_trans; [apply PC|]. eauto. }
  unfold no_embed in HE0. destruct (fa_method args) as [[| | | |c]|nmax asg|mem|].
  - apply HE.
  - destruct (nltb _ _); [apply HE|].
    destruct (get_all_neighbors_sann _ _ _) as [[s2 ok]|] eqn:E; cbn [bind]; [|discriminate].
    apply sann_Ps in E. assert (P2 : Ps s s2) by (eapply Ps_trans; [apply PC|exact E]).
    destruct ok; [intros F; apply found_Ps in F; eapply Ps_trans; eauto|].
    destruct (sann_retry _ _ _ _) as [[s3 ok]|] eqn:E3; cbn [bind]; [|discriminate].
    apply sann_retry_Ps in E3. assert (P3 : Ps s s3) by (eapply Ps_trans; eauto).
    destruct ok; [intros F; apply found_Ps in F; eapply Ps_trans; eauto|]. intros [= <- _]; exact P3.
  - destruct (nltb _ _); [apply HE|]. apply HA.
  - apply HE.
  - destruct (neqb _ _).
    + destruct (nltb _ _); [apply HE|]. apply HA.
    + set (s2 := s1 <| s_nd := c |>).
      assert (P2 : Ps s s2) by (eapply Ps_trans; [exact P1|]; split; [apply Pa_refl|reflexivity]).
      clearbody s2.
      destruct (if Z.ltb _ _ then _ else _) as [s3|] eqn:E; cbn [bind]; [|discriminate].
      assert (P3 : Ps s s3) by (eapply Ps_trans; [exact P2|];
        destruct (Z.ltb _ _) in E; [apply cells_Ps|apply normal_Ps]; exact E).
      intros F; apply found_Ps in F; eapply Ps_trans; eauto.
  - destruct (nltb _ _); [apply HE|].
    destruct (get_all_neighbors_bynumber _ _ _ _ _) as [[s2 ok]|] eqn:E; cbn [bind]; [|discriminate].
    apply bynumber_Ps in E. assert (P2 : Ps s s2) by (eapply Ps_trans; [apply PC|exact E]).
    destruct ok; [intros F; apply found_Ps in F; eapply Ps_trans; eauto|]. intros [= <- _]; exact P2.
  - assert (HE1 : s_tri s1 && negb (s_ghosts_created s1) = false).
    { destruct P1 as [_ K]. assert (E1 : s_tri s1 = s_tri s) by (apply (f_equal (@s_tri N)) in K; now cbn in K).
      assert (E2 : s_ghosts_created s1 = s_ghosts_created s) by (apply (f_equal (@s_ghosts_created N)) in K; now cbn in K).
      rewrite E1, E2. destruct HE0 as [-> | ->]; [reflexivity|apply Bool.andb_false_r]. }
    unfold embed_triclinic. rewrite HE1. cbn [bind].
    destruct (get_all_neighbors_voronoi _ _ _) as [s2|] eqn:E; cbn [bind]; [|discriminate].
    apply voronoi_Ps in E. assert (P2 : Ps s s2) by (eapply Ps_trans; eauto).
    assert (B2 : box_settled s2) by (eapply box_settled_Ps; [|exact P2]; auto).
    assert (Eb : s_box s1 = s_box s2) by (destruct E as [_ E]; apply (f_equal (@s_box N)) in E; now cbn in E).
    rewrite Eb, B2. cbn [bind]. intros F; apply found_Ps in F; eapply Ps_trans; eauto.
  - intros F; apply found_Ps in F; eapply Ps_trans; eauto.
Qed.

(** One earlier call: a search (whose Python exception, if any, is caught) or
    reset_neighbors. *)
Definition earlier (s : sys N) (c : option (fn_args N)) : res (sys N) :=
  match c with
  | Some a => '(s, _) <- searches s a ;; Ok s
  | None => reset_neighbors s
  end.
Theorem history s calls s' args :
  stored s -> box_settled s -> (forall a, In (Some a) calls -> no_embed s a) ->
  foldM earlier calls s = Ok s' ->
  resR same_outcome (searches s args) (searches s' args).
Proof.
  intros St B HN E. apply find_neighbors_R; auto.
  assert (G : forall cs x y, box_settled x -> (forall a, In (Some a) cs -> no_embed x a) -> foldM earlier cs x = Ok y -> Ps x y).
  { induction cs as [|c cs IH]; cbn [foldM]; intros x y Bx Nx F.
    - injection F as <-. apply Ps_refl.
    - destruct (earlier x c) as [z|] eqn:E0; cbn [bind] in F; [|discriminate].
      assert (P1 : Ps x z).
      { destruct c as [c|]; cbn [earlier] in E0.
        - destruct (searches x c) as [[z' e]|] eqn:E1; cbn [bind] in E0; [|discriminate].
          injection E0 as <-. eapply find_Ps; eauto. apply Nx. now left.
        - unfold reset_neighbors in E0.
          destruct (reset_all_neighbors x) as [z'|] eqn:E1; cbn [bind] in E0; [|discriminate].
          injection E0 as <-. apply reset_Ps in E1. eapply Ps_trans; [exact E1|].
          split; [apply Pa_refl|reflexivity]. }
      eapply Ps_trans; [exact P1|]. eapply IH; eauto; [eapply box_settled_Ps; eauto|].
      intros a Ha. eapply no_embed_Ps; [exact P1|]. apply Nx. now right. }
  apply Ps_same. eapply G; eauto.
Qed.

Lemma box_set_settled s0 b s : box_set inv s0 b = Ok s -> box_settled s.
Proof.
  unfold box_settled, box_set. destruct (nltb (nlit 1 1000000) (nabs (cos_sum b))) eqn:E.
  - destruct (inv (mtrans b)) as [ri|] eqn:Ei; [|discriminate]. intros [= <-].
    change (s_box (sbox (assign_triclinic_params s0 (mtrans b) ri) b)) with b.
    rewrite E, Ei. reflexivity.
  - intros [= <-]. change (s_box (sbox s0 b)) with b. rewrite E. reflexivity.
Qed.
Lemma set_atoms_settled s l : box_settled s -> box_settled (set_atoms s l).
Proof.
  unfold box_settled, box_set. change (s_box (set_atoms s l)) with (s_box s).
  destruct (nltb _ _).
  - destruct (inv _) as [ri|]; [|discriminate]. intros E.
    assert (E' := f_equal (fun r => match r with Ok x => x | Err _ => s end) E). cbn beta iota in E'.
    apply (f_equal (fun s => set_atoms s l)) in E'. f_equal. exact E'.
  - intros E. assert (E' := f_equal (fun r => match r with Ok x => x | Err _ => s end) E). cbn beta iota in E'.
    apply (f_equal (fun s => set_atoms s l)) in E'. f_equal. exact E'.
Qed.
End H.
