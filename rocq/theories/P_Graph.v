(** Small graphs: the signatures of common neighbour analysis determine the
    bond graph, and do not depend on the order of the atoms. *)
From Coq Require Import Lia Permutation.
From Verif Require Import Base S_CNA.
Set Implicit Arguments.
Unset Strict Implicit.

Lemma In_pairs n i j : In (i, j) (pairs n) <-> i < j /\ j < n.
Proof.
  unfold pairs. rewrite in_flat_map. split.
  - intros (a & Ha & H). unfold pairs_from in H. apply in_map_iff in H as (b & E & Hb).
    inversion E; subst. apply in_seq in Ha, Hb. lia.
  - intros [H1 H2]. exists i. split; [apply in_seq; lia|]. unfold pairs_from. apply in_map_iff.
    exists j. split; auto. apply in_seq. lia.
Qed.

(** ** picks *)
Lemma picks_map {A B} (f : A -> B) l : picks (map f l) = map (fun p => (f (fst p), map f (snd p))) (picks l).
Proof.
  induction l as [|x l IH]; simpl; auto. f_equal. rewrite IH, !map_map. apply map_ext. now intros [].
Qed.
Lemma length_picks {A} (l : list A) : length (picks l) = length l.
Proof. induction l; simpl; auto. now rewrite map_length, IHl. Qed.
Lemma picks_perm_one {A} (l : list A) p : In p (picks l) -> Permutation (fst p :: snd p) l.
Proof.
  revert p; induction l as [|x l IH]; simpl; [tauto|]. intros p [<-|H]; auto.
  apply in_map_iff in H as ([y r] & <- & H). simpl. rewrite perm_swap. constructor. now apply (IH (y, r)).
Qed.
Lemma nth_picks {A} (l : list A) k x : nth_error l k = Some x ->
  nth_error (picks l) k = Some (x, firstn k l ++ skipn (S k) l).
Proof.
  revert k; induction l as [|y l IH]; intros [|k] H; simpl in *; try discriminate.
  - now inversion H.
  - rewrite nth_error_map, (IH k H). simpl. now destruct l.
Qed.

Definition pick_ok {A B} (f : A * list A -> B) : Prop :=
  forall x r r', Permutation r r' -> f (x, r) = f (x, r').
Lemma picks_perm {A B} (l l' : list A) : Permutation l l' ->
  forall f : A * list A -> B, pick_ok f -> Permutation (map f (picks l)) (map f (picks l')).
Proof.
  induction 1 as [|x l l' HP IH|x y l|l l' l'' H1 IH1 H2 IH2]; intros f Hf; simpl; auto.
  - rewrite (Hf x l l' HP). constructor. rewrite !map_map. apply (IH (fun p => f (fst p, x :: snd p))).
    intros z r r' Hr. simpl. apply Hf. now constructor.
  - rewrite perm_swap. apply Permutation_refl'. f_equal. f_equal.
    rewrite !map_map. apply map_ext. intros [z r]. simpl. apply Hf. constructor.
  - transitivity (map f (picks l')); auto.
Qed.

Lemma filter_perm {A} (f : A -> bool) l l' : Permutation l l' -> Permutation (filter f l) (filter f l').
Proof.
  induction 1; simpl; auto.
  - destruct (f x); auto.
  - destruct (f x), (f y); auto. constructor.
  - etransitivity; eauto.
Qed.
Lemma maximum_perm l l' : Permutation l l' -> maximum l = maximum l'.
Proof. unfold maximum. induction 1; simpl; auto; lia. Qed.
Lemma minimum_perm t l l' : Permutation l l' -> minimum l t = minimum l' t.
Proof. unfold minimum. induction 1; simpl; auto; lia. Qed.

(** ** Signatures *)
Definition gsig {A} (near : A -> A -> bool) (l : list A) : nat * nat * nat * nat :=
  (length l, bonds near l, maximum (degrees near l), minimum (degrees near l) 8).

Section Sym.
Variable A : Type.
Variable near : A -> A -> bool.
Hypothesis sym : forall x y, near x y = near y x.

Lemma bonds_perm l l' : Permutation l l' -> bonds near l = bonds near l'.
Proof.
  induction 1 as [|x l l' HP IH|x y l|]; simpl; auto.
  - rewrite IH. f_equal. apply Permutation_length. now apply filter_perm.
  - rewrite (sym x y). destruct (near y x); simpl; lia.
  - congruence.
Qed.
Lemma degrees_perm l l' : Permutation l l' -> Permutation (degrees near l) (degrees near l').
Proof.
  intros H. apply (picks_perm H). intros x r r' Hr. apply Permutation_length. now apply filter_perm.
Qed.
Lemma gsig_perm l l' : Permutation l l' -> gsig near l = gsig near l'.
Proof.
  intros H. unfold gsig. pose proof (degrees_perm H) as D.
  now rewrite (Permutation_length H), (bonds_perm H), (maximum_perm D), (minimum_perm 8 D).
Qed.
Lemma common_perm x r r' : Permutation r r' -> Permutation (common near (x, r)) (common near (x, r')).
Proof. intros H. now apply filter_perm. Qed.
Lemma sigs_perm l l' : Permutation l l' ->
  Permutation (map (fun p => gsig near (common near p)) (picks l))
              (map (fun p => gsig near (common near p)) (picks l')).
Proof. intros H. apply (picks_perm H). intros x r r' Hr. now apply gsig_perm, common_perm. Qed.
End Sym.

Lemma degrees_map {A B} (near : B -> B -> bool) (f : A -> B) l :
  degrees near (map f l) = degrees (fun x y => near (f x) (f y)) l.
Proof.
  unfold degrees. rewrite picks_map, map_map. apply map_ext. intros [x r]. unfold common. simpl.
  induction r; simpl; auto. destruct (near (f x) (f a)); simpl; auto.
Qed.
Lemma bonds_map {A B} (near : B -> B -> bool) (f : A -> B) l :
  bonds near (map f l) = bonds (fun x y => near (f x) (f y)) l.
Proof.
  induction l as [|x l IH]; simpl; auto. rewrite IH. f_equal. clear.
  induction l; simpl; auto. destruct (near (f x) (f a)); simpl; auto.
Qed.
Lemma gsig_map {A B} (near : B -> B -> bool) (f : A -> B) l :
  gsig near (map f l) = gsig (fun x y => near (f x) (f y)) l.
Proof. unfold gsig. now rewrite map_length, bonds_map, !degrees_map. Qed.

Section Ext.
Variable A : Type.
Variables near near' : A -> A -> bool.
Lemma filter_length_ext (x : A) l : (forall y, In y l -> near x y = near' x y) ->
  length (filter (near x) l) = length (filter (near' x) l).
Proof. intros H. f_equal. now apply filter_ext_in. Qed.
Lemma bonds_ext l : NoDup l -> (forall x y, In x l -> In y l -> x <> y -> near x y = near' x y) ->
  bonds near l = bonds near' l.
Proof.
  induction 1 as [|x l Hn Hd IH]; intros H; simpl; auto. rewrite IH.
  - f_equal. apply filter_length_ext. intros y Hy. apply H; simpl; auto. intros ->; contradiction.
  - intros; apply H; simpl; auto.
Qed.
Lemma degrees_ext l : NoDup l -> (forall x y, In x l -> In y l -> x <> y -> near x y = near' x y) ->
  degrees near l = degrees near' l.
Proof.
  intros Hd H. unfold degrees. apply map_ext_in. intros [x r] Hp. apply picks_perm_one in Hp as HP.
  simpl in HP. apply filter_length_ext. intros y Hy. simpl in *.
  assert (ND : NoDup (x :: r)) by (eapply Permutation_NoDup; [symmetry; exact HP|auto]).
  inversion ND; subst. apply H; [apply (Permutation_in _ HP); now left|apply (Permutation_in _ HP); now right|].
  intros ->; contradiction.
Qed.
Lemma gsig_ext l : NoDup l -> (forall x y, In x l -> In y l -> x <> y -> near x y = near' x y) ->
  gsig near l = gsig near' l.
Proof. intros Hd H. unfold gsig. now rewrite (bonds_ext Hd H), (degrees_ext Hd H). Qed.
End Ext.

(** ** Enumerating small graphs *)
Fixpoint allb (k : nat) (f : list bool -> bool) : bool :=
  match k with
  | 0 => f []
  | S k => if allb k (fun l => f (true :: l)) then allb k (fun l => f (false :: l)) else false
  end.
Lemma allb_ok k : forall f, allb k f = true -> forall m, length m = k -> f m = true.
Proof.
  induction k as [|k IH]; intros f H [|b m] E; simpl in *; try discriminate; auto.
  destruct (allb k (fun l => f (true :: l))) eqn:E1; [|discriminate].
  destruct b; [apply (IH (fun l => f (true :: l)))|apply (IH (fun l => f (false :: l)))]; auto.
Qed.

Fixpoint inserts (x : nat) (l : list nat) : list (list nat) :=
  match l with [] => [[x]] | y :: l' => (x :: l) :: map (cons y) (inserts x l') end.
Fixpoint perms (l : list nat) : list (list nat) :=
  match l with [] => [[]] | x :: l => flat_map (inserts x) (perms l) end.
Lemma inserts_ok x l p : In p (inserts x l) -> Permutation (x :: l) p.
Proof.
  revert p; induction l as [|y l IH]; simpl; intros p.
  - intros [<-|[]]; auto.
  - intros [<-|H]; auto. apply in_map_iff in H as (q & <- & H). apply IH in H.
    rewrite perm_swap. now constructor.
Qed.
Lemma perms_ok l p : In p (perms l) -> Permutation l p.
Proof.
  revert p; induction l as [|x l IH]; simpl; intros p; [intros [<-|[]]; auto|].
  intros H. apply in_flat_map in H as (q & Hq & H). apply inserts_ok in H. rewrite <- H.
  constructor. now apply IH.
Qed.

Definition pair_eqb (p q : nat * nat) : bool := Nat.eqb (fst p) (fst q) && Nat.eqb (snd p) (snd q).
Fixpoint lookup (ps : list (nat * nat)) (m : list bool) (p : nat * nat) : bool :=
  match ps, m with
  | q :: ps, b :: m => if pair_eqb p q then b else lookup ps m p
  | _, _ => false
  end.
Lemma pair_eqb_true p q : pair_eqb p q = true <-> p = q.
Proof.
  destruct p, q. unfold pair_eqb. simpl. rewrite andb_true_iff, !Nat.eqb_eq. split; [intros []|intros E; inversion E]; subst; auto.
Qed.
Lemma lookup_map ps f p : In p ps -> lookup ps (map f ps) p = f p.
Proof.
  induction ps as [|q ps IH]; simpl; [tauto|]. intros H. destruct (pair_eqb p q) eqn:E.
  - apply pair_eqb_true in E. now subst.
  - destruct H as [->|H]; auto. assert (pair_eqb p p = true) by now apply pair_eqb_true. congruence.
Qed.
Definition adj (n : nat) (m : list bool) (i j : nat) : bool :=
  if i <? j then lookup (pairs n) m (i, j) else lookup (pairs n) m (j, i).
Definition mem (es : list (nat * nat)) (i j : nat) : bool :=
  existsb (pair_eqb (i, j)) es || existsb (pair_eqb (j, i)) es.
Lemma mem_true es i j : mem es i j = true <-> In (i, j) es \/ In (j, i) es.
Proof.
  unfold mem. rewrite orb_true_iff, !existsb_exists. split.
  - intros [(p & H & E)|(p & H & E)]; apply pair_eqb_true in E; subst; auto.
  - intros [H|H]; [left|right]; eexists; split; eauto; now apply pair_eqb_true.
Qed.
Lemma mem_sym es i j : mem es i j = mem es j i.
Proof. unfold mem. apply orb_comm. Qed.
(** existsb and forallb that stop early under call by value. *)
Fixpoint some {A} (f : A -> bool) (l : list A) : bool :=
  match l with [] => false | a :: l => if f a then true else some f l end.
Fixpoint every {A} (f : A -> bool) (l : list A) : bool :=
  match l with [] => true | a :: l => if f a then every f l else false end.
Lemma some_exists {A} (f : A -> bool) l : some f l = true <-> exists x, In x l /\ f x = true.
Proof. rewrite <- existsb_exists. assert (some f l = existsb f l) as ->; [|tauto]. induction l; simpl; auto; destruct (f a); auto. Qed.
Lemma every_forall {A} (f : A -> bool) l : every f l = true <-> forall x, In x l -> f x = true.
Proof. rewrite <- forallb_forall. assert (every f l = forallb f l) as ->; [|tauto]. induction l; simpl; auto; destruct (f a); auto. Qed.
Definition fits (n : nat) (m : list bool) (es : list (nat * nat)) (p : list nat) : bool :=
  every (fun ij => Bool.eqb (adj n m (nth (fst ij) p 0) (nth (snd ij) p 0)) (mem es (fst ij) (snd ij)))
          (pairs n).
Definition check (tgt : (nat -> nat -> bool) -> bool) (n : nat) (ess : list (list (nat * nat)))
    (m : list bool) : bool :=
  if tgt (adj n m) then some (fun es => some (fits n m es) (perms (seq 0 n))) ess else true.

Lemma map_nth_seq {A} (l : list A) d : map (fun i => nth i l d) (seq 0 (length l)) = l.
Proof.
  induction l as [|x l IH]; auto. simpl. f_equal. rewrite <- seq_shift, map_map. exact IH.
Qed.

Section Shapes.
Variable A : Type.
Variable near : A -> A -> bool.
Hypothesis sym : forall x y, near x y = near y x.

Definition matrix (l : list A) d : list bool :=
  map (fun p => near (nth (fst p) l d) (nth (snd p) l d)) (pairs (length l)).
Lemma adj_matrix l d i j : i < length l -> j < length l -> i <> j ->
  adj (length l) (matrix l d) i j = near (nth i l d) (nth j l d).
Proof.
  intros Hi Hj Hij. unfold adj, matrix.
  destruct (Nat.ltb_spec i j); rewrite lookup_map; auto; try apply In_pairs; simpl; lia || auto.
Qed.
Lemma gsig_matrix l d : gsig near l = gsig (adj (length l) (matrix l d)) (seq 0 (length l)).
Proof.
  rewrite <- (map_nth_seq l d) at 1. rewrite gsig_map. apply gsig_ext; [apply seq_NoDup|].
  intros i j Hi Hj Hij. apply in_seq in Hi, Hj. symmetry. apply adj_matrix; lia.
Qed.
Lemma degrees_matrix l d : degrees near l = degrees (adj (length l) (matrix l d)) (seq 0 (length l)).
Proof.
  rewrite <- (map_nth_seq l d) at 1. rewrite degrees_map. apply degrees_ext; [apply seq_NoDup|].
  intros i j Hi Hj Hij. apply in_seq in Hi, Hj. symmetry. apply adj_matrix; lia.
Qed.

Lemma nth_error_seq_perm n p i : Permutation (seq 0 n) p -> i < n -> nth i p 0 < n.
Proof.
  intros HP Hi. assert (H : In (nth i p 0) p) by (apply nth_In; rewrite <- (Permutation_length HP), seq_length; auto).
  apply (Permutation_in _ (Permutation_sym HP)) in H. apply in_seq in H. lia.
Qed.
Lemma nth_perm_inj n p i j : Permutation (seq 0 n) p -> i < n -> j < n -> i <> j -> nth i p 0 <> nth j p 0.
Proof.
  intros HP Hi Hj Hij E. apply Hij.
  assert (ND : NoDup p) by (eapply Permutation_NoDup; [exact HP|apply seq_NoDup]).
  assert (L : length p = n) by (rewrite <- (Permutation_length HP), seq_length; auto).
  apply (NoDup_nth p 0); auto; lia.
Qed.
Lemma nth_error_map_nth (l : list A) d p i x : nth_error (map (fun k => nth k l d) p) i = Some x ->
  i < length p /\ x = nth (nth i p 0) l d.
Proof.
  intros H. rewrite nth_error_map in H. destruct (nth_error p i) as [k|] eqn:E; [|discriminate].
  simpl in H. inversion H; subst. split; [apply nth_error_Some; congruence|].
  now rewrite (nth_error_nth p i 0 E).
Qed.

Lemma check_shape tgt n ess : allb (length (pairs n)) (check tgt n ess) = true ->
  forall l d, length l = n -> tgt (adj n (matrix l d)) = true -> exists es, In es ess /\ shape near n es l.
Proof.
  intros H l d Hl Ht. pose proof (allb_ok H (m := matrix l d)) as C.
  assert (Hm : length (matrix l d) = length (pairs n)) by (unfold matrix; rewrite map_length, Hl; auto).
  specialize (C Hm). unfold check in C. rewrite Ht in C.
  apply some_exists in C as (es & Hes & C). exists es. split; auto.
  apply some_exists in C as (p & Hp & C). apply perms_ok in Hp.
  assert (Hpl : length p = n) by (rewrite <- (Permutation_length Hp), seq_length; auto).
  split; auto. exists (map (fun k => nth k l d) p). split.
  - rewrite <- (map_nth_seq l d) at 1. rewrite Hl. now apply Permutation_map.
  - intros i j x y Hij Hx Hy. apply nth_error_map_nth in Hx as [Hi ->], Hy as [Hj ->].
    rewrite Hpl in Hi, Hj.
    assert (F : forall i j, i < j -> j < n ->
      near (nth (nth i p 0) l d) (nth (nth j p 0) l d) = mem es i j).
    { intros a b Hab Hb. unfold fits in C. rewrite every_forall in C.
      specialize (C (a, b)). simpl in C. rewrite <- adj_matrix.
      - rewrite Hl. apply eqb_prop, C. apply In_pairs. lia.
      - rewrite Hl. apply nth_error_seq_perm; auto. lia.
      - rewrite Hl. now apply nth_error_seq_perm.
      - apply (nth_perm_inj Hp); lia. }
    rewrite <- mem_true. destruct (Nat.lt_ge_cases i j) as [Hlt|Hge].
    + now rewrite F.
    + rewrite sym, F, mem_sym by lia. tauto.
Qed.

Lemma shape_gsig n es l : shape near n es l -> gsig near l = gsig (mem es) (seq 0 n).
Proof.
  intros [Hl (l' & HP & Ha)]. rewrite (gsig_perm sym HP).
  assert (Hl' : length l' = n) by (rewrite <- (Permutation_length HP); auto).
  destruct l' as [|d l'']; [subst n; rewrite <- Hl'; reflexivity|].
  set (m := d :: l'') in *. rewrite <- (map_nth_seq m d) at 1. rewrite Hl', gsig_map.
  apply gsig_ext; [apply seq_NoDup|]. intros i j Hi Hj Hij. apply in_seq in Hi, Hj.
  assert (E : forall k, k < n -> nth_error m k = Some (nth k m d)) by (intros; apply nth_error_nth'; lia).
  pose proof (Ha i j _ _ Hij (E i ltac:(lia)) (E j ltac:(lia))) as C. rewrite <- mem_true in C.
  destruct (near _ _), (mem es i j); auto; destruct C as [C1 C2]; auto; symmetry; auto.
Qed.

(** Regular graphs. *)
Definition all_deg (n d : nat) (a : nat -> nat -> bool) : bool :=
  (fix go (l : list (nat * list nat)) : bool :=
     match l with [] => true | p :: l => if Nat.eqb (length (common a p)) d then go l else false end)
  (picks (seq 0 n)).
Lemma all_deg_true n d a : Forall (eq d) (degrees a (seq 0 n)) -> all_deg n d a = true.
Proof.
  unfold degrees, all_deg. induction (picks (seq 0 n)) as [|p l IH]; simpl; auto.
  intros H. inversion H as [|? ? E H']; subst. rewrite Nat.eqb_refl. auto.
Qed.
Lemma max_min_eq d l : maximum l = d -> minimum l 8 = d -> Forall (eq d) l.
Proof.
  intros H1 H2. apply Forall_forall. intros x Hx.
  assert (x <= maximum l) by (clear H1 H2; unfold maximum; induction l; simpl in *; [tauto|]; destruct Hx; subst; try specialize (IHl H); lia).
  assert (minimum l 8 <= x) by (clear H1 H2 H; unfold minimum; induction l; simpl in *; [tauto|]; destruct Hx; subst; try specialize (IHl H); lia).
  lia.
Qed.
Lemma regular_shape n d ess : 0 < n -> allb (length (pairs n)) (check (all_deg n d) n ess) = true ->
  forall l b, gsig near l = (n, b, d, d) -> exists es, In es ess /\ shape near n es l.
Proof.
  intros Hn H l b E. unfold gsig in E. assert (E1 : length l = n) by congruence.
  assert (E3 : maximum (degrees near l) = d) by congruence.
  assert (E4 : minimum (degrees near l) 8 = d) by congruence.
  destruct l as [|x l]; [simpl in E1; lia|].
  apply (check_shape (tgt := all_deg n d) H (d := x)); auto. apply all_deg_true.
  pose proof (max_min_eq E3 E4) as F. rewrite (degrees_matrix (x :: l) x), E1 in F. exact F.
Qed.

Definition chain_tgt (a : nat -> nat -> bool) : bool :=
  match gsig a (seq 0 4) with (4, 2, 2, 0) => true | _ => false end.

Theorem sig_4211 l : gsig near l = (4, 2, 1, 1) <-> two_bonds near l.
Proof.
  split.
  - intros E. assert (C : allb (length (pairs 4)) (check (all_deg 4 1) 4 [[(0, 1); (2, 3)]]) = true)
      by (vm_compute; reflexivity).
    destruct (regular_shape (Nat.lt_0_succ _) C E) as (es & [<-|[]] & H). exact H.
  - intros H. rewrite (shape_gsig H). reflexivity.
Qed.
Theorem sig_4220 l : gsig near l = (4, 2, 2, 0) <-> chain_of_two near l.
Proof.
  split.
  - intros E. assert (C : allb (length (pairs 4)) (check chain_tgt 4 [[(0, 1); (1, 2)]]) = true)
      by (vm_compute; reflexivity).
    assert (E1 : length l = 4) by (inversion E; auto). destruct l as [|x l]; [discriminate|].
    assert (T : chain_tgt (adj 4 (matrix (x :: l) x)) = true).
    { unfold chain_tgt. rewrite <- E1 at 2. rewrite <- E1 at 1. rewrite <- gsig_matrix, E. reflexivity. }
    destruct (check_shape C E1 T) as (es & [<-|[]] & H). exact H.
  - intros H. rewrite (shape_gsig H). reflexivity.
Qed.
Theorem sig_5522 l : gsig near l = (5, 5, 2, 2) <-> ring5 near l.
Proof.
  split.
  - intros E. assert (C : allb (length (pairs 5)) (check (all_deg 5 2) 5 [[(0, 1); (1, 2); (2, 3); (3, 4); (4, 0)]]) = true)
      by (vm_compute; reflexivity).
    destruct (regular_shape (Nat.lt_0_succ _) C E) as (es & [<-|[]] & H). exact H.
  - intros H. rewrite (shape_gsig H). reflexivity.
Qed.
Theorem sig_4422 l : gsig near l = (4, 4, 2, 2) <-> ring4 near l.
Proof.
  split.
  - intros E. assert (C : allb (length (pairs 4)) (check (all_deg 4 2) 4 [[(0, 1); (1, 2); (2, 3); (3, 0)]]) = true)
      by (vm_compute; reflexivity).
    destruct (regular_shape (Nat.lt_0_succ _) C E) as (es & [<-|[]] & H). exact H.
  - intros H. rewrite (shape_gsig H). reflexivity.
Qed.
Theorem sig_6622 l : gsig near l = (6, 6, 2, 2) <-> ring6 near l \/ two_triangles near l.
Proof.
  split.
  - intros E. assert (C : allb (length (pairs 6)) (check (all_deg 6 2) 6
        [[(0, 1); (1, 2); (2, 3); (3, 4); (4, 5); (5, 0)]; [(0, 1); (1, 2); (2, 0); (3, 4); (4, 5); (5, 3)]]) = true)
      by (vm_compute; reflexivity).
    destruct (regular_shape (Nat.lt_0_succ _) C E) as (es & [<-|[<-|[]]] & H); [left|right]; exact H.
  - intros [H|H]; rewrite (shape_gsig H); reflexivity.
Qed.
End Shapes.
