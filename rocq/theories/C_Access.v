(** Properties C77-C79: the cutoff of an atom, custom columns, lists of
    Steinhardt's parameters. *)
From Coq Require Import Reals Lra ZArith List Lia Ascii String.
From Coq.Floats Require Import SpecFloat.
From Verif Require Import Base Num NumR NumF NumP Types Ex M_Geometry M_Container M_Neighbors M_Steinhardt M_CNA
  M_Text M_Lammps S_Steinhardt S_Neighbors S_Access P_Neighbors P_Store P_Text P_Centro P_CNAReal C_Neighbors C_Steinhardt.
Import ListNotations.
Close Scope R_scope. Close Scope Z_scope. Close Scope string_scope.
#[local] Open Scope nat_scope.
#[local] Open Scope list_scope.

(** ** C77 The cutoff of an atom *)
Lemma sum_dev m l : fold_right Rplus 0%R (map (fun d => (d - m)%R) l) = (fold_right Rplus 0 l - INR (length l) * m)%R.
Proof.
  induction l as [|x l IH]; [cbn; lra|]. cbn [map fold_right]. rewrite IH. change (length (x :: l)) with (S (length l)). rewrite S_INR. lra.
Qed.
Lemma is_mean_between l m : l <> [] -> is_mean l m ->
  (exists d, In d l /\ (d <= m)%R) /\ (exists d, In d l /\ (m <= d)%R).
Proof.
  unfold is_mean. intros NE E. split.
  - destruct (Exists_dec (fun d => (d <= m)%R) l (fun d => Rle_dec d m)) as [H|H]; [apply Exists_exists; exact H|].
    exfalso. assert (G : forall l : list R, l <> [] -> (forall d, In d l -> (m < d)%R) -> (0 < fold_right Rplus 0 (map (fun d => d - m) l))%R).
    { clear. induction l as [|x l IH]; [congruence|]. intros _ A. cbn [map fold_right].
      pose proof (A x (or_introl eq_refl)). destruct l as [|y l]; [cbn; lra|].
      specialize (IH ltac:(discriminate) (fun d I => A d (or_intror I))). lra. }
    specialize (G l NE). rewrite E in G. apply (Rlt_irrefl 0). apply G. intros d I.
    apply Rnot_le_lt. intros C. apply H. apply Exists_exists. eauto.
  - destruct (Exists_dec (fun d => (m <= d)%R) l (fun d => Rle_dec m d)) as [H|H]; [apply Exists_exists; exact H|].
    exfalso. assert (G : forall l : list R, l <> [] -> (forall d, In d l -> (d < m)%R) -> (fold_right Rplus 0 (map (fun d => d - m) l) < 0)%R).
    { clear. induction l as [|x l IH]; [congruence|]. intros _ A. cbn [map fold_right].
      pose proof (A x (or_introl eq_refl)). destruct l as [|y l]; [cbn; lra|].
      specialize (IH ltac:(discriminate) (fun d I => A d (or_intror I))). lra. }
    specialize (G l NE). rewrite E in G. apply (Rlt_irrefl 0). apply G. intros d I.
    apply Rnot_le_lt. intros C. apply H. apply Exists_exists. eauto.
Qed.

(** set_atom_cutoff changes the cutoffs and nothing else, whatever the numbers. *)
Theorem C77_only_cutoffs : forall (N : num) (s : sys N) (factor : N), stored s ->
  exists s', set_atom_cutoff s factor = Ok s' /\
    s' <| s_atoms := s_atoms s |> = s /\
    map (@but_cutoff N) (s_atoms s') = map (@but_cutoff N) (s_atoms s).
Proof.
  intros N s f ST. unfold set_atom_cutoff. rewrite each_atom_stored by exact ST.
  eexists; split; [reflexivity|]. split.
  - destruct s; reflexivity.
  - cbn. rewrite map_map. apply map_ext. intros a. destruct a; reflexivity.
Qed.
Print Assumptions C77_only_cutoffs.

(** The new cutoff of an atom with neighbours is [factor] times the mean of
    their distances. *)
Theorem C77_mean : forall (s s' : sys Rnum) (factor : R) i a a', stored s ->
  set_atom_cutoff s (factor : Rnum) = Ok s' ->
  nth_error (s_atoms s) i = Some a -> nth_error (s_atoms s') i = Some a' -> a_nbrs a <> [] ->
  exists m : R, is_mean (reach a) m /\ a_cutoff a' = (factor * m)%R.
Proof.
  intros s s' f i a a' ST E Ea Ea' NE. unfold set_atom_cutoff in E. rewrite each_atom_stored in E by exact ST.
  injection E as <-. cbn [s_atoms set] in Ea'. cbn in Ea'. rewrite nth_error_map, Ea in Ea'. cbn in Ea'. injection Ea' as <-.
  cbn [a_cutoff]. eexists; split; [|reflexivity].
  unfold is_mean. rewrite sum_dev. unfold reach. rewrite nsum_R.
  rewrite map_length. change (nofZ (n := Rnum)) with IZR. rewrite <- INR_IZR_INZ.
  set (S := fold_right Rplus 0%R _). set (k := INR _).
  assert (K : k <> 0%R). { unfold k. destruct (a_nbrs a); [congruence|]. apply not_0_INR. discriminate. }
  change (S - k * (S / k) = 0)%R. field. exact K.
Qed.
Print Assumptions C77_mean.

(** So it lies between [factor] times the distances of some two neighbours;
    with a factor of at least one the atom reaches a neighbour. *)
Theorem C77_reach : forall (s s' : sys Rnum) (factor : R) i a a', stored s ->
  set_atom_cutoff s (factor : Rnum) = Ok s' ->
  nth_error (s_atoms s) i = Some a -> nth_error (s_atoms s') i = Some a' -> a_nbrs a <> [] ->
  (0 <= factor)%R ->
  exists near far : R, In near (reach a) /\ In far (reach a) /\
    (factor * near <= a_cutoff a' <= factor * far)%R /\
    ((1 <= factor)%R -> (0 <= near)%R -> (near <= a_cutoff a')%R).
Proof.
  intros s s' f i a a' ST E Ea Ea' NE F. destruct (C77_mean _ _ _ _ _ _ ST E Ea Ea' NE) as (m & M & C).
  assert (NE' : reach a <> []). { unfold reach. destruct (a_nbrs a); [congruence|discriminate]. }
  destruct (is_mean_between _ _ NE' M) as [(d & I & D) (e & J & D')].
  exists d, e. split; [exact I|]. split; [exact J|]. split.
  - replace (a_cutoff a') with (f * m)%R by (symmetry; exact C). split; apply Rmult_le_compat_l; assumption.
  - intros F1 P. replace (a_cutoff a') with (f * m)%R by (symmetry; exact C).
    apply Rle_trans with (f * d)%R; [|apply Rmult_le_compat_l; assumption].
    rewrite <- (Rmult_1_l d) at 1. apply Rmult_le_compat_r; assumption.
Qed.
Print Assumptions C77_reach.

(** Doubles: the cutoff of an atom without neighbours is no number, so that no
    comparison with it holds, whatever the factor. *)
Theorem C77_isolated : forall (L : libm) (s s' : sys (SF64 L)) (factor : SF64 L) i a a', stored s ->
  set_atom_cutoff s factor = Ok s' ->
  nth_error (s_atoms s) i = Some a -> nth_error (s_atoms s') i = Some a' -> a_nbrs a = [] ->
  not_a_number (a_cutoff a') /\ forall x : SF64 L, nleb x (a_cutoff a') = false.
Proof.
  intros L s s' f i a a' ST E Ea Ea' NE. unfold set_atom_cutoff in E. rewrite each_atom_stored in E by exact ST.
  injection E as <-. cbn in Ea'. rewrite nth_error_map, Ea in Ea'. cbn in Ea'. injection Ea' as <-.
  cbn [a_cutoff]. rewrite NE. cbn. unfold not_a_number.
  assert (K : SFmul 53 1024 f S754_nan = S754_nan) by (destruct f; reflexivity).
  match goal with |- ?x = _ /\ _ => replace x with (SFmul 53 1024 f S754_nan) by reflexivity end.
  rewrite K. split; [reflexivity|]. intros x. destruct x; reflexivity.
Qed.
Print Assumptions C77_isolated.

Example q_sys_stored : forall N, stored (q_sys N).
Proof. intros N. reflexivity. Qed.
Example C77_hyp : exists s' a a', set_atom_cutoff (q_sys Rnum) (2 : Rnum)%R = Ok s' /\
  nth_error (s_atoms (q_sys Rnum)) 0 = Some a /\ nth_error (s_atoms s') 0 = Some a' /\ a_nbrs a <> [] /\ (0 <= 2)%R.
Proof.
  destruct (C77_only_cutoffs Rnum (q_sys Rnum) (2%R : Rnum) (q_sys_stored Rnum)) as (s' & E & _ & M).
  assert (K : length (s_atoms s') = 4). { rewrite <- (map_length (@but_cutoff Rnum)), M. reflexivity. }
  destruct (s_atoms s') as [|a' r] eqn:Es; [discriminate|].
  exists s'. eexists. exists a'. split; [exact E|]. split; [reflexivity|]. rewrite Es. split; [reflexivity|]. split; [discriminate|lra].
Qed.
(** The second atom has one neighbour at distance 2. *)
Definition cut_of (N : num) (s : res (sys N)) (i : nat) : option N :=
  match s with Ok s => option_map (fun a => a_cutoff a) (nth_error (s_atoms s) i) | Err _ => None end.
Example C77_runs : cut_of P64 (set_atom_cutoff (q_sys P64) (nofZ 3)) 1 = Some (nofZ 6).
Proof. vm_compute. reflexivity. Qed.
(** An atom that find_neighbors left without neighbours, and its neighbour in the list. *)
Theorem C77_refuted : exists (s s' : sys F64) a', stored s /\
  set_atom_cutoff s (nofZ (n := F64) 1) = Ok s' /\ nth_error (s_atoms s') 0 = Some a' /\ not_a_number (a_cutoff a').
Proof.
  set (s := of_atoms F64 [with_nbrs F64 []]).
  destruct (C77_only_cutoffs F64 s (nofZ (n := F64) 1) eq_refl) as (s' & E & _ & M).
  assert (K : length (s_atoms s') = 1). { rewrite <- (map_length (@but_cutoff F64)), M. reflexivity. }
  destruct (s_atoms s') as [|a' r] eqn:Es; [discriminate|].
  exists s, s', a'. split; [reflexivity|]. split; [exact E|]. rewrite Es. split; [reflexivity|].
  refine (proj1 (C77_isolated libm_test s s' _ 0 (with_nbrs F64 []) a' eq_refl E eq_refl _ eq_refl)).
  exact (f_equal (fun l => nth_error l 0) Es).
Qed.
Print Assumptions C77_refuted.

(** ** C78 Custom columns *)
Section Custom.
Variable N : num.
Variable V : Type.
Variable of_text : text -> V.
Variable of_num : N -> V.
Variable getattr : atom N -> text -> option V.

(** Keys that stand for something are written out in their order. *)
Theorem C78_values : forall (a : atom N) (d : dict text) keys vals,
  Forall2 (column of_text of_num getattr a d) keys vals ->
  get_custom of_text of_num getattr (a, d) keys = Ok vals.
Proof.
  intros a d keys vals H. unfold get_custom. induction H as [|k v ks vs H _ IH]; [reflexivity|].
  cbn [mapM]. rewrite IH.
  assert (E : get_custom1 of_text of_num getattr (a, d) k = Ok v); [|rewrite E; reflexivity].
  unfold get_custom1. cbn [fst snd]. inversion H as [k' v' D|k' v' D A|l v' D A R Q|l v' D A R Q]; subst.
  - rewrite D. reflexivity.
  - rewrite D, A. reflexivity.
  - rewrite D, A. cbn [tx list_ascii_of_string app Ascii.eqb Bool.eqb]. rewrite parse_show_int. cbn [bind].
    unfold atom_get_q, q_range. replace (Z.ltb l 2) with false by (symmetry; apply Z.ltb_ge; lia).
    replace (Z.ltb 12 l) with false by (symmetry; apply Z.ltb_ge; lia). cbn [orb negb].
    unfold zget, get. replace (Z.ltb (l - 2) 0) with false by (symmetry; apply Z.ltb_ge; lia). rewrite Q. reflexivity.
  - rewrite D, A. cbn [tx list_ascii_of_string app Ascii.eqb Bool.eqb andb]. rewrite parse_show_int. cbn [bind].
    unfold atom_get_q, q_range. replace (Z.ltb l 2) with false by (symmetry; apply Z.ltb_ge; lia).
    replace (Z.ltb 12 l) with false by (symmetry; apply Z.ltb_ge; lia). cbn [orb negb].
    unfold zget, get. replace (Z.ltb (l - 2) 0) with false by (symmetry; apply Z.ltb_ge; lia). rewrite Q. reflexivity.
Qed.
(** A key that means nothing is an AttributeError, except for the empty one;
    the keys before it must be known. *)
Theorem C78_meaningless : forall (a : atom N) (d : dict text) keys vals k rest,
  Forall2 (column of_text of_num getattr a d) keys vals -> meaningless getattr a d k ->
  get_custom of_text of_num getattr (a, d) (keys ++ k :: rest) =
    Err (match k with [] => IndexError | _ => AttributeError end).
Proof.
  intros a d keys vals k rest H (D & A & Q & AQ). apply C78_values in H. revert vals H. unfold get_custom.
  induction keys as [|k' ks IH]; intros vals H.
  - cbn [app mapM].
    assert (E : get_custom1 of_text of_num getattr (a, d) k = Err (match k with [] => IndexError | _ => AttributeError end)); [|rewrite E; reflexivity].
    unfold get_custom1. cbn [fst snd]. rewrite D, A. destruct k as [|c k]; [reflexivity|].
    destruct (Ascii.eqb_spec c "q") as [->|]; [destruct (Q k); reflexivity|].
    destruct k as [|c' k]; [reflexivity|].
    destruct (Ascii.eqb_spec c "a") as [->|]; [|reflexivity].
    destruct (Ascii.eqb_spec c' "q") as [->|]; [destruct (AQ k); reflexivity|]. reflexivity.
  - cbn [app mapM] in H |- *. destruct (get_custom1 _ _ _ _ k'); cbn [bind] in H |- *; [|discriminate].
    destruct (mapM _ ks) eqn:E; cbn [bind] in H; [|discriminate]. rewrite (IH _ eq_refl). reflexivity.
Qed.
(** A name that begins with q (aq) is taken for a parameter, so that an
    unknown one, or a parameter that does not exist, is a ValueError. *)
Theorem C78_parameter : forall (a : atom N) (d : dict text) k w,
  k = tx "q" ++ w \/ k = tx "aq" ++ w -> dget d k = None -> getattr a k = None ->
  (parse_int w = Err ValueError \/ exists l, parse_int w = Ok l /\ ~ (2 <= l <= 12)%Z) ->
  get_custom of_text of_num getattr (a, d) [k] = Err ValueError.
Proof.
  intros a d k w H D A W. unfold get_custom. cbn [mapM].
  assert (E : get_custom1 of_text of_num getattr (a, d) k = Err ValueError); [|rewrite E; reflexivity].
  unfold get_custom1. cbn [fst snd]. rewrite D, A.
  assert (G : forall l b, ~ (2 <= l <= 12)%Z -> atom_get_q a l b = Err ValueError).
  { intros l b R. unfold atom_get_q, q_range. destruct (Z.ltb_spec l 2); [reflexivity|]. destruct (Z.ltb_spec 12 l); [reflexivity|]. lia. }
  destruct H as [->| ->]; cbn [tx list_ascii_of_string app Ascii.eqb Bool.eqb andb];
    destruct W as [->|(l & -> & R)]; cbn [bind]; rewrite ?G by exact R; reflexivity.
Qed.
End Custom.
Print Assumptions C78_values.
Print Assumptions C78_meaningless.
Print Assumptions C78_parameter.

(** The documented exception for an unknown key, AttributeError, is not the one
    raised for names that begin with q, or for the empty name. *)
Theorem C78_unknown_refuted : exists (a : atom F64) (d : dict text) (getattr : atom F64 -> text -> option text),
  let run k := get_custom (fun t => t) (fun _ => []) getattr (a, d) [k] in
  (forall k, getattr a k = None) /\ d = [] /\
  run (tx "quality") = Err ValueError /\ run (tx "q13") = Err ValueError /\ run [] = Err IndexError /\
  run (tx "energy") = Err AttributeError.
Proof.
  exists (with_nbrs F64 []), [], (fun _ _ => None). cbv zeta. split; [reflexivity|]. split; [reflexivity|].
  split; [|split; [|split]].
  - apply (C78_parameter F64 text _ _ _ _ _ _ (tx "uality")); [left|..|left]; reflexivity.
  - apply (C78_parameter F64 text _ _ _ _ _ _ (tx "13")); [left; reflexivity|reflexivity..|]. right. exists 13%Z. split; [reflexivity|lia].
  - reflexivity.
  - reflexivity.
Qed.
Print Assumptions C78_unknown_refuted.

Definition attr_ex (a : atom F64) (k : text) : option Z :=
  if teqb k (tx "type") then Some (a_type a) else if teqb k (tx "q") then Some 7%Z else None.
(** Dictionary before attribute before parameter. *)
Example C78_hyp :
  let a := with_nbrs F64 [] <| a_q := [n1; n0; n2] |> in
  Forall2 (column (fun t => Z.of_nat (length t)) (fun x => if neqb x n2 then 2%Z else 0%Z) attr_ex a [(tx "q4", tx "abc"); (tx "mass", tx "55")])
    [tx "q4"; tx "type"; tx "q"; tx "q2"; tx "mass"; tx "q4"] [3; 1; 7; 0; 2; 3]%Z.
Proof.
  cbv zeta.
  constructor; [refine (@col_custom F64 Z (fun t => Z.of_nat (length t)) _ _ _ _ (tx "q4") (tx "abc") _); reflexivity|].
  constructor; [apply col_attribute; reflexivity|].
  constructor; [apply col_attribute; reflexivity|].
  constructor; [refine (@col_q F64 Z _ (fun x => if neqb x n2 then 2%Z else 0%Z) _ _ _ 2%Z n1 _ _ _ _); [reflexivity|reflexivity|lia|reflexivity]|].
  constructor; [refine (@col_custom F64 Z (fun t => Z.of_nat (length t)) _ _ _ _ (tx "mass") (tx "55") _); reflexivity|].
  constructor; [refine (@col_custom F64 Z (fun t => Z.of_nat (length t)) _ _ _ _ (tx "q4") (tx "abc") _); reflexivity|].
  constructor.
Qed.

(** ** C79 Lists of parameters *)
Lemma mapM_get_seq {A B} (l g : list A) (f : A -> res B) :
  mapM (fun i => bind (get (l ++ g) i) f) (seq 0 (length l)) = mapM f l.
Proof.
  assert (H : forall p, mapM (fun i => bind (get (p ++ l ++ g) i) f) (seq (length p) (length l)) = mapM f l).
  { induction l as [|a l IH]; intros p; [reflexivity|]. cbn [length seq mapM].
    unfold get at 1. rewrite nth_error_app2, Nat.sub_diag by lia. cbn [nth_error app bind].
    destruct (f a); cbn [bind]; [|reflexivity]. specialize (IH (p ++ [a])). rewrite app_length, Nat.add_1_r, <- app_assoc in IH.
    cbn [app] in IH. rewrite IH. reflexivity. }
  exact (H []).
Qed.
(** get_qvals gives, for each of the [qs] in their order, the values that
    get_q gives for the atoms of [System.atoms], in their order; the atoms
    that fill up a small box do not count. *)
Theorem C79_lists : forall (N : num) (s : sys N) (real ghosts : list (atom N)) (qs : list Z) (averaged : bool),
  s_atoms s = real ++ ghosts -> s_real s = Z.of_nat (length real) ->
  (forall a, In a real -> q_arrays a) -> (forall q, In q qs -> (2 <= q <= 12)%Z) ->
  get_atoms s = Ok real /\
  exists ls, get_qvals s qs averaged = Ok ls /\
    Forall2 (fun q l => get_qvals1 s q averaged = Ok l /\
      Forall2 (fun a v => atom_get_q a q averaged = Ok v) real l) qs ls.
Proof.
  intros N s real ghosts qs av ES ER QA QS. split; [exact (get_atoms_app ES ER)|].
  assert (G : forall q, In q qs -> exists l, gqvals s av q = Ok l /\ Forall2 (fun a v => atom_get_q a q av = Ok v) real l).
  { intros q Iq. specialize (QS q Iq). unfold gqvals. rewrite ES, ER, Nat2Z.id, mapM_get_seq.
    clear ES ER. induction real as [|a real IH]; [exists []; split; [reflexivity|constructor]|].
    destruct (IH (fun a I => QA a (or_intror I))) as (l & E & F).
    destruct (QA a (or_introl eq_refl)) as (L1 & L2 & _).
    assert (exists v, zget (if av then a_aq a else a_q a) (q - 2) = Ok v) as (v & Ev).
    { unfold zget, get. replace (Z.ltb (q - 2) 0) with false by (symmetry; apply Z.ltb_ge; lia).
      destruct (nth_error (if av then a_aq a else a_q a) (Z.to_nat (q - 2))) eqn:En; [eauto|].
      apply nth_error_None in En. destruct av; lia. }
    exists (v :: l). cbn [mapM]. rewrite Ev, E. split; [reflexivity|]. constructor; [|exact F].
    unfold atom_get_q, q_range. replace (Z.ltb q 2) with false by (symmetry; apply Z.ltb_ge; lia).
    replace (Z.ltb 12 q) with false by (symmetry; apply Z.ltb_ge; lia). exact Ev. }
  assert (OK : forall q, In q qs -> q_ok q = true).
  { intros q Iq. specialize (QS q Iq). unfold q_ok. apply andb_true_iff. split; [apply Z.leb_le|apply Z.ltb_lt]; lia. }
  unfold get_qvals. replace (forallb q_ok qs) with true by (symmetry; apply forallb_forall; exact OK).
  clear QS. induction qs as [|q qs IH]; [exists []; split; [reflexivity|constructor]|].
  destruct (IH (fun q I => G q (or_intror I)) (fun q I => OK q (or_intror I))) as (ls & E & F).
  destruct (G q (or_introl eq_refl)) as (l & El & Fl).
  exists (l :: ls). cbn [mapM]. rewrite El, E. split; [reflexivity|]. constructor; [|exact F].
  split; [|exact Fl]. unfold get_qvals1. rewrite (OK q (or_introl eq_refl)). exact El.
Qed.
Print Assumptions C79_lists.

(** An order that does not exist is a ValueError for the system as for each
    atom, and nothing is returned for the others. *)
Theorem C79_range : forall (N : num) (s : sys N) (a : atom N) qs q averaged,
  In q qs -> ~ (2 <= q <= 12)%Z ->
  get_qvals s qs averaged = Err ValueError /\ get_qvals1 s q averaged = Err ValueError /\
  atom_get_q a q averaged = Err ValueError.
Proof.
  intros N s a qs q av Iq R.
  assert (B : q_ok q = false). { unfold q_ok. apply andb_false_iff. destruct (Z.leb_spec 2 q); [right; apply Z.ltb_ge|left]; [lia|reflexivity]. }
  split; [|split].
  - unfold get_qvals. replace (forallb q_ok qs) with false; [reflexivity|]. symmetry.
    apply not_true_is_false. intros F. rewrite forallb_forall in F. rewrite (F q Iq) in B. discriminate.
  - unfold get_qvals1. rewrite B. reflexivity.
  - unfold atom_get_q, q_range. destruct (Z.ltb_spec q 2); [reflexivity|]. destruct (Z.ltb_spec 12 q); [reflexivity|]. lia.
Qed.
Print Assumptions C79_range.

Example C79_hyp : forall N, exists real, s_atoms (q_sys N) = real ++ [] /\ s_real (q_sys N) = Z.of_nat (length real) /\
  length real = 4 /\ (forall a, In a real -> q_arrays a) /\ forall q, In q [4; 6]%Z -> (2 <= q <= 12)%Z.
Proof.
  intros N. exists (s_atoms (q_sys N)). split; [rewrite app_nil_r; reflexivity|]. split; [vm_compute; reflexivity|]. split; [reflexivity|].
  split; [intros a I; exact (proj1 (proj2 (q_sys_ready N) a I))|]. intros q [<-|[<-|[]]]; lia.
Qed.
