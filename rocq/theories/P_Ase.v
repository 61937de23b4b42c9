(** ASE objects: sorted symbols, types, conversion. *)
From Coq Require Import Ascii String Lia Sorted.
From Verif Require Import Base Num Types M_Geometry M_Container M_Steinhardt M_Analysis M_Text M_Lammps M_Traj M_Formats.
From Verif Require Import S_Container S_Lammps P_Text P_Neighbors P_Container P_Centro P_Analysis P_Lammps P_LammpsSys P_Traj P_ExportNum S_Formats.
Set Implicit Arguments.
Unset Strict Implicit.
Close Scope Z_scope.

(** ** The order of texts *)
Lemma tltb_spec : forall a b, tltb a b = true <-> alphabetical a b.
Proof.
  induction a as [|c a IH]; intros [|d b]; cbn [tltb].
  - split; [discriminate|]. intros (p & [(c & r & E1 & E2)|(c & d & x & y & E1 & _)]); destruct p; discriminate.
  - split; [|reflexivity]. intros _. exists []. left. exists d, b. split; reflexivity.
  - split; [discriminate|]. intros (p & [(e & r & E1 & E2)|(e & f & x & y & E1 & E2 & _)]); destruct p; discriminate.
  - destruct (N.ltb_spec (N_of_ascii c) (N_of_ascii d)) as [L|L].
    + split; [|reflexivity]. intros _. exists []. right. exists c, d, a, b. auto.
    + destruct (Ascii.eqb_spec c d) as [->|E].
      * rewrite IH. split.
        -- intros (p & [(e & r & E1 & E2)|(e & f & x & y & E1 & E2 & H)]); exists (d :: p); [left; exists e, r|right; exists e, f, x, y]; rewrite E1, E2; auto.
        -- intros (p & [(e & r & E1 & E2)|(e & f & x & y & E1 & E2 & H)]).
           ++ destruct p as [|g p]; [discriminate|]. injection E1 as -> ->. injection E2 as ->. exists p. left. exists e, r. auto.
           ++ destruct p as [|g p]; [injection E1 as -> ->; injection E2 as -> ->; lia|]. injection E1 as -> ->. injection E2 as ->. exists p. right. exists e, f, x, y. auto.
      * split; [discriminate|]. intros (p & [(e & r & E1 & E2)|(e & f & x & y & E1 & E2 & H)]).
        -- destruct p as [|g p]; [discriminate|]. injection E1 as -> ->. injection E2 as E2 _. congruence.
        -- destruct p as [|g p]; [injection E1 as -> ->; injection E2 as -> ->; lia|]. injection E1 as -> ->. injection E2 as E2 _. congruence.
Qed.
Lemma tltb_irrefl a : tltb a a = false.
Proof. induction a as [|c a IH]; [reflexivity|]. cbn [tltb]. rewrite N.ltb_irrefl, Ascii.eqb_refl. exact IH. Qed.
Lemma tltb_trans : forall a b c, tltb a b = true -> tltb b c = true -> tltb a c = true.
Proof.
  induction a as [|x a IH]; intros [|y b] [|z c]; cbn [tltb]; try discriminate; try reflexivity.
  destruct (N.ltb_spec (N_of_ascii x) (N_of_ascii y)) as [L|L]; [|destruct (Ascii.eqb_spec x y) as [->|E]; [|discriminate]]; intros H1;
  destruct (N.ltb_spec (N_of_ascii y) (N_of_ascii z)) as [M|M]; [|destruct (Ascii.eqb_spec y z) as [->|F]; [|discriminate]| |destruct (Ascii.eqb_spec y z) as [->|F]; [|discriminate]]; intros H2.
  - destruct (N.ltb_spec (N_of_ascii x) (N_of_ascii z)); [reflexivity|lia].
  - destruct (N.ltb_spec (N_of_ascii x) (N_of_ascii z)); [reflexivity|lia].
  - destruct (N.ltb_spec (N_of_ascii y) (N_of_ascii z)); [reflexivity|lia].
  - rewrite (IH _ _ H1 H2). destruct (N.ltb_spec (N_of_ascii z) (N_of_ascii z)); [reflexivity|]. reflexivity.
Qed.
Lemma tltb_total : forall a b, tltb a b = false -> a <> b -> tltb b a = true.
Proof.
  induction a as [|x a IH]; intros [|y b]; cbn [tltb]; intros H N; try discriminate; try congruence; try reflexivity.
  destruct (N.ltb_spec (N_of_ascii x) (N_of_ascii y)) as [L|L]; [discriminate|].
  destruct (Ascii.eqb_spec x y) as [->|E].
  - rewrite N.ltb_irrefl, Ascii.eqb_refl. apply IH; [exact H|congruence].
  - destruct (N.ltb_spec (N_of_ascii y) (N_of_ascii x)) as [K|K]; [reflexivity|]. exfalso. apply E.
    assert (Q : N_of_ascii x = N_of_ascii y) by lia. rewrite <- (ascii_N_embedding x), <- (ascii_N_embedding y), Q. reflexivity.
Qed.
Lemma ins_text_In t : forall l x, In x (ins_text t l) <-> x = t \/ In x l.
Proof.
  induction l as [|u l IH]; intros x; cbn [ins_text]; [cbn; intuition congruence|].
  destruct (tltb t u); [cbn; intuition congruence|]. destruct (teqb t u) eqn:E.
  - apply teqb_true in E. subst. cbn. intuition congruence.
  - cbn [In]. rewrite IH. intuition congruence.
Qed.
Lemma ins_text_sorted t : forall l, StronglySorted alphabetical l -> StronglySorted alphabetical (ins_text t l).
Proof.
  induction l as [|u l IH]; intros H; cbn [ins_text]; [repeat constructor|]. assert (H0 := H). apply StronglySorted_inv in H as [H1 H2].
  rewrite Forall_forall in H2. destruct (tltb t u) eqn:E.
  - constructor; [exact H0|]. constructor; [apply tltb_spec, E|]. apply Forall_forall. intros x Hx. apply tltb_spec.
    apply (tltb_trans E). apply tltb_spec, H2, Hx.
  - destruct (teqb t u) eqn:F; [exact H0|]. constructor; [apply IH, H1|]. apply Forall_forall. intros x Hx.
    apply ins_text_In in Hx as [->|Hx]; [|apply H2, Hx]. apply tltb_spec, tltb_total; [exact E|]. apply teqb_false, F.
Qed.
Lemma unique_text_spec l : sorted_symbols l (unique_text l).
Proof.
  induction l as [|t l [I1 I2]].
  - split; [constructor|]. intros x. reflexivity.
  - change (unique_text (t :: l)) with (ins_text t (unique_text l)). split; [apply ins_text_sorted, I1|]. intros x. rewrite ins_text_In, I2.
    cbn. intuition congruence.
Qed.
Lemma sorted_equal : forall u v : list text, StronglySorted alphabetical u -> StronglySorted alphabetical v -> (forall x, In x u <-> In x v) -> u = v.
Proof.
  assert (IR : forall a, ~ alphabetical a a) by (intros a H; apply tltb_spec in H; rewrite tltb_irrefl in H; discriminate).
  assert (TR : forall a b c, alphabetical a b -> alphabetical b c -> alphabetical a c).
  { intros a b c H1 H2. apply tltb_spec in H1, H2. apply tltb_spec, (tltb_trans H1 H2). }
  induction u as [|a u IH]; intros [|b v] Hu Hv H.
  - reflexivity.
  - destruct (proj2 (H b) (or_introl eq_refl)).
  - destruct (proj1 (H a) (or_introl eq_refl)).
  - apply StronglySorted_inv in Hu as [U1 U2], Hv as [V1 V2]. rewrite Forall_forall in U2, V2.
    assert (a = b) as <-.
    { destruct (proj1 (H a) (or_introl eq_refl)) as [E|Ia]; [auto|]. destruct (proj2 (H b) (or_introl eq_refl)) as [E|Ib]; [auto|].
      exfalso. apply (IR a). apply (TR a b a); [apply U2, Ib|apply V2, Ia]. }
    f_equal. apply IH; auto. intros x. split; intros Hx.
    + destruct (proj1 (H x) (or_intror Hx)) as [<-|K]; [|exact K]. destruct (IR a (U2 _ Hx)).
    + destruct (proj2 (H x) (or_intror Hx)) as [<-|K]; [|exact K]. destruct (IR a (V2 _ Hx)).
Qed.
Lemma sorted_symbols_unique l u v : sorted_symbols l u -> sorted_symbols l v -> u = v.
Proof. intros [U1 U2] [V1 V2]. apply sorted_equal; auto. intros x. rewrite U2, V2. reflexivity. Qed.
Lemma sorted_text_NoDup u : StronglySorted alphabetical u -> NoDup u.
Proof.
  induction u as [|t u IH]; intros H; constructor; apply StronglySorted_inv in H as [H1 H2]; [|auto].
  intros K. rewrite Forall_forall in H2. specialize (H2 t K). apply tltb_spec in H2. rewrite tltb_irrefl in H2. discriminate.
Qed.

(** ** Types from symbols *)
Lemma fold_dset_get {A} : forall (u : list text) (v : list A) (d : dict A), NoDup u -> List.length u = List.length v ->
  forall c, dget (fold_left (fun d p => dset d (fst p) (snd p)) (combine u v) d) c =
    match dget (combine u v) c with Some x => Some x | None => dget d c end.
Proof.
  induction u as [|k u IH]; intros [|x v] d ND L c; try discriminate; [reflexivity|]. inversion_clear ND as [|? ? N1 N2]. cbn [combine fold_left fst snd dget].
  rewrite IH; [|exact N2|injection L; auto]. rewrite dget_dset. destruct (teqb c k) eqn:E.
  - apply teqb_true in E. subst k. replace (dget (combine u v) c) with (@None A); [reflexivity|]. symmetry.
    clear - N1. revert v. induction u as [|k u IH]; intros [|x v]; try reflexivity. cbn [combine dget]. destruct (teqb c k) eqn:E.
    + apply teqb_true in E. destruct N1. left. auto.
    + apply IH. intros K. apply N1. right. exact K.
  - reflexivity.
Qed.
Lemma dget_combine {A} : forall (u : list text) (v : list A) i c x, NoDup u -> nth_error u i = Some c -> nth_error v i = Some x -> dget (combine u v) c = Some x.
Proof.
  induction u as [|k u IH]; intros [|y v] [|i] c x ND Hc Hx; try discriminate; inversion_clear ND as [|? ? N1 N2]; cbn [nth_error] in *.
  - injection Hc as ->. injection Hx as ->. cbn [combine dget]. rewrite teqb_refl. reflexivity.
  - cbn [combine dget]. destruct (teqb c k) eqn:E; [|apply (IH v i); assumption]. apply teqb_true in E. subst k. destruct N1. apply (nth_error_In _ _ Hc).
Qed.
Lemma typedict_get symbols i c : nth_error (unique_text symbols) i = Some c -> dget (typedict symbols) c = Some (Z.of_nat i + 1)%Z.
Proof.
  intros H. unfold typedict. assert (ND : NoDup (unique_text symbols)) by (apply sorted_text_NoDup, unique_text_spec).
  set (u := unique_text symbols) in *. rewrite fold_dset_get; [|exact ND|rewrite map_length, seq_length; reflexivity].
  rewrite (@dget_combine _ u _ i c (Z.of_nat i + 1)%Z ND H); [reflexivity|].
  rewrite nth_error_map. rewrite (nth_error_nth' _ 0) by (rewrite seq_length; apply nth_error_Some; congruence).
  rewrite seq_nth by (apply nth_error_Some; congruence). reflexivity.
Qed.
Lemma typedict_of symbols c : In c symbols -> exists i, nth_error (unique_text symbols) i = Some c /\ dget (typedict symbols) c = Some (Z.of_nat i + 1)%Z.
Proof.
  intros H. apply (unique_text_spec symbols) in H. apply In_nth_error in H as [i Hi]. exists i. split; [exact Hi|apply typedict_get, Hi].
Qed.

Section Ase.
Variable N : num.
Variable raw raw' : Z -> atom N.
Variable inv : m3 N -> option (m3 N).
Variable known : text -> bool.

(** What reading assigns to the atom at place [i]. *)
Definition read_as (symbols : list text) (positions : list (v3 N)) (i : nat) (x : catom N) : Prop :=
  from_symbols symbols positions i (fst x) (snd x).

Lemma symbol_atom_run symbols positions i p : nth_error positions i = Some p -> i < List.length symbols ->
  exists x, symbol_atom raw symbols (typedict symbols) i p = Ok x /\ read_as symbols positions i x.
Proof.
  intros Hp Hi. destruct (nth_error symbols i) as [c|] eqn:Hc; [|apply nth_error_None in Hc; lia].
  destruct (typedict_of (nth_error_In _ _ Hc)) as (k & Hk & Hd).
  unfold symbol_atom. rewrite (py_get_nat Hc). cbn [bind]. unfold dref. rewrite Hd. cbn [bind]. eexists. split; [reflexivity|].
  exists p, c. cbn [fst snd]. repeat (split; [first [exact Hp|exact Hc|reflexivity]|]). intros u Hu.
  rewrite (sorted_symbols_unique Hu (unique_text_spec symbols)). unfold numbered. cbn. split; [lia|]. replace (Z.to_nat (Z.of_nat k + 1 - 1)) with k by lia. exact Hk.
Qed.
Lemma combine_seq_nth {A} : forall (l : list A) b i q, nth_error (combine (seq b (List.length l)) l) i = Some q -> nth_error l i = Some (snd q) /\ fst q = b + i.
Proof.
  induction l as [|a l IH]; intros b [|i] q; cbn [List.length seq combine nth_error]; try discriminate.
  - intros [= <-]. cbn. split; [reflexivity|lia].
  - intros H. apply IH in H as [H1 H2]. split; [exact H1|lia].
Qed.
Lemma mapM_some {A B} (f : A -> res B) (P : nat -> B -> Prop) : forall l b,
  (forall i a, nth_error l i = Some a -> exists y, f a = Ok y /\ P (b + i) y) ->
  exists l1, mapM f l = Ok l1 /\ List.length l1 = List.length l /\ forall i y, nth_error l1 i = Some y -> P (b + i) y.
Proof.
  induction l as [|a l IH]; intros b H.
  - exists []. split; [reflexivity|]. split; [reflexivity|]. intros [|i]; discriminate.
  - destruct (H 0 a eq_refl) as (y & E & HP). destruct (IH (S b)) as (l1 & E1 & L1 & P1).
    { intros i x Hx. destruct (H (S i) x Hx) as (z & Ez & Pz). exists z. split; [exact Ez|]. replace (S b + i) with (b + S i) by lia. exact Pz. }
    exists (y :: l1). cbn [mapM]. rewrite E, E1. split; [reflexivity|]. split; [cbn; congruence|].
    intros [|i] z Hz; [injection Hz as <-; exact HP|]. replace (b + S i) with (S b + i) by lia. apply P1, Hz.
Qed.
Lemma symbol_atoms_run symbols positions : List.length positions <= List.length symbols ->
  exists l, symbol_atoms raw symbols positions = Ok l /\ List.length l = List.length positions /\
    forall i x, nth_error l i = Some x -> read_as symbols positions i x.
Proof.
  intros HL. unfold symbol_atoms. destruct (@mapM_some _ _ (fun p => symbol_atom raw symbols (typedict symbols) (fst p) (snd p)) (read_as symbols positions)
    (combine (seq 0 (List.length positions)) positions) 0) as (l & E & L & P).
  - intros i q Hq. apply combine_seq_nth in Hq as [H1 H2]. cbn [plus] in *. rewrite H2. apply symbol_atom_run; [exact H1|].
    assert (i < List.length positions) by (apply nth_error_Some; congruence). lia.
  - exists l. split; [exact E|]. split; [|exact P]. rewrite L, combine_length, seq_length. apply Nat.min_id.
Qed.

(** ** Converting *)
Lemma species_mapM : forall (q : list (catom N)) (symbols : list text), List.length q = List.length symbols ->
  (forall i x, nth_error q i = Some x -> exists c, nth_error symbols i = Some c /\ dget (snd x) species_key = Some c /\ known c = true) ->
  mapM (fun a : catom N => v <- dref (snd a) species_key ;; if known v then Ok v else Err KeyError) q = Ok symbols.
Proof.
  induction q as [|x q IH]; intros [|c symbols] L D; try discriminate; [reflexivity|].
  cbn [mapM]. destruct (D 0 x eq_refl) as (c1 & Q & E & K). injection Q as <-. unfold dref. rewrite E. cbn [bind]. rewrite K. cbn [bind].
  unfold dref in IH. rewrite (IH symbols); [reflexivity|injection L; auto|]. intros i y Hy. apply (D (S i) y Hy).
Qed.
(** Every atom has the species [c i]: from its dictionary. *)
Lemma convert_known (s : sys N) l customs (symbols : list text) species : get_atoms s = Ok l -> l <> [] ->
  List.length customs = List.length l -> List.length symbols = List.length l ->
  (forall i d c, nth_error customs i = Some d -> nth_error symbols i = Some c -> dget d species_key = Some c /\ known c = true) ->
  convert_snap known s customs species = Ok (customs, mkAse (box_get s) symbols (map (@a_pos N) l)).
Proof.
  intros HG Hl LC LS H. unfold convert_snap. rewrite HG. cbn [bind].
  assert (D : forall i x, nth_error (combine l customs) i = Some x -> exists c, nth_error symbols i = Some c /\ dget (snd x) species_key = Some c /\ known c = true).
  { intros i [a d] Hx. destruct (nth_error symbols i) as [c|] eqn:Ec.
    - exists c. split; [reflexivity|]. apply (H i d c); [|exact Ec]. clear - Hx. revert customs i Hx. induction l as [|a0 l IH]; intros [|d0 customs] [|i] Hx; try discriminate; cbn in *; [congruence|apply IH, Hx].
    - apply nth_error_None in Ec. assert (i < List.length (combine l customs)) by (apply nth_error_Some; congruence). rewrite combine_length in *. lia. }
  destruct (combine l customs) as [|a0 rest] eqn:EC.
  { destruct l; [congruence|]. destruct customs; discriminate. }
  destruct (D 0 a0 eq_refl) as (c0 & _ & E0 & _). unfold dmem at 1. unfold text in *. rewrite E0. cbn [negb].
  rewrite <- EC. fold text in *.
  assert (F : forall ut, exists r, first_species (combine l customs) ut = Ok r).
  { intros ut. unfold first_species. destruct (filter _ _) as [|x f] eqn:Ef; [eexists; reflexivity|].
    assert (I : In x (combine l customs)) by (eapply proj1; apply filter_In; rewrite Ef; left; reflexivity).
    apply In_nth_error in I as [i Hi]. rewrite EC in Hi. destruct (D i x Hi) as (c & _ & E & _). unfold dref. unfold text in *. rewrite E. eexists. reflexivity. }
  assert (M : forall ts, exists r, mapM (first_species (combine l customs)) ts = Ok r).
  { induction ts as [|t ts [r IH]]; [eexists; reflexivity|]. destruct (F t) as [q Hq]. cbn [mapM]. rewrite Hq. cbn [bind]. rewrite IH. eexists. reflexivity. }
  match goal with |- context [mapM (first_species ?l) ?ts] => destruct (M ts) as [r Hr]; rewrite Hr end. cbn [bind].
  assert (G : mapM (fun a : catom N => v <- dref (snd a) species_key ;; if known v then Ok v else Err KeyError) (combine l customs) = Ok symbols).
  { apply species_mapM; [unfold catom; rewrite combine_length; lia|]. rewrite EC. exact D. }
  rewrite G. cbn [bind]. f_equal. f_equal; [|f_equal].
  - clear - LC. revert customs LC. induction l as [|a l IH]; intros [|d customs] L; try discriminate; [reflexivity|]. cbn. f_equal. apply IH. injection L; auto.
  - clear - LC. revert customs LC. induction l as [|a l IH]; intros [|d customs] L; try discriminate; [reflexivity|]. cbn. f_equal. apply IH. injection L; auto.
Qed.

(** The species from a list, when the dictionaries do not know it. *)
Lemma assign_run : forall (q : list (catom N)) (u symbols : list text), List.length q = List.length symbols ->
  (forall i x c, nth_error q i = Some x -> nth_error symbols i = Some c -> numbered u (a_type (fst x)) c) ->
  assign_species u q = Ok (map (fun p => (fst (fst p), dset (snd (fst p)) species_key (snd p))) (combine q symbols)).
Proof.
  unfold assign_species. induction q as [|x q IH]; intros u [|c symbols] L H; try discriminate; [reflexivity|]. cbn [mapM combine map fst snd].
  destruct (H 0 x c eq_refl eq_refl) as [H1 H2].
  assert (E : py_get u (a_type (fst x) - 1) = Ok c) by (replace (a_type (fst x) - 1)%Z with (Z.of_nat (Z.to_nat (a_type (fst x) - 1))) by lia; apply py_get_nat, H2).
  rewrite E. cbn [bind]. rewrite (IH u symbols); [reflexivity|injection L; auto|]. intros i y d. apply (H (S i)).
Qed.
Lemma convert_list (s : sys N) l customs (u symbols : list text) : get_atoms s = Ok l -> l <> [] ->
  List.length customs = List.length l -> List.length symbols = List.length l ->
  (forall d, nth_error customs 0 = Some d -> dget d species_key = None) ->
  (forall i a c, nth_error l i = Some a -> nth_error symbols i = Some c -> numbered u (a_type a) c /\ known c = true) ->
  (forall k, k < List.length u -> In (Z.of_nat k + 1)%Z (map (@a_type N) l)) ->
  convert_snap known s customs (Some u) =
    Ok (map (fun p => dset (fst p) species_key (snd p)) (combine customs symbols), mkAse (box_get s) symbols (map (@a_pos N) l)).
Proof.
  intros HG Hl LC LS H0 HN HU. unfold convert_snap. rewrite HG. cbn [bind].
  assert (NTH : forall (l0 : list (atom N)) (cs : list (dict text)) i x, nth_error (combine l0 cs) i = Some x -> nth_error l0 i = Some (fst x) /\ nth_error cs i = Some (snd x)).
  { induction l0 as [|a0 l0 IH]; intros [|d cs] [|i] x Hx; try discriminate; [injection Hx as <-; auto|exact (IH cs i x Hx)]. }
  assert (TY : map (fun a : catom N => a_type (fst a)) (combine l customs) = map (@a_type N) l).
  { clear - LC. revert customs LC. induction l as [|a l IH]; intros [|d customs] L; try discriminate; [reflexivity|]. cbn. f_equal. apply IH. injection L; auto. }
  rewrite TY. destruct (combine l customs) as [|a0 rest] eqn:EC.
  { destruct l; [congruence|]. destruct customs; discriminate. }
  assert (D0 : dget (snd a0) species_key = None).
  { apply H0. apply (NTH l customs 0 a0). rewrite EC. reflexivity. }
  unfold dmem at 1. unfold text in *. rewrite D0. cbn [negb]. fold text in *. rewrite <- EC.
  assert (LU : List.length (map fst (np_unique (map (@a_type N) l))) = List.length u).
  { assert (ND : NoDup (map fst (np_unique (map (@a_type N) l)))).
    { destruct (unique_spec (map (@a_type N) l)) as [S _]. unfold sorted_keys in S. revert S. generalize (map fst (np_unique (map (@a_type N) l))). intros ts.
      induction ts as [|t ts IH]; intros S; constructor; apply StronglySorted_inv in S as [S1 S2]; [|auto]. intros K. rewrite Forall_forall in S2. specialize (S2 t K). lia. }
    assert (EQ : forall t, In t (map fst (np_unique (map (@a_type N) l))) <-> In t (map (fun k => (Z.of_nat k + 1)%Z) (seq 0 (List.length u)))).
    { intros t. rewrite unique_keys, !in_map_iff. split.
      - intros (a & <- & Ha). apply In_nth_error in Ha as [i Hi].
        destruct (nth_error symbols i) as [c|] eqn:Ec; [|apply nth_error_None in Ec; assert (i < List.length l) by (apply nth_error_Some; congruence); lia].
        destruct (HN i a c Hi Ec) as [[A B] _]. exists (Z.to_nat (a_type a - 1)). split; [lia|]. apply in_seq. split; [lia|]. cbn. apply nth_error_Some. congruence.
      - intros (k & <- & Hk). apply in_seq in Hk. apply in_map_iff, HU. lia. }
    assert (ND2 : NoDup (map (fun k => (Z.of_nat k + 1)%Z) (seq 0 (List.length u)))).
    { apply FinFun.Injective_map_NoDup; [intros x y; lia|apply seq_NoDup]. }
    pose proof (NoDup_incl_length ND (fun t H => proj1 (EQ t) H)) as L1. pose proof (NoDup_incl_length ND2 (fun t H => proj2 (EQ t) H)) as L2.
    rewrite !map_length, seq_length in *. lia. }
  rewrite LU, Nat.eqb_refl. cbn [negb].
  assert (LQ : List.length (combine l customs : list (catom N)) = List.length symbols) by (unfold catom; rewrite combine_length; lia).
  assert (AR := @assign_run (combine l customs : list (catom N)) u symbols LQ).
  match type of AR with ?P -> _ => assert (HP : P) end.
  { intros i x c Hx Hc. apply (HN i (fst x) c); [apply (NTH l customs i x Hx)|exact Hc]. }
  specialize (AR HP). unfold catom in AR |- *. rewrite AR. cbn [bind].
  set (q := map _ _).
  assert (G : mapM (fun a : catom N => v <- dref (snd a) species_key ;; if known v then Ok v else Err KeyError) q = Ok symbols).
  { apply species_mapM.
    - unfold q. rewrite map_length, combine_length. unfold catom in LQ. lia.
    - intros i x Hx. unfold q in Hx. rewrite nth_error_map in Hx.
      destruct (nth_error (combine (combine l customs) symbols) i) as [[y c]|] eqn:E; [|discriminate]. injection Hx as <-.
      assert (NN : nth_error (combine l customs) i = Some y /\ nth_error symbols i = Some c).
      { clear - E. revert symbols i E. generalize (combine l customs). intros z. induction z as [|z0 z IH]; intros [|s0 symbols] [|i] E; try discriminate; [injection E as -> ->; auto|exact (IH symbols i E)]. }
      destruct NN as [N1 N2]. exists c. split; [exact N2|]. cbn [fst snd]. rewrite dget_dset, teqb_refl. split; [reflexivity|].
      apply (HN i (fst y) c); [apply (NTH l customs i y N1)|exact N2]. }
  unfold catom in G |- *. rewrite G. cbn [bind]. unfold q. f_equal. f_equal; [|f_equal].
  - clear - LC LS. revert customs symbols LC LS. induction l as [|a l IH]; intros [|d customs] [|c symbols] L1 L2; try discriminate; [reflexivity|]. cbn. f_equal. apply IH; [injection L1|injection L2]; auto.
  - clear - LC LS. revert customs symbols LC LS. induction l as [|a l IH]; intros [|d customs] [|c symbols] L1 L2; try discriminate; [reflexivity|]. cbn. f_equal. apply IH; [injection L1|injection L2]; auto.
Qed.

(** ** Systems *)
Lemma box_set_get (s0 s1 : sys N) b : box_set inv s0 b = Ok s1 -> s_actual s0 = None -> box_get s1 = b.
Proof.
  unfold box_set, box_get. intros H HA. destruct (nltb _ _).
  - destruct (inv _); [|discriminate]. injection H as <-. cbn. rewrite HA. reflexivity.
  - injection H as <-. cbn. rewrite HA. reflexivity.
Qed.
Lemma set_read (s0 s1 s2 : sys N) (atoms : list (catom N)) box symbols positions :
  (forall i x, nth_error atoms i = Some x -> read_as symbols positions i x) ->
  box_set inv s0 box = Ok s1 -> atoms_set inv raw' s1 (map fst atoms) = Ok s2 ->
  get_atoms s2 = Ok (map fst atoms) /\ (s_actual s0 = None -> box_get s2 = box) /\ (exists gh, s_atoms s2 = map fst atoms ++ gh) /\ s_real s2 = Z.of_nat (List.length atoms).
Proof.
  intros H H1 H2. assert (AR : all_real (map fst atoms)).
  { intros a Ha. apply in_map_iff in Ha as (x & <- & Hx). apply In_nth_error in Hx as [i Hi]. destruct (H i x Hi) as (p & c & Hr). apply Hr. }
  destruct (atoms_set_spec AR H2) as (gh & G1 & G2 & _ & G4 & _ & G6 & _). split; [exact G2|]. split; [|split].
  - intros HA. rewrite G6. apply (box_set_get H1 HA).
  - exists gh. exact G1.
  - rewrite G4, map_length. reflexivity.
Qed.
End Ase.
