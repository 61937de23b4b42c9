(** Property C76: the energies come from the right atoms (routines.py and
    core.py:1841-1906). *)
From Coq Require Import Reals Lra ZArith List Lia Bool Permutation Ascii String.
From Verif Require Import Base Num NumR Types Ex M_Geometry M_Container M_Neighbors M_Energy M_Steinhardt M_Analysis M_Text M_Lammps M_Formats M_Routines
  S_Container S_Energy S_Routines P_Container P_Box P_Store P_Lammps P_Centro C_Energy.
Import ListNotations.
Close Scope R_scope. Close Scope Z_scope. Close Scope string_scope.
#[local] Open Scope nat_scope.
Notation length := List.length.

(** ** The dictionary *)
Lemma zset_app {N : num} (d : list (Z * N)) k v : ~ In k (map fst d) -> zset d k v = d ++ [(k, v)].
Proof.
  induction d as [|[k' v'] d IH]; intros H; [reflexivity|]. cbn [zset map fst In app] in *.
  destruct (Z.eqb_spec k' k) as [->|_]; [tauto|]. rewrite IH; tauto.
Qed.
Lemma dict_zip_eq {N : num} (ids : list Z) (eng : list N) : NoDup ids -> length eng = length ids -> dict_zip ids eng = combine ids eng.
Proof.
  intros ND L. unfold dict_zip. change (combine ids eng) with ([] ++ combine ids eng) at 2.
  assert (H : forall k, In k ids -> ~ In k (map fst (@nil (Z * N)))) by (intros k _ []).
  revert eng L H. generalize (@nil (Z * N)). induction ND as [|k ids Hk ND IH]; intros d [|v eng] L H; try discriminate; cbn [combine fold_left].
  - now rewrite app_nil_r.
  - cbn [fst snd]. rewrite zset_app by (apply H; now left). rewrite IH.
    + rewrite <- app_assoc. reflexivity.
    + cbn in L. lia.
    + intros k' Hk'. rewrite map_app, in_app_iff. cbn [map fst In]. intros [Hd|[<-|[]]]; [|contradiction]. revert Hd. apply H. now right.
Qed.
Lemma lookup_combine {N : num} (ids : list Z) (eng : list N) i x k : NoDup ids -> nth_error ids k = Some i -> nth_error eng k = Some x ->
  lookup (combine ids eng) i = Ok x.
Proof.
  intros ND. revert eng k. induction ND as [|j ids Hj ND IH]; intros [|e eng] [|k] Hi Hx; try discriminate; cbn [nth_error combine lookup] in *.
  - injection Hi as ->. injection Hx as ->. now rewrite Z.eqb_refl.
  - destruct (Z.eqb_spec j i) as [->|_]; [|now apply IH with k]. exfalso. apply Hj. eapply nth_error_In. exact Hi.
Qed.
Lemma lookup_none {N : num} (ids : list Z) (eng : list N) i : ~ In i ids -> lookup (combine ids eng) i = Err KeyError.
Proof.
  revert eng. induction ids as [|j ids IH]; intros [|e eng] H; try reflexivity. cbn [combine lookup].
  destruct (Z.eqb_spec j i) as [->|_]; [exfalso; apply H; now left|]. apply IH. intros X. apply H. now right.
Qed.

(** Whatever LAMMPS returns, an id has the energy of the last place at which it
    is listed, and is missing if it is at none. *)
Lemma lookup_zset {N : num} (d : list (Z * N)) k v i : lookup (zset d k v) i = if Z.eqb k i then Ok v else lookup d i.
Proof.
  induction d as [|[k' v'] d IH]; cbn [zset lookup]; [reflexivity|]. destruct (Z.eqb_spec k' k) as [->|NE]; cbn [lookup].
  - destruct (Z.eqb k i); reflexivity.
  - rewrite IH. destruct (Z.eqb_spec k' i) as [->|_]; [|reflexivity]. destruct (Z.eqb_spec k i) as [->|_]; [contradiction|reflexivity].
Qed.
Theorem C76_dictionary :
  forall (N : num) (T : textnum N) lmp content outfile ps pc (mass : N) n eng ids,
  lmp content (script T outfile ps pc mass) = Ok (n, eng, ids) ->
  exists d, get_energy_atom T lmp content outfile (Some ps) (Some pc) mass = Ok d /\
    (forall i x, lookup d i = Ok x <-> exists k, k < n /\ ids k = i /\ eng k = x /\ forall j, k < j < n -> ids j <> i) /\
    (forall i, lookup d i = Err KeyError <-> forall k, k < n -> ids k <> i).
Proof.
  intros N T lmp content outfile ps pc mass n eng ids Hl. unfold get_energy_atom. rewrite Hl. cbn [bind]. eexists. split; [reflexivity|]. clear Hl.
  assert (H : forall i, (exists k, k < n /\ ids k = i /\ lookup (dict_zip (map ids (seq 0 n)) (map eng (seq 0 n))) i = Ok (eng k) /\ forall j, k < j < n -> ids j <> i) \/
    ((forall k, k < n -> ids k <> i) /\ lookup (dict_zip (map ids (seq 0 n)) (map eng (seq 0 n))) i = Err KeyError)).
  { intros i. induction n as [|n IH]; [right; split; [lia|reflexivity]|].
    assert (C : forall m, combine (map ids (seq 0 m)) (map eng (seq 0 m)) = map (fun k => (ids k, eng k)) (seq 0 m)) by (intros m; generalize (seq 0 m); induction l as [|y l IHl]; [reflexivity|cbn; now rewrite IHl]).
    unfold dict_zip in *. rewrite C in *. rewrite seq_S, map_app, fold_left_app. cbn [Nat.add map fold_left fst snd]. rewrite lookup_zset.
    destruct (Z.eqb_spec (ids n) i) as [E|NE]; [left; exists n; repeat split; [lia|exact E|intros j Hj; lia]|]. destruct IH as [(k & Hk & E1 & E2 & L)|[L E]].
    - left. exists k. repeat split; [lia|exact E1|exact E2|]. intros j Hj. destruct (Nat.eq_dec j n) as [->|]; [exact NE|]. apply L. lia.
    - right. split; [|exact E]. intros k Hk. destruct (Nat.eq_dec k n) as [->|]; [exact NE|]. apply L. lia. }
  split.
  - intros i x. destruct (H i) as [(k & Hk & E1 & E2 & L)|[L E]].
    + rewrite E2. split; [intros [= <-]; exists k; auto|]. intros (k' & Hk' & E1' & <- & L'). destruct (Nat.lt_total k k') as [Q|[->|Q]]; [|reflexivity|]; exfalso; [apply (L k'); [lia|exact E1']|apply (L' k); [lia|exact E1]].
    + rewrite E. split; [discriminate|]. intros (k & Hk & E1 & _). destruct (L k Hk E1).
  - intros i. destruct (H i) as [(k & Hk & E1 & E2 & L)|[L E]].
    + rewrite E2. split; [discriminate|]. intros L'. destruct (L' k Hk E1).
    + rewrite E. split; auto.
Qed.
Print Assumptions C76_dictionary.

(** LAMMPS is only run with the file, the potential that is asked for and the
    computation of the energies: its answer to anything else makes no difference. *)
Theorem C76_commands :
  forall (N : num) (T : textnum N) lmp lmp' content outfile ps pc (mass : N),
  (forall c cmds, told outfile ps pc cmds -> lmp c cmds = lmp' c cmds) ->
  get_energy_atom T lmp content outfile (Some ps) (Some pc) mass = get_energy_atom T lmp' content outfile (Some ps) (Some pc) mass.
Proof.
  intros N T lmp lmp' content outfile ps pc mass H. unfold get_energy_atom. rewrite H; [reflexivity|]. unfold script, told. split; [|split; [|split]].
  - cbn [in_order].
    exists [tx "echo log"]. eexists. split; [reflexivity|]. split; [intros [|[]]; discriminate|]. split; [cbn [In]; intuition discriminate|].
    exists [tx "atom_style atomic"; tx "boundary p p p"]. eexists. split; [reflexivity|]. split; [cbn [In]; intuition discriminate|]. split; [cbn [In]; intuition discriminate|].
    exists []. eexists. split; [reflexivity|]. split; [intros []|]. split; [cbn [In]; intuition discriminate|].
    exists []. eexists. split; [reflexivity|]. split; [intros []|]. split; [cbn [In]; intuition discriminate|].
    exists [tx "mass * " ++ f6 T mass]. eexists. split; [reflexivity|]. split; [cbn [In]; intuition discriminate|]. split; [cbn [In]; intuition discriminate|].
    exists []. eexists. split; [reflexivity|]. split; [intros []|]. split; [intros []|exact I].
  - intros c Hc (q & ->). cbn [In] in Hc. repeat (destruct Hc as [Hc|Hc]; [first [discriminate|exact (eq_sym Hc)]|]). destruct Hc.
  - intros c Hc (q & ->). cbn [In] in Hc. repeat (destruct Hc as [Hc|Hc]; [first [discriminate|exact (eq_sym Hc)]|]). destruct Hc.
  - intros c Hc (q & ->). cbn [In] in Hc. repeat (destruct Hc as [Hc|Hc]; [first [discriminate|exact (eq_sym Hc)]|]). destruct Hc.
Qed.
Print Assumptions C76_commands.

(** What get_energy_atom returns: the energy of the k-th atom under the number
    k + 1, and nothing else. *)
Lemma energy_dict :
  forall (N : num) (T : textnum N) ase_write lmp outfile ps pc (mass : N) E o content,
  libraries_ok ase_write lmp (script T outfile ps pc mass) E -> ase_write (tx "lammps-data") o = Ok content ->
  exists d, get_energy_atom T lmp content outfile (Some ps) (Some pc) mass = Ok d /\
    forall i, lookup d i = if Z.leb 1 i && Z.leb i (Z.of_nat (length (as_positions o))) then Ok (E o (Z.to_nat i - 1)) else Err KeyError.
Proof.
  intros N T ase_write lmp outfile ps pc mass E o content H Hw. destruct (H o content Hw) as (eng & ids & Hl & Hp & He).
  set (n := length (as_positions o)) in *. unfold get_energy_atom. rewrite Hl. cbn [bind]. eexists. split; [reflexivity|].
  assert (ND : NoDup (map ids (seq 0 n))).
  { eapply Permutation_NoDup; [apply Permutation_sym, Hp|]. apply FinFun.Injective_map_NoDup; [intros a b; apply Nat2Z.inj|apply seq_NoDup]. }
  rewrite dict_zip_eq by (try exact ND; now rewrite !map_length).
  assert (HI : forall i, In i (map ids (seq 0 n)) <-> (1 <= i <= Z.of_nat n)%Z).
  { intros i. split.
    - intros Hi. apply (Permutation_in _ Hp) in Hi. apply in_map_iff in Hi as (k & <- & Hk). apply in_seq in Hk. lia.
    - intros Hi. apply (Permutation_in _ (Permutation_sym Hp)). apply in_map_iff. exists (Z.to_nat i). split; [lia|]. apply in_seq. lia. }
  intros i. destruct (Z.leb_spec 1 i) as [H1|H1]; cbn [andb].
  2:{ apply lookup_none. rewrite HI. lia. }
  destruct (Z.leb_spec i (Z.of_nat n)) as [H2|H2].
  2:{ apply lookup_none. rewrite HI. lia. }
  assert (X : In i (map ids (seq 0 n))) by (apply HI; lia).
  apply in_map_iff in X as (x & Ex & Hx). apply in_seq in Hx.
  assert (Hs : nth_error (seq 0 n) x = Some x).
  { rewrite (nth_error_nth' _ 0) by (rewrite seq_length; lia). rewrite seq_nth by lia. reflexivity. }
  apply lookup_combine with (k := x); [exact ND| |].
  - rewrite nth_error_map, Hs. cbn. congruence.
  - rewrite nth_error_map, Hs. cbn [option_map]. rewrite He by lia. now rewrite Ex.
Qed.

Lemma mapM_len {A B} (f : A -> res B) l r : mapM f l = Ok r -> length r = length l.
Proof. intros H. apply mapM_inv in H. induction H; cbn; congruence. Qed.

(** ** The call *)
(** Without an exception, an atom gets the energy of the atom whose place in the
    list is its id: any arithmetic, any order of the atoms in LAMMPS.  The file
    is removed. *)
Theorem C76_by_number :
  forall (N : num) (T : textnum N) lmp inv raw srt voro area_pow npsum known ase_write outfile (s s' : sys N) customs species ps pc mass averaged E
    cs file out,
  libraries_ok ase_write lmp (script T outfile ps pc n1) E ->
  energies T lmp inv raw srt voro area_pow npsum known ase_write outfile s customs species (Some ps) (Some pc) mass averaged =
    (cs, file, Ok (s', None, out)) ->
  file = None /\ exists l o, get_atoms s = Ok l /\ convert_snap known s customs species = Ok (cs, o) /\ length out = length l /\
    forall k a e, nth_error l k = Some a -> nth_error out k = Some e ->
      (1 <= a_id a <= Z.of_nat (length (as_positions o)))%Z /\ fst e = E o (Z.to_nat (a_id a) - 1).
Proof.
  intros N T lmp inv raw srt voro area_pow npsum known ase_write outfile s s' customs species ps pc mass averaged E cs file out HL H.
  unfold energies, write_ase in H.
  destruct (convert_snap known s customs species) as [[cs' o]|] eqn:EC; [|discriminate].
  destruct (ase_write (tx "lammps-data") o) as [content|] eqn:EW; [|discriminate].
  destruct (energy_dict N T ase_write lmp outfile ps pc n1 E o content HL EW) as (d & Ed & Hd). rewrite Ed in H.
  destruct (get_atoms s) as [l|] eqn:EG; cbn [bind] in H; [|discriminate].
  destruct (mapM (fun a => lookup d (a_id a)) l) as [es|] eqn:EM; [|discriminate].
  injection H as <- <- H. split; [reflexivity|]. exists l, o. split; [reflexivity|]. split; [reflexivity|].
  assert (Hes : exists avs, out = combine es avs /\ length avs = length (combine l es)).
  { unfold calculate_energy in H. rewrite EG in H. cbn [bind] in H. rewrite EM in H. cbn [bind] in H.
    destruct (if averaged && negb (s_found s) then _ else _) as [[s1 [er|]]|] in H; cbn [bind] in H; try discriminate.
    destruct (mapM (fun p => avg_energy npsum es (fst p) (snd p)) (combine l es)) as [avs|] eqn:EA in H; cbn [bind] in H; [|discriminate].
    destruct (atoms_set inv raw s1 l) in H; cbn [bind] in H; [|discriminate]. injection H as _ <-. exists avs. split; [reflexivity|].
    now apply mapM_len in EA. }
  destruct Hes as (avs & -> & La). apply mapM_len in EM as Le. rewrite combine_length in La.
  split; [rewrite combine_length; lia|]. intros k a e Ha He.
  assert (Hk : lookup d (a_id a) = Ok (fst e)).
  { apply mapM_inv in EM. clear -EM Ha He. revert k avs Ha He. induction EM as [|b x l es Hb EM IH]; intros [|k] avs Ha He; try discriminate; cbn [nth_error combine] in *.
    - destruct avs as [|v avs]; [discriminate|]. cbn in He. injection Ha as ->. injection He as <-. exact Hb.
    - destruct avs as [|v avs]; [discriminate|]. cbn in He. eapply IH; eassumption. }
  rewrite Hd in Hk. destruct (Z.leb_spec 1 (a_id a)); destruct (Z.leb_spec (a_id a) (Z.of_nat (length (as_positions o)))); cbn [andb] in Hk; try discriminate.
  split; [lia|]. congruence.
Qed.
Print Assumptions C76_by_number.

(** So with ids 1, 2, ... in order every atom gets its own energy. *)
Theorem C76_numbered :
  forall (N : num) (T : textnum N) lmp inv raw srt voro area_pow npsum known ase_write outfile (s s' : sys N) customs species ps pc mass averaged E
    cs file out l,
  libraries_ok ase_write lmp (script T outfile ps pc n1) E -> get_atoms s = Ok l ->
  (forall k a, nth_error l k = Some a -> a_id a = Z.of_nat k + 1)%Z ->
  energies T lmp inv raw srt voro area_pow npsum known ase_write outfile s customs species (Some ps) (Some pc) mass averaged =
    (cs, file, Ok (s', None, out)) ->
  exists o, convert_snap known s customs species = Ok (cs, o) /\ length out = length l /\
    forall k e, k < length l -> nth_error out k = Some e -> fst e = E o k.
Proof.
  intros N T lmp inv raw srt voro area_pow npsum known ase_write outfile s s' customs species ps pc mass averaged E cs file out l HL HG HI H.
  apply C76_by_number with (E := E) in H as (_ & l' & o & HG' & HC & LO & H); [|exact HL]. rewrite HG in HG'. injection HG' as <-.
  exists o. split; [exact HC|]. split; [exact LO|]. intros k e Hk He. destruct (nth_error l k) as [a|] eqn:Ea; [|apply nth_error_None in Ea; lia].
  destruct (H k a e Ea He) as (_ & ->). rewrite (HI k a Ea). f_equal. lia.
Qed.
Print Assumptions C76_numbered.

(** An id that is not a place in the list: KeyError, and the file stays. *)
Theorem C76_unnumbered :
  forall (N : num) (T : textnum N) lmp inv raw srt voro area_pow npsum known ase_write outfile (s : sys N) customs species ps pc mass averaged E
    cs o content l a,
  libraries_ok ase_write lmp (script T outfile ps pc n1) E ->
  convert_snap known s customs species = Ok (cs, o) -> ase_write (tx "lammps-data") o = Ok content ->
  get_atoms s = Ok l -> In a l -> (a_id a < 1 \/ Z.of_nat (length (as_positions o)) < a_id a)%Z ->
  energies T lmp inv raw srt voro area_pow npsum known ase_write outfile s customs species (Some ps) (Some pc) mass averaged =
    (cs, Some content, Err KeyError).
Proof.
  intros N T lmp inv raw srt voro area_pow npsum known ase_write outfile s customs species ps pc mass averaged E cs o content l a HL HC HW HG Ha Hi.
  unfold energies, write_ase. rewrite HC, HW.
  destruct (energy_dict N T ase_write lmp outfile ps pc n1 E o content HL HW) as (d & Ed & Hd). rewrite Ed, HG. cbn [bind].
  assert (X : mapM (fun a => lookup d (a_id a)) l = Err KeyError).
  { assert (K : forall i e, lookup d i = Err e -> e = KeyError) by (intros i e; rewrite Hd; destruct (_ && _); congruence).
    assert (Ka : lookup d (a_id a) = Err KeyError).
    { rewrite Hd. destruct (Z.leb_spec 1 (a_id a)); destruct (Z.leb_spec (a_id a) (Z.of_nat (length (as_positions o)))); cbn [andb]; try reflexivity. lia. }
    clear -Ha K Ka. induction l as [|b l IH]; [destruct Ha|]. cbn [mapM]. destruct (lookup d (a_id b)) as [x|e] eqn:Eb; cbn [bind].
    - destruct Ha as [->|Ha]; [congruence|]. rewrite (IH Ha). reflexivity.
    - apply K in Eb. now subst. }
  rewrite X. reflexivity.
Qed.
Print Assumptions C76_unnumbered.

(** No pair style or no pair coefficients: ValueError, and the file stays. *)
Theorem C76_no_potential :
  forall (N : num) (T : textnum N) lmp inv raw srt voro area_pow npsum known ase_write outfile (s : sys N) customs species ps pc mass averaged cs o content,
  ps = None \/ pc = None ->
  convert_snap known s customs species = Ok (cs, o) -> ase_write (tx "lammps-data") o = Ok content ->
  energies T lmp inv raw srt voro area_pow npsum known ase_write outfile s customs species ps pc mass averaged =
    (cs, Some content, Err ValueError).
Proof.
  intros N T lmp inv raw srt voro area_pow npsum known ase_write outfile s customs species ps pc mass averaged cs o content HP HC HW.
  unfold energies, write_ase, get_energy_atom. rewrite HC, HW. destruct ps as [ps|], pc as [pc|]; try reflexivity. destruct HP; discriminate.
Qed.
Print Assumptions C76_no_potential.

(** REFUTED for the default species: 'Au' counts as two species A and u.  If the
    species are not stored in the first atom the call always fails. *)
Theorem C76_default_refuted :
  forall (N : num) (T : textnum N) lmp inv raw srt voro area_pow npsum known ase_write outfile (s : sys N) a l c customs ps pc mass averaged,
  known (tx "A") = false -> known (tx "u") = false ->
  get_atoms s = Ok (a :: l) -> dmem c species_key = false ->
  exists e cs, energies T lmp inv raw srt voro area_pow npsum known ase_write outfile s (c :: customs) default_species ps pc mass averaged =
    (cs, None, Err e).
Proof.
  intros N T lmp inv raw srt voro area_pow npsum known ase_write outfile s a l c customs ps pc mass averaged KA KU HG HM.
  assert (X : exists e, convert_snap known s (c :: customs) default_species = Err e).
  { unfold convert_snap, default_species. rewrite HG. cbn [bind combine]. cbn [snd]. rewrite HM. cbn [negb].
    destruct (negb _); [eexists; reflexivity|].
    unfold assign_species. cbn [mapM fst snd].
    destruct (py_get [tx "A"; tx "u"] (a_type a - 1)) as [v|] eqn:Ev; cbn [bind]; [|eexists; reflexivity].
    destruct (mapM _ (combine l customs)) as [r|]; cbn [bind]; [|eexists; reflexivity].
    cbn [mapM fst snd]. unfold dref. rewrite dget_dset. replace (teqb species_key species_key) with true by reflexivity. cbn [bind].
    assert (Kv : known v = false).
    { assert (Hv : In v [tx "A"; tx "u"]).
      { unfold py_get in Ev. cbv zeta in Ev.
        match type of Ev with (if ?b then _ else _) = _ => destruct b; try discriminate end.
        match type of Ev with match nth_error ?x ?y with _ => _ end = _ => destruct (nth_error x y) as [w|] eqn:En end; try discriminate.
        injection Ev as <-. eapply nth_error_In; exact En. }
      destruct Hv as [<-|[<-|[]]]; assumption. }
    rewrite Kv. eexists. reflexivity. }
  destruct X as (e & X). unfold energies, write_ase. rewrite X. eauto.
Qed.
Print Assumptions C76_default_refuted.

(** ** A concrete run *)
(** LAMMPS returns the atoms in reverse order; the k-th atom has energy k. *)
Definition x_write (_ : text) (o : ase Rnum) : res text := Ok (repeat "a"%char (length (as_positions o))).
Definition x_lmp (content : text) (_ : list text) : res (nat * (nat -> Rnum) * (nat -> Z)) :=
  Ok (length content, fun x => (IZR (Z.of_nat (length content - 1 - x)) : Rnum), fun x => Z.of_nat (length content - x)).
Definition x_energy (_ : ase Rnum) (k : nat) : Rnum := IZR (Z.of_nat k).
Lemma x_libraries cmds : libraries_ok x_write x_lmp cmds x_energy.
Proof.
  intros o content H. injection H as <-. set (n := length (as_positions o)). unfold x_lmp. rewrite repeat_length. fold n.
  eexists. eexists. split; [reflexivity|]. split.
  - apply NoDup_Permutation.
    +
      assert (G : forall m k, k + m <= n -> NoDup (map (fun x => Z.of_nat (n - x)) (seq k m))).
      { induction m as [|m IH]; intros k Hk; cbn [seq map]; constructor; [|apply IH; lia].
        rewrite in_map_iff. intros (y & Ey & Hy). apply in_seq in Hy. lia. }
      apply G. lia.
    + apply FinFun.Injective_map_NoDup; [intros a b; apply Nat2Z.inj|apply seq_NoDup].
    + intros i. rewrite !in_map_iff. split; intros (y & <- & Hy); apply in_seq in Hy; exists (n - y); (split; [try reflexivity; f_equal; lia|apply in_seq; lia]).
  - intros x Hx. unfold x_energy. do 2 f_equal. lia.
Qed.
Definition x_known (t : text) : bool := teqb t (tx "Cu").
Definition x_atoms (i j : Z) : list (atom Rnum) :=
  [at_pos (zv Rnum 1 1 1) <| a_id := i |> <| a_type := 1%Z |>; at_pos (zv Rnum 2 2 2) <| a_id := j |> <| a_type := 1%Z |>].
Definition x_sys (i j : Z) : sys Rnum :=
  set_atoms (sbox (sys_ctor (raw_sys Rnum)) (diag (N := Rnum) 10%R 10%R 10%R)) (x_atoms i j).
Lemma x_get i j : get_atoms (x_sys i j) = Ok (x_atoms i j).
Proof. reflexivity. Qed.
Lemma x_box i j : box_get (x_sys i j) = diag (N := Rnum) 10%R 10%R 10%R.
Proof. reflexivity. Qed.
Lemma x_set inv raw i j : exists s', atoms_set inv raw (x_sys i j) (x_atoms i j) = Ok s'.
Proof.
  rewrite atoms_set_small by (cbn; lia). rewrite x_box.
  replace (neqb (box_sum (diag (N := Rnum) 10%R 10%R 10%R)) n0) with false.
  2:{ symmetry. unfold box_sum. cbn. apply Reqb_false. lra. }
  assert (Esc : exists r, scale_box (diag (N := Rnum) 10%R 10%R 10%R) (small_reps (Z.of_nat (length (x_atoms i j))), small_reps (Z.of_nat (length (x_atoms i j))), small_reps (Z.of_nat (length (x_atoms i j)))) = diag (N := Rnum) (r * 10)%R (r * 10)%R (r * 10)%R).
  { eexists. unfold scale_box, diag, vscale. cbn [vx vy vz r0 r1 r2 nmul Rnum n0 nofZ]. rewrite !Rmult_0_r. reflexivity. }
  destruct Esc as (r & Esc). rewrite Esc, box_set_diag. cbn [bind]. eexists. reflexivity.
Qed.
Lemma x_avg i j ei ej : exists a b, mapM (fun p => avg_energy (N := Rnum) (fun l : list Rnum => total l) [ei; ej] (fst p) (snd p)) (combine (x_atoms i j) [ei; ej]) = Ok [a; b].
Proof. do 2 eexists. reflexivity. Qed.
Lemma x_conv i j : exists cs o, convert_snap x_known (x_sys i j) [[]; []] (Some [tx "Cu"]) = Ok (cs, o) /\ length (as_positions o) = 2.
Proof.
  exists [[(species_key, tx "Cu")]; [(species_key, tx "Cu")]], (mkAse (box_get (x_sys i j)) [tx "Cu"; tx "Cu"] [zv Rnum 1 1 1; zv Rnum 2 2 2]).
  split; [|reflexivity]. unfold convert_snap. rewrite x_get. generalize (box_get (x_sys i j)). intros b. reflexivity.
Qed.
Lemma x_look (d : list (Z * Rnum)) i j ei ej : lookup d i = Ok ei -> lookup d j = Ok ej -> mapM (fun a => lookup d (a_id a)) (x_atoms i j) = Ok [ei; ej].
Proof.
  intros Ei Ej. unfold x_atoms. cbn [mapM].
  change (a_id (at_pos (zv Rnum 1 1 1) <| a_id := i |> <| a_type := 1%Z |>)) with i.
  change (a_id (at_pos (zv Rnum 2 2 2) <| a_id := j |> <| a_type := 1%Z |>)) with j. rewrite Ei, Ej. reflexivity.
Qed.
Lemma x_run : forall (T : textnum Rnum) inv raw srt voro area_pow outfile ps pc mass i j, (1 <= i <= 2)%Z -> (1 <= j <= 2)%Z ->
  exists cs s' e1 e2, energies T x_lmp inv raw srt voro area_pow (fun l => total l) x_known x_write outfile (x_sys i j) [[]; []] (Some [tx "Cu"]) (Some ps) (Some pc) mass false =
    (cs, None, Ok (s', None, [e1; e2])).
Proof.
  intros T inv raw srt voro area_pow outfile ps pc mass i j Hi Hj.
  destruct (x_conv i j) as (cs & o & HC & Ho). unfold energies, write_ase. rewrite HC.
  destruct (x_write (tx "lammps-data") o) as [content|] eqn:HW; [|discriminate].
  destruct (energy_dict Rnum T x_write x_lmp outfile ps pc n1 x_energy o content (x_libraries _) HW) as (d & Ed & Hd).
  rewrite Ed, x_get. cbn [bind].
  assert (L : forall k, (1 <= k <= 2)%Z -> exists e, lookup d k = Ok e).
  { intros k Hk. eexists. rewrite Hd, Ho. destruct (Z.leb_spec 1 k); [|lia]. destruct (Z.leb_spec k (Z.of_nat 2)); [|lia]. reflexivity. }
  destruct (L i Hi) as (ei & Ei), (L j Hj) as (ej & Ej). pose proof (x_look d i j ei ej Ei Ej) as EM.
  rewrite EM. exists cs. unfold calculate_energy. rewrite x_get. cbn [bind]. rewrite EM. cbn [bind andb].
  destruct (x_avg i j ei ej) as (a & b & Ea). rewrite Ea. cbn [bind].
  destruct (x_set inv raw i j) as (s' & Es). rewrite Es. cbn [bind combine]. do 3 eexists. reflexivity.
Qed.

(** Three energies for the id 1: the last counts. *)
Example C76_dictionary_runs : forall (N : num) (T : textnum N) outfile ps pc mass,
  (d <- get_energy_atom T (fun _ _ => Ok (3, (fun x => nofZ (Z.of_nat x)), fun _ => 1%Z)) [] outfile (Some ps) (Some pc) mass ;; lookup d 1) = Ok (nofZ 2).
Proof. reflexivity. Qed.
(** Two libraries that differ when nothing is told. *)
Example C76_commands_hyp : exists lmp lmp' : text -> list text -> res (nat * (nat -> Rnum) * (nat -> Z)),
  (forall outfile ps pc c cmds, told outfile ps pc cmds -> lmp c cmds = lmp' c cmds) /\ lmp [] [] <> lmp' [] [].
Proof.
  exists x_lmp, (fun c cmds => match cmds with [] => Err IOError | _ => x_lmp c cmds end). split; [|discriminate].
  intros outfile ps pc c [|x cmds] [HO _]; [|reflexivity]. cbn [in_order] in HO. destruct HO as (l1 & l2 & E & _). destruct l1; discriminate.
Qed.

(** In order: meets the hypotheses of C76_numbered (and C76_by_number). *)
Example C76_numbered_hyp : forall (T : textnum Rnum) inv raw srt voro area_pow outfile ps pc mass,
  libraries_ok x_write x_lmp (script T outfile ps pc n1) x_energy /\
  (exists l, get_atoms (x_sys 1 2) = Ok l /\ length l = 2 /\ forall k a, nth_error l k = Some a -> a_id a = (Z.of_nat k + 1)%Z) /\
  exists cs s' e1 e2, energies T x_lmp inv raw srt voro area_pow (fun l => total l) x_known x_write outfile (x_sys 1 2) [[]; []] (Some [tx "Cu"]) (Some ps) (Some pc) mass false =
    (cs, None, Ok (s', None, [e1; e2])).
Proof.
  intros T inv raw srt voro area_pow outfile ps pc mass. split; [apply x_libraries|]. split; [|apply x_run; lia].
  exists (x_atoms 1 2). split; [apply x_get|]. split; [reflexivity|]. intros [|[|k]] a H; try (destruct k; discriminate); injection H as <-; reflexivity.
Qed.

(** REFUTED for other ids, as in a dump file that is not sorted: the atom with
    the energy 0 gets 1, the atom with the energy 1 gets 0. *)
Theorem C76_refuted :
  exists (s : sys Rnum) (E : ase Rnum -> nat -> Rnum), (forall o k, E o k = IZR (Z.of_nat k)) /\
  forall (T : textnum Rnum) inv raw srt voro area_pow outfile ps pc mass,
  libraries_ok x_write x_lmp (script T outfile ps pc n1) E /\
  exists cs s' e1 e2, energies T x_lmp inv raw srt voro area_pow (fun l => total l) x_known x_write outfile s [[]; []] (Some [tx "Cu"]) (Some ps) (Some pc) mass false =
    (cs, None, Ok (s', None, [e1; e2])) /\ fst e1 = 1%R /\ fst e2 = 0%R.
Proof.
  exists (x_sys 2 1), x_energy. split; [reflexivity|]. intros T inv raw srt voro area_pow outfile ps pc mass. split; [apply x_libraries|].
  destruct (x_run T inv raw srt voro area_pow outfile ps pc mass 2 1) as (cs & s' & e1 & e2 & H); try lia.
  exists cs, s', e1, e2. split; [exact H|].
  apply C76_by_number with (E := x_energy) in H as (_ & l & o & HG & _ & _ & H); [|apply x_libraries].
  rewrite x_get in HG. injection HG as <-.
  destruct (H 0 _ _ eq_refl eq_refl) as (_ & ->). destruct (H 1 _ _ eq_refl eq_refl) as (_ & ->). split; reflexivity.
Qed.
Print Assumptions C76_refuted.
Example C76_unnumbered_hyp : exists cs o l a, convert_snap x_known (x_sys 1 7) [[]; []] (Some [tx "Cu"]) = Ok (cs, o) /\
  get_atoms (x_sys 1 7) = Ok l /\ In a l /\ (Z.of_nat (length (as_positions o)) < a_id a)%Z.
Proof.
  destruct (x_conv 1 7) as (cs & o & H & L). exists cs, o, (x_atoms 1 7). rewrite L. eexists. split; [exact H|]. split; [apply x_get|].
  split; [right; left; reflexivity|reflexivity].
Qed.
Example C76_default_hyp : exists a l, get_atoms (x_sys 1 2) = Ok (a :: l) /\ dmem ([] : dict text) species_key = false /\
  x_known (tx "A") = false /\ x_known (tx "u") = false.
Proof. do 2 eexists. split; [apply x_get|]. repeat split. Qed.
