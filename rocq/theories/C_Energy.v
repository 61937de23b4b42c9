(** Property C72: System.calculate_energy (core.py:1841-1906). *)
From Coq Require Import Reals Lra Lia.
From Verif Require Import Base Num NumR NumF NumP Types Ex M_Geometry M_Container M_Neighbors M_Energy S_Container S_Energy P_Container P_Centro C_Neighbors.
Local Open Scope R_scope.

Lemma lookup_in (eng : list (Z * R)) id (e : R) : NoDup (map fst eng) -> In (id, e) eng -> lookup (N := Rnum) eng id = Ok e.
Proof.
  induction eng as [|[i e'] eng IH]; intros ND H; [destruct H|destruct H as [H|H]].
  - injection H as <- <-. cbn [lookup]. rewrite Z.eqb_refl. reflexivity.
  - cbn [lookup map fst] in *. inversion ND as [|? ? Hn ND']; subst. destruct (Z.eqb_spec i id) as [->|_]; [|apply IH; assumption].
    exfalso. apply Hn. apply (in_map fst) in H. exact H.
Qed.

(** With neighbours found before, and all of them atoms of the list, the
    averaged energy is the mean over the atom and its neighbours, and the
    neighbour lists are kept. *)
Theorem C72_mean :
  forall inv raw srt voro area_pow npsum (s s' : sys Rnum) eng f averaged l,
  (forall x, npsum x = total x) -> get_atoms s = Ok l -> all_real l -> gives eng f l ->
  s_found s = true \/ averaged = false ->
  (forall a b, In a l -> In b (a_nbrs a) -> (nb_idx b < length l)%nat) ->
  atoms_set inv raw s l = Ok s' ->
  exists out, calculate_energy inv raw srt voro area_pow npsum s eng averaged = Ok (s', None, out) /\ get_atoms s' = Ok l /\
    Forall2 (fun a p => fst p = f (a_id a) /\
       exists es, neighbour_energies f l a es /\ snd p = mean_of (f (a_id a) :: es)) l out.
Proof.
  intros inv raw srt voro area_pow npsum s s' eng f averaged l HS HG HR (ND & HF) HA HI HW.
  set (es := map (fun a => f (a_id a)) l).
  assert (E1 : mapM (fun a => lookup eng (a_id a)) l = Ok (es : list Rnum)).
  { unfold es. clear -ND HF. induction l as [|a l IH]; [reflexivity|]. cbn [mapM map]. rewrite (lookup_in eng (a_id a) (f (a_id a)) ND (HF a (or_introl eq_refl))).
    cbn [bind]. rewrite IH by (intros; apply HF; right; assumption). reflexivity. }
  assert (E2 : forall a, In a l -> exists xs, neighbour_energies f l a xs /\
     avg_energy (N := Rnum) npsum es a (f (a_id a)) = Ok (mean_of (f (a_id a) :: xs) : Rnum)).
  { intros a Ha.
    assert (X : exists xs, neighbour_energies f l a xs /\ mapM (fun b => energy_at (N := Rnum) es (nb_idx b)) (a_nbrs a) = Ok (xs : list Rnum) /\ length xs = length (a_nbrs a)).
    { unfold neighbour_energies. pose proof (HI a) as HI'. specialize (fun b => HI' b Ha) as HI''. clear HI'. revert HI''. generalize (a_nbrs a). intros nb.
      induction nb as [|b nb IH]; intros H; [exists []; split; [constructor|split; reflexivity]|].
      destruct IH as (xs & X1 & X2 & X3); [intros; apply H; right; assumption|].
      assert (Hb := H b (or_introl eq_refl)). destruct (nth_error l (nb_idx b)) as [c|] eqn:Ec; [|apply nth_error_None in Ec; lia].
      exists (f (a_id c) :: xs). split; [constructor; [exists c; auto|exact X1]|]. cbn [mapM]. unfold energy_at at 1. unfold es at 1. rewrite (map_nth_error _ _ _ Ec). cbn [bind].
      split; [|cbn [length]; lia].
      match goal with |- bind ?m _ = _ => replace m with (Ok (xs : list Rnum)) end. reflexivity. }
    destruct X as (xs & X1 & X2 & X3). exists xs. split; [exact X1|]. unfold avg_energy.
    match goal with |- bind ?m _ = _ => replace m with (Ok (xs : list Rnum)) end. cbn [bind]. f_equal. unfold mean_of.
    change (total (f (a_id a) :: xs)) with (f (a_id a) + total xs). rewrite HS. cbn [length]. rewrite X3, S_INR, INR_IZR_INZ.
    unfold n1. cbn [nadd ndiv nofZ Rnum]. f_equal. apply Rplus_comm. }
  assert (E3 : exists avs, mapM (fun p => avg_energy (N := Rnum) npsum es (fst p) (snd p)) (combine l es) = Ok (avs : list Rnum) /\ length avs = length l /\
     Forall2 (fun a p => fst p = f (a_id a) /\ exists xs, neighbour_energies f l a xs /\ snd p = mean_of (f (a_id a) :: xs)) l (combine es avs)).
  { assert (G : forall e0 l0, (forall a, In a l0 -> exists xs, neighbour_energies f l a xs /\ avg_energy (N := Rnum) npsum e0 a (f (a_id a)) = Ok (mean_of (f (a_id a) :: xs) : Rnum)) ->
      exists avs, mapM (fun p => avg_energy (N := Rnum) npsum e0 (fst p) (snd p)) (combine l0 (map (fun a => f (a_id a)) l0)) = Ok (avs : list Rnum) /\ length avs = length l0 /\
       Forall2 (fun a p => fst p = f (a_id a) /\ exists xs, neighbour_energies f l a xs /\ snd p = mean_of (f (a_id a) :: xs)) l0 (combine (map (fun a => f (a_id a)) l0) avs)).
    { intros e0. induction l0 as [|a l0 IH]; intros H; [exists []; repeat split; constructor|].
      destruct IH as (avs & A1 & A2 & A3); [intros; apply H; right; assumption|].
      destruct (H a (or_introl eq_refl)) as (xs & X1 & X2). exists (mean_of (f (a_id a) :: xs) :: avs).
      cbn [combine map mapM fst snd]. rewrite X2. cbn [bind].
      split; [match goal with |- bind ?m _ = _ => replace m with (Ok (avs : list Rnum)) end; reflexivity|].
      split; [cbn [length]; lia|]. constructor; [|exact A3]. cbn [fst snd]. split; [reflexivity|]. exists xs. auto. }
    exact (G es l E2). }
  destruct E3 as (avs & A1 & A2 & A3).
  exists (combine es avs). destruct (atoms_set_spec HR HW) as (g & _ & G & _).
  split; [|split; [exact G|exact A3]].
  unfold calculate_energy. rewrite HG. cbn [bind]. rewrite E1. cbn [bind].
  replace (averaged && negb (s_found s))%bool with false by (destruct HA as [-> | ->]; [rewrite Bool.andb_false_r|]; reflexivity).
  cbn [bind]. match goal with |- bind ?m _ = _ => replace m with (Ok (avs : list Rnum)) by (symmetry; exact A1) end. cbn [bind]. rewrite HW. reflexivity.
Qed.
Print Assumptions C72_mean.

(** ** Neighbours that are not in the list *)
Lemma mapM_IndexError {A B} (f : A -> res B) l a : (forall x e, In x l -> f x = Err e -> e = IndexError) ->
  In a l -> f a = Err IndexError -> mapM f l = Err IndexError.
Proof.
  induction l as [|b l IH]; intros He Ha Hf; [destruct Ha|]. cbn [mapM]. destruct (f b) as [v|e] eqn:Eb; cbn [bind].
  - destruct Ha as [->|Ha]; [congruence|]. rewrite IH; [reflexivity| |exact Ha|exact Hf]. intros x e Hx. apply He. right. exact Hx.
  - rewrite (He b e (or_introl eq_refl) Eb). reflexivity.
Qed.
(** If neighbours were found before and one of them is not a real atom (a
    ghost), the call fails, with averaging or without. *)
Theorem C72_ghost_neighbour :
  forall (N : num) inv raw srt voro area_pow npsum (s : sys N) eng averaged l a b,
  get_atoms s = Ok l -> s_found s = true \/ averaged = false ->
  (forall a, In a l -> exists e, lookup eng (a_id a) = Ok e) ->
  In a l -> In b (a_nbrs a) -> (length l <= nb_idx b)%nat ->
  calculate_energy inv raw srt voro area_pow npsum s eng averaged = Err IndexError.
Proof.
  intros N inv raw srt voro area_pow npsum s eng averaged l a b HG HA HE Ha Hb Hi.
  unfold calculate_energy. rewrite HG. cbn [bind].
  assert (X : exists es, mapM (fun a => lookup eng (a_id a)) l = Ok es /\ length es = length l).
  { clear -HE. induction l as [|a l IH]; [exists []; auto|]. destruct (HE a (or_introl eq_refl)) as (e & Ee). destruct IH as (es & E1 & E2); [intros; apply HE; right; assumption|].
    exists (e :: es). cbn [mapM]. rewrite Ee. cbn [bind]. rewrite E1. cbn [bind length]. auto. }
  destruct X as (es & E1 & E2). rewrite E1. cbn [bind].
  replace (averaged && negb (s_found s))%bool with false by (destruct HA as [-> | ->]; [rewrite Bool.andb_false_r|]; reflexivity).
  cbn [bind].
  assert (Y : forall es' : list N, length es' = length l -> exists e, In (a, e) (combine l es')).
  { clear -Ha. induction l as [|c l IH]; intros [|e es'] HL; try discriminate; [destruct Ha|]. destruct Ha as [->|Ha]; [exists e; left; reflexivity|].
    destruct (IH Ha es') as (e' & He'); [cbn in HL; lia|]. exists e'. right. exact He'. }
  destruct (Y es E2) as (e & He).
  assert (Q : forall x (e : N) er, avg_energy npsum es x e = Err er -> er = IndexError).
  { intros x e' er. unfold avg_energy. destruct (mapM _ (a_nbrs x)) as [v|er'] eqn:EM; cbn [bind]; [discriminate|]. intros [= <-].
    apply mapM_Err in EM as (c & _ & Hc). unfold energy_at in Hc. destruct (nth_error es (nb_idx c)); [discriminate|]. injection Hc; auto. }
  rewrite (mapM_IndexError (fun p => avg_energy npsum es (fst p) (snd p)) (combine l es) (a, e)); [reflexivity| |exact He|].
  - intros x er _. apply Q.
  - cbn [fst snd]. unfold avg_energy. rewrite (mapM_IndexError _ (a_nbrs a) b); [reflexivity| |exact Hb|].
    + intros x er _. unfold energy_at. destruct (nth_error es (nb_idx x)); [discriminate|]. intros [= <-]. reflexivity.
    + unfold energy_at. destruct (nth_error es (nb_idx b)) eqn:EN; [|reflexivity]. exfalso. apply nth_error_Some in Hi as HH || idtac. assert (nb_idx b < length es)%nat by (apply nth_error_Some; congruence). lia.
Qed.
Print Assumptions C72_ghost_neighbour.

(** ** Neighbours found on the fly *)
(** The neighbours found by the call are not used and not kept. *)
Theorem C72_on_the_fly :
  forall (N : num) inv raw srt voro area_pow npsum (s s' : sys N) eng l out,
  get_atoms s = Ok l -> all_real l -> s_found s = false -> (forall a, In a l -> a_nbrs a = []) ->
  calculate_energy inv raw srt voro area_pow npsum s eng true = Ok (s', None, out) ->
  (forall p, In p out -> snd p = ndiv (nadd (npsum []) (fst p)) (nadd (nofZ 0) n1)) /\
  get_atoms s' = Ok l /\ s_found s' = true.
Proof.
  intros N inv raw srt voro area_pow npsum s s' eng l out HG HR HF HN E. unfold calculate_energy in E. rewrite HG in E. cbn [bind] in E.
  destruct (mapM (fun a => lookup eng (a_id a)) l) as [es|] eqn:E1; cbn [bind] in E; [|discriminate].
  rewrite HF in E. cbn [negb andb] in E.
  destruct (find_neighbors srt voro area_pow inv s _) as [[s1 [e|]]|] eqn:E2; cbn [bind] in E; try discriminate.
  destruct (mapM (fun p => avg_energy npsum es (fst p) (snd p)) (combine l es)) as [avs|] eqn:E3; cbn [bind] in E; [|discriminate].
  destruct (atoms_set inv raw s1 l) as [s2|] eqn:E4; cbn [bind] in E; [|discriminate]. injection E as <- <-.
  destruct (atoms_set_spec HR E4) as (g & _ & G & _). split; [|split; [exact G|]].
  - apply mapM_inv in E3.
    assert (X : forall a (e v : N), In a l -> avg_energy npsum es a e = Ok v -> v = ndiv (nadd (npsum []) e) (nadd (nofZ 0) n1)).
    { intros a e v Ha Ev. unfold avg_energy in Ev. rewrite (HN a Ha) in Ev. cbn [mapM bind length] in Ev. injection Ev as <-. reflexivity. }
    assert (Y : forall l0 es0 avs0, (forall a (e v : N), In a l0 -> avg_energy npsum es a e = Ok v -> v = ndiv (nadd (npsum []) e) (nadd (nofZ 0) n1)) ->
      length es0 = length l0 -> Forall2 (fun p v => avg_energy npsum es (fst p) (snd p) = Ok v) (combine l0 es0) avs0 ->
      forall p, In p (combine es0 avs0) -> snd p = ndiv (nadd (npsum []) (fst p)) (nadd (nofZ 0) n1)).
    { clear. induction l0 as [|a l0 IH]; intros [|e es0] avs0 HX HL HF2 p Hp; try discriminate; cbn [combine] in HF2; inversion HF2 as [|? v ? avs1 Hv HF3]; subst; [destruct Hp|].
      cbn [combine] in Hp. destruct Hp as [<-|Hp].
      - cbn [fst snd] in *. apply (HX a e v); [left; reflexivity|exact Hv].
      - refine (IH es0 avs1 _ _ HF3 p Hp); [intros a' e' v' Ha'; apply HX; right; exact Ha'|cbn [length] in HL; lia]. }
    apply (Y l es avs X); [|exact E3]. apply mapM_inv in E1. clear -E1. induction E1; cbn [length]; congruence.
  - assert (F : s_found s1 = true).
    { clear -E2. unfold find_neighbors in E2. destruct (reset_all_neighbors s) as [s0|]; cbn [bind] in E2; [|discriminate].
      cbn [fa_method fa_threshold fa_nlimit fa_padding fa_filter] in E2. destruct (neqb _ _).
      - destruct (nltb _ _); [discriminate|]. cbv zeta in E2. destruct (get_all_neighbors_adaptive _ _ _ _ _) as [[s3 [|]]|]; cbn [bind] in E2; try discriminate. injection E2 as <-. reflexivity.
      - destruct (Z.ltb _ _); [destruct (get_all_neighbors_cells _)|destruct (get_all_neighbors_normal _)]; cbn [bind] in E2; try discriminate; injection E2 as <-; reflexivity. }
    clear -E4 F. unfold atoms_set in E4. destruct (Z.ltb _ _); [|injection E4 as <-; exact F].
    destruct (Z.eqb _ _); [discriminate|]. destruct (neqb _ _); [discriminate|]. unfold repeat_cell in E4. cbn [bind] in E4. unfold box_set in E4.
    destruct (nltb _ _); [destruct (inv _); [|discriminate]|]; cbn [bind] in E4; injection E4 as <-; exact F.
Qed.
Print Assumptions C72_on_the_fly.

(** A cell of eight atoms: the search finds neighbours with other energies for
    every atom, but the averaged energies are the atoms' own; and when the
    neighbours are found first the call fails. *)
Definition e_l : list (atom P64) :=
  map (fun p : Z * (Z * Z * Z) => let '(i, (x, y, z)) := p in at_pos (zv P64 x y z) <| a_id := i |>)
    [(1, (0, 0, 0)); (2, (1, 0, 0)); (3, (0, 1, 0)); (4, (1, 1, 0)); (5, (0, 0, 1)); (6, (1, 0, 1)); (7, (0, 1, 1)); (8, (1, 1, 1))]%Z.
Definition e_eng : list (Z * P64) := map (fun i => (i, nofZ (n := P64) (i * i))) [1; 2; 3; 4; 5; 6; 7; 8]%Z.
Definition e_inv (m : m3 P64) : option (m3 P64) := None.
Definition e_raw (_ : Z) : atom P64 := raw_atom P64.
Definition e_sum (l : list P64) : P64 := fold_left nadd l (nofZ 0).
Definition e_sys : res (sys P64) :=
  s <- box_set e_inv (sys_ctor (raw_sys P64)) (diag (N := P64) (nofZ 2) (nofZ 2) (nofZ 2)) ;; atoms_set e_inv e_raw s e_l.
Definition e_args : fn_args P64 := mkArgs (MCutoff (CutVal (nofZ (n := P64) 0))) FNone (nofZ 2) (nlit 6 5) 6%Z.
Definition e_find (s : sys P64) := find_neighbors isort no_voro (fun x : P64 => x) e_inv s e_args.
Definition e_energy (s : sys P64) (b : bool) := calculate_energy e_inv e_raw isort no_voro (fun x : P64 => x) e_sum s e_eng b.
Definition e_len (l : list (atom P64)) : list nat := map (fun a => length (a_nbrs a)) l.
Definition e_fly_check (r : res (sys P64)) (find : sys P64 -> res (outcome P64)) (energy : sys P64 -> bool -> res (outcome P64 * list (P64 * P64))) : bool :=
  match r with
  | Ok s => match find s, energy s true with
            | Ok (s1, None), Ok (s', None, out) =>
                match get_atoms s1, get_atoms s' with
                | Ok l1, Ok l' => forallb (fun n => Nat.leb 6 n) (e_len l1) && forallb (fun n => Nat.eqb n 0) (e_len l')
                    && forallb (fun p => neqb (n := P64) (fst p) (snd p)) out && Nat.eqb (length out) 8
                | _, _ => false end
            | _, _ => false end
  | Err _ => false end.
Lemma e_fly_sound r find energy : e_fly_check r find energy = true ->
  exists s s1 s' l1 l' out, r = Ok s /\
    find s = Ok (s1, None) /\ get_atoms s1 = Ok l1 /\ (forall a, In a l1 -> (6 <= length (a_nbrs a))%nat) /\
    energy s true = Ok (s', None, out) /\ length out = 8%nat /\ (forall p, In p out -> neqb (n := P64) (fst p) (snd p) = true) /\
    get_atoms s' = Ok l' /\ (forall a, In a l' -> a_nbrs a = []).
Proof.
  intros F. unfold e_fly_check in F. destruct r as [s|]; [|discriminate].
  destruct (find s) as [[s1 [e|]]|] eqn:E2; try discriminate.
  destruct (energy s true) as [[[s' [e|]] out]|] eqn:E3; try discriminate.
  destruct (get_atoms s1) as [l1|] eqn:E4; [|discriminate]. destruct (get_atoms s') as [l'|] eqn:E5; [|discriminate].
  apply Bool.andb_true_iff in F as (F & F4). apply Bool.andb_true_iff in F as (F & F3). apply Bool.andb_true_iff in F as (F1 & F2).
  rewrite forallb_forall in F1, F2, F3.
  exists s, s1, s', l1, l', out. split; [reflexivity|]. split; [exact E2|]. split; [exact E4|].
  split; [intros a Ha; apply Nat.leb_le, F1; unfold e_len; apply (in_map (fun a => length (a_nbrs a))); exact Ha|].
  split; [exact E3|]. split; [apply Nat.eqb_eq; exact F4|]. split; [exact F3|]. split; [exact E5|].
  intros a Ha. assert (H : Nat.eqb (length (a_nbrs a)) 0 = true) by (apply F2; unfold e_len; apply (in_map (fun a => length (a_nbrs a))); exact Ha).
  apply Nat.eqb_eq in H. destruct (a_nbrs a); [reflexivity|discriminate].
Qed.
Lemma e_fly_run : e_fly_check e_sys e_find e_energy = true.
Proof. vm_compute. reflexivity. Qed.
Theorem C72_on_the_fly_refuted :
  exists s s1 s' l1 l' out, e_sys = Ok s /\
    e_find s = Ok (s1, None) /\ get_atoms s1 = Ok l1 /\ (forall a, In a l1 -> (6 <= length (a_nbrs a))%nat) /\
    e_energy s true = Ok (s', None, out) /\ length out = 8%nat /\ (forall p, In p out -> neqb (n := P64) (fst p) (snd p) = true) /\
    get_atoms s' = Ok l' /\ (forall a, In a l' -> a_nbrs a = []).
Proof. exact (e_fly_sound _ _ _ e_fly_run). Qed.
Print Assumptions C72_on_the_fly_refuted.

Definition e_first_check (r : res (sys P64)) (find : sys P64 -> res (outcome P64)) (energy : sys P64 -> bool -> res (outcome P64 * list (P64 * P64))) : bool :=
  match r with
  | Ok s => match find s with
            | Ok (s1, None) => match energy s1 true, energy s1 false with Err IndexError, Err IndexError => true | _, _ => false end
            | _ => false end
  | Err _ => false end.
Lemma e_first_sound r find energy : e_first_check r find energy = true ->
  exists s s1, r = Ok s /\ find s = Ok (s1, None) /\ forall averaged, energy s1 averaged = Err IndexError.
Proof.
  intros F. unfold e_first_check in F. destruct r as [s|]; [|discriminate]. destruct (find s) as [[s1 [e|]]|] eqn:E1; try discriminate.
  exists s, s1. split; [reflexivity|]. split; [exact E1|].
  destruct (energy s1 true) as [|[]] eqn:E2; try discriminate. destruct (energy s1 false) as [|[]] eqn:E3; try discriminate. intros [|]; assumption.
Qed.
Lemma e_first_run : e_first_check e_sys e_find e_energy = true.
Proof. vm_compute. reflexivity. Qed.
Theorem C72_small_cell_refuted :
  exists s s1, e_sys = Ok s /\ e_find s = Ok (s1, None) /\ forall averaged, e_energy s1 averaged = Err IndexError.
Proof. exact (e_first_sound _ _ _ e_first_run). Qed.
Print Assumptions C72_small_cell_refuted.

(** The hypotheses of C72_mean: a ring of 200 atoms. *)
Definition ring_l : list (atom Rnum) :=
  map (fun k => at_pos (zv Rnum (Z.of_nat k) 0 0) <| a_id := Z.of_nat k |>
                  <| a_nbrs := [mkNbr (N := Rnum) ((k + 1) mod 200) 1 1 (zv Rnum 1 0 0)] |>) (seq 0 200).
Definition ring_sys : sys Rnum := set_atoms (sys_ctor (raw_sys Rnum)) ring_l <| s_found := true |>.
Definition ring_eng : list (Z * R) := map (fun k => (Z.of_nat k, INR k)) (seq 0 200).
Lemma set_again (s : sys Rnum) l : set_atoms (set_atoms s l <| s_found := true |>) l = set_atoms s l <| s_found := true |>.
Proof. reflexivity. Qed.
Example C72_hyp :
  get_atoms ring_sys = Ok ring_l /\ all_real ring_l /\ gives ring_eng IZR ring_l /\ s_found ring_sys = true /\
  (forall a b, In a ring_l -> In b (a_nbrs a) -> (nb_idx b < length ring_l)%nat) /\
  atoms_set (fun _ => None) (fun _ => raw_atom Rnum) ring_sys ring_l = Ok ring_sys.
Proof.
  assert (Hr : all_real ring_l) by (intros a Ha; apply in_map_iff in Ha as (k & <- & _); reflexivity).
  assert (Hn : length ring_l = 200%nat) by (unfold ring_l; rewrite map_length, seq_length; reflexivity).
  assert (Hw : atoms_set (fun _ => None) (fun _ => raw_atom Rnum) ring_sys ring_l = Ok ring_sys).
  { unfold atoms_set. rewrite Hn. change (Z.of_nat 200 <? 200)%Z with false. cbv iota. unfold ring_sys. rewrite set_again. reflexivity. }
  split; [|split; [exact Hr|split; [|split; [reflexivity|split; [|exact Hw]]]]].
  - destruct (atoms_set_spec Hr Hw) as (g & _ & G & _). exact G.
  - split.
    + unfold ring_eng. rewrite map_map. cbn [fst]. apply FinFun.Injective_map_NoDup; [intros x y; apply Nat2Z.inj|apply seq_NoDup].
    + intros a Ha. apply in_map_iff in Ha as (k & <- & Hk). apply in_map_iff. exists k. split; [cbn [a_id set]; rewrite INR_IZR_INZ; reflexivity|exact Hk].
  - intros a b Ha Hb. apply in_map_iff in Ha as (k & <- & Hk). destruct Hb as [<-|[]]. rewrite Hn. apply Nat.mod_upper_bound. discriminate.
Qed.
