(** Property C75: what a plot of a system shows (visualization.py). *)
From Coq Require Import Reals Lra ZArith List Lia Bool Ascii String.
From Verif Require Import Base Num NumR Types Ex M_Geometry M_Container M_Steinhardt M_Text M_Lammps M_Visual
  S_Geometry S_Container S_Visual P_Geometry P_Box P_Container P_Store P_Visual C_Geometry.
Import ListNotations.
Close Scope R_scope. Close Scope Z_scope. Close Scope string_scope.
#[local] Open Scope nat_scope.
Notation length := List.length.

(** The value an atom has for the colour: that of the key, or 1. *)
Definition colour_value {N : num} {V} (of_text : text -> V) (of_num : N -> V) (getattr : atom N -> text -> option V)
    (colorby : option text) (a : catom N) (v : V) : Prop :=
  match colorby with Some key => value_of of_text of_num getattr a key = Ok v | None => v = of_num n1 end.

(** Without a filter, one press of the button: the cell and one marker for each
    real atom, in order, at its remapped position and with its own value as
    colour.  Any arithmetic, any values. *)
Theorem C75_unfiltered :
  forall (N : num) V (of_text : text -> V) of_num getattr truth (to_float : V -> option N) (s : sys N) customs colorby r fig l,
  get_atoms s = Ok l -> length customs = length l ->
  show of_text of_num getattr truth to_float s customs colorby None [r] = Ok fig ->
  exists pos colors,
    fig = create_box_plot (box_get s) (mkV n0 n0 n0) ++ [Cloud pos colors r] /\
    length pos = length l /\ length colors = length l /\
    forall k a c, nth_error l k = Some a -> nth_error customs k = Some c ->
      exists v x, colour_value of_text of_num getattr colorby (a, c) v /\ to_float v = Some x /\
        nth_error (markers pos colors) k = Some (remap_atom s (a_pos a), x).
Proof.
  intros N V of_text of_num getattr truth to_float s customs colorby r fig l G L H. unfold show in H.
  destruct (plot_system _ _ _ _ _ _ _ _ _) as [[[pos cs] tr]|] eqn:E in H; cbn [bind] in H; [|discriminate].
  apply plot_system_eq in E as (l' & G' & HV & Ep & Ec & ->). rewrite G in G'. injection G' as <-.
  assert (F : filter (passes of_text of_num getattr truth None) (combine l customs) = combine l customs).
  { apply filter_every. reflexivity. }
  rewrite F in Ep. clear F.
  assert (LC : length (combine l customs) = length l) by (rewrite combine_length; lia).
  assert (Lp : length pos = length l) by (now rewrite Ep, map_length).
  assert (Lc : length cs = length l).
  { apply (f_equal (@List.length _)) in Ec. rewrite !map_length in Ec. exact (eq_trans (eq_sym Ec) LC). }
  assert (Pn : pos <> []).
  { intros ->. cbn [press plot_3d bind] in H. discriminate. }
  rewrite (press_eq cs Pn [r]) in H. injection H as <-.
  exists pos, cs. split; [reflexivity|]. split; [exact Lp|]. split; [exact Lc|].
  intros k a c Ha Hc.
  assert (Hk : nth_error (combine l customs) k = Some (a, c)).
  { clear -Ha Hc. revert k customs Ha Hc. induction l as [|b l IH]; intros [|k] [|d customs] Ha Hc; try discriminate; cbn in *.
    - congruence.
    - now apply IH. }
  assert (Hp : nth_error pos k = Some (remap_atom s (a_pos a))) by (rewrite Ep, nth_error_map, Hk; reflexivity).
  pose proof (f_equal (fun m => nth_error m k) Ec) as Hx. cbn beta in Hx. rewrite !nth_error_map in Hx. unfold catom in *. rewrite Hk in Hx. cbn [option_map] in Hx.
  destruct (nth_error cs k) as [x|] eqn:Ex; [|discriminate]. injection Hx as Hx.
  exists (colour of_text of_num getattr colorby (a, c)), x. split; [|split; [exact Hx|]].
  - rewrite Forall_forall in HV. destruct (HV (a, c) (nth_error_In _ _ Hk)) as (H1 & _).
    unfold colour_value, colour. destruct colorby as [key|]; [|reflexivity].
    destruct (H1 key eq_refl) as (v & Hv). now rewrite Hv.
  - unfold markers. clear -Hp Ex. revert k cs Hp Ex. induction pos as [|p pos IH]; intros [|k] [|y cs] Hp Ex; try discriminate; cbn in *.
    + congruence.
    + now apply IH.
Qed.
Print Assumptions C75_unfiltered.

(** With a filter: the m-th marker is at the m-th atom that passes, but its
    colour is that of the m-th atom of the whole list.  It has the colour of
    its own value if all atoms that pass come first. *)
Theorem C75_filtered :
  forall (N : num) V (of_text : text -> V) of_num getattr truth (to_float : V -> option N) (s : sys N) customs colorby key r fig l,
  get_atoms s = Ok l -> length customs = length l ->
  show of_text of_num getattr truth to_float s customs colorby (Some key) [r] = Ok fig ->
  exists pos colors (kept : list (catom N)),
    fig = create_box_plot (box_get s) (mkV n0 n0 n0) ++ [Cloud pos colors r] /\
    subseq kept (combine l customs) /\
    (forall a, In a kept <-> In a (combine l customs) /\ exists v, value_of of_text of_num getattr a key = Ok v /\ truth v = true) /\
    pos = map (fun a => remap_atom s (a_pos (fst a))) kept /\ length colors = length l /\
    forall k a, nth_error (combine l customs) k = Some a ->
      exists v, colour_value of_text of_num getattr colorby a v /\ nth_error colors k = to_float v.
Proof.
  intros N V of_text of_num getattr truth to_float s customs colorby key r fig l G L H. unfold show in H.
  destruct (plot_system _ _ _ _ _ _ _ _ _) as [[[pos cs] tr]|] eqn:E in H; cbn [bind] in H; [|discriminate].
  apply plot_system_eq in E as (l' & G' & HV & Ep & Ec & ->). rewrite G in G'. injection G' as <-.
  assert (Pn : pos <> []).
  { intros ->. cbn [press plot_3d bind] in H. discriminate. }
  rewrite (press_eq cs Pn [r]) in H. injection H as <-. rewrite Forall_forall in HV.
  exists pos, cs, (filter (passes of_text of_num getattr truth (Some key)) (combine l customs)).
  split; [reflexivity|]. split.
  { clear. induction (combine l customs) as [|x m IH]; cbn [filter]; [constructor|]. destruct (passes _ _ _ _ _ x); constructor; exact IH. }
  split.
  { intros a. rewrite filter_In. split; intros (Ha & P); split; auto.
    - unfold passes in P. destruct (value_of of_text of_num getattr a key) as [v|] eqn:Ev; [|discriminate]. eauto.
    - destruct P as (v & Ev & Tv). unfold passes. now rewrite Ev. }
  split; [exact Ep|]. split.
  { apply (f_equal (@List.length _)) in Ec. rewrite !map_length in Ec. unfold catom in *. rewrite combine_length in Ec. lia. }
  intros k a Hk. exists (colour of_text of_num getattr colorby a). split.
  - destruct (HV a (nth_error_In _ _ Hk)) as (H1 & _). unfold colour_value, colour. destruct colorby as [key'|]; [|reflexivity].
    destruct (H1 key' eq_refl) as (v & Hv). now rewrite Hv.
  - pose proof (f_equal (fun m => nth_error m k) Ec) as Hx. cbn beta in Hx. rewrite !nth_error_map in Hx. unfold catom in *. rewrite Hk in Hx. cbn [option_map] in Hx.
    destruct (nth_error cs k) as [x|]; [|discriminate]. injection Hx as ->. reflexivity.
Qed.
Print Assumptions C75_filtered.

(** Nobody passes: the button raises IndexError. *)
Theorem C75_nobody :
  forall (N : num) V (of_text : text -> V) of_num getattr truth (to_float : V -> option N) (s : sys N) customs colorby key r l,
  get_atoms s = Ok l ->
  (forall a, In a (combine l customs) -> exists v, value_of of_text of_num getattr a key = Ok v /\ truth v = false) ->
  (forall a, In a (combine l customs) -> exists v x, colour_value of_text of_num getattr colorby a v /\ to_float v = Some x) ->
  show of_text of_num getattr truth to_float s customs colorby (Some key) [r] = Err IndexError.
Proof.
  intros N V of_text of_num getattr truth to_float s customs colorby key r l G HF HC. unfold show, plot_system. rewrite G. cbn [bind].
  assert (HV : Forall (has_values of_text of_num getattr colorby (Some key)) (combine l customs)).
  { apply Forall_forall. intros a Ha. split.
    - intros k ->. destruct (HC a Ha) as (v & _ & Hv & _). exists v. exact Hv.
    - intros k [= <-]. destruct (HF a Ha) as (v & Hv & _). eauto. }
  destruct (loop_ok truth s HV ([], [])) as (st & E). rewrite E. cbn [bind].
  apply loop_eq in E as (-> & _). cbn [fst snd app].
  rewrite filter_none.
  2:{ intros a Ha. destruct (HF a Ha) as (v & Hv & Tv). unfold passes. now rewrite Hv. }
  cbn [map].
  assert (A : exists cs, astype_float to_float (map (colour of_text of_num getattr colorby) (combine l customs)) = Ok cs).
  { unfold astype_float. clear -HC. induction (combine l customs) as [|a m IH]; cbn [map mapM]; [eauto|].
    destruct (HC a (or_introl eq_refl)) as (v & x & Hv & Hx).
    assert (Ev : colour of_text of_num getattr colorby a = v).
    { unfold colour_value in Hv. unfold colour. destruct colorby; [now rewrite Hv|congruence]. }
    rewrite Ev, Hx. cbn [bind]. destruct IH as (cs & Ecs); [intros b Hb; apply HC; now right|]. rewrite Ecs. cbn [bind]. eauto. }
  destruct A as (cs & ->). reflexivity.
Qed.
Print Assumptions C75_nobody.

(** The button pressed n times: the figure holds n clouds, each with all the
    atoms drawn. *)
Theorem C75_pressed :
  forall (N : num) V (of_text : text -> V) of_num getattr truth (to_float : V -> option N) (s : sys N) customs colorby filterby r radii fig,
  show of_text of_num getattr truth to_float s customs colorby filterby [r] = Ok fig ->
  exists pos colors,
    fig = create_box_plot (box_get s) (mkV n0 n0 n0) ++ [Cloud pos colors r] /\
    show of_text of_num getattr truth to_float s customs colorby filterby (r :: radii) = Ok (fig ++ map (Cloud pos colors) radii).
Proof.
  intros N V of_text of_num getattr truth to_float s customs colorby filterby r radii fig H. unfold show in *.
  destruct (plot_system _ _ _ _ _ _ _ _ _) as [[[pos cs] tr]|] eqn:E in *; cbn [bind] in *; [|discriminate].
  apply plot_system_eq in E as (l' & G' & _ & _ & _ & ->).
  assert (Pn : pos <> []).
  { intros ->. cbn [press plot_3d bind] in H. discriminate. }
  rewrite (press_eq cs Pn) in H. injection H as <-. exists pos, cs. split; [reflexivity|].
  rewrite (press_eq cs Pn). reflexivity.
Qed.
Print Assumptions C75_pressed.

(** ** A concrete system: ids as colours, solid atoms only *)
Definition v_attr (a : atom Rnum) (k : text) : option Z :=
  if teqb k (tx "id") then Some (a_id a)
  else if teqb k (tx "solid") then Some (if a_solid a then 1%Z else 0%Z) else None.
Definition v_num : Rnum -> Z := fun _ => 1%Z.
Definition v_text : text -> Z := fun _ => 0%Z.
Definition v_float (z : Z) : option Rnum := Some (IZR z).
Definition v_truth (z : Z) : bool := negb (Z.eqb z 0).
Definition v_box : m3 Rnum := diag (N := Rnum) 10%R 10%R 10%R.
Definition v_sys : sys Rnum :=
  set_atoms (sbox (sys_ctor (raw_sys Rnum)) v_box)
    [at_pos (zv Rnum 1 1 1) <| a_id := 1%Z |>; at_pos (zv Rnum 2 2 2) <| a_id := 2%Z |> <| a_solid := true |>].
Definition v_show := show v_text v_num v_attr v_truth v_float v_sys [[]; []].
Lemma remap_inside (s : sys Rnum) (p : v3 Rnum) : s_tri s = false -> (0 <= vx p < vx (s_len s))%R -> (0 <= vy p < vy (s_len s))%R ->
  (0 <= vz p < vz (s_len s))%R -> remap_atom s p = p.
Proof.
  intros T X Y Z. unfold remap_atom, remap1. rewrite T. destruct p as [x y z], (s_len s) as [a b c]. cbn in *.
  repeat (rewrite (proj2 (Rltb_false _ _)) by lra). repeat (rewrite (proj2 (Rleb_false _ _)) by lra). reflexivity.
Qed.
Lemma v_len : s_len v_sys = mkV (N := Rnum) 10%R 10%R 10%R.
Proof. unfold v_sys, set_atoms, sbox. cbn. change (sbox_len v_box = mkV (N := Rnum) 10%R 10%R 10%R). unfold v_box. apply diag_len; lra. Qed.
Lemma v_remap (x : Z) : (0 <= x < 10)%Z -> remap_atom v_sys (zv Rnum x x x) = zv Rnum x x x.
Proof.
  intros H. assert (X : (0 <= IZR x < 10)%R) by (split; [apply IZR_le|apply IZR_lt]; lia).
  apply remap_inside; [reflexivity| | |]; rewrite v_len; cbn; lra.
Qed.

(** Without filter as it should be; the example meets the hypotheses of
    C75_unfiltered and C75_pressed. *)
Example C75_hyp : forall r : Rnum,
  v_show (Some (tx "id")) None [r] = Ok (create_box_plot v_box (mkV n0 n0 n0) ++ [Cloud [zv Rnum 1 1 1; zv Rnum 2 2 2] [1%R : Rnum; 2%R : Rnum] r]).
Proof.
  intros r. unfold v_show, show, plot_system.
  change (get_atoms v_sys) with (Ok (s_atoms v_sys)). cbn [bind].
  change (combine (s_atoms v_sys) [[]; []]) with
    [(at_pos (zv Rnum 1 1 1) <| a_id := 1%Z |>, [] : dict text); (at_pos (zv Rnum 2 2 2) <| a_id := 2%Z |> <| a_solid := true |>, [])].
  cbn [foldM]. unfold plot_step.
  change (value_of v_text v_num v_attr (at_pos (zv Rnum 1 1 1) <| a_id := 1%Z |>, []) (tx "id")) with (Ok 1%Z).
  change (value_of v_text v_num v_attr (at_pos (zv Rnum 2 2 2) <| a_id := 2%Z |> <| a_solid := true |>, []) (tx "id")) with (Ok 2%Z).
  cbn [bind app fst]. change (a_pos (at_pos (zv Rnum 1 1 1) <| a_id := 1%Z |>)) with (zv Rnum 1 1 1).
  change (a_pos (at_pos (zv Rnum 2 2 2) <| a_id := 2%Z |> <| a_solid := true |>)) with (zv Rnum 2 2 2).
  rewrite !v_remap by lia. reflexivity.
Qed.

(** Meets the hypotheses of C75_nobody: nothing counts as true. *)
Example C75_nobody_hyp : forall r : Rnum,
  show v_text v_num v_attr (fun _ => false) v_float v_sys [[]; []] None (Some (tx "solid")) [r] = Err IndexError.
Proof.
  intros r. apply (C75_nobody Rnum Z v_text v_num v_attr (fun _ => false) v_float v_sys [[]; []] None (tx "solid") r _ eq_refl).
  - intros a [<-|[<-|[]]]; eexists; split; reflexivity.
  - intros a [<-|[<-|[]]]; eexists; eexists; split; reflexivity.
Qed.

(** REFUTED with a filter: the only atom drawn is the one with id 2, its colour
    is 1. *)
Theorem C75_filter_refuted : forall r : Rnum,
  exists colors, v_show (Some (tx "id")) (Some (tx "solid")) [r] =
      Ok (create_box_plot v_box (mkV n0 n0 n0) ++ [Cloud [zv Rnum 2 2 2] colors r]) /\
    markers [zv Rnum 2 2 2] colors = [(zv Rnum 2 2 2, 1%R : Rnum)] /\
    exists a, In a (s_atoms v_sys) /\ a_pos a = zv Rnum 2 2 2 /\ a_solid a = true /\ v_attr a (tx "id") = Some 2%Z.
Proof.
  intros r. exists [1%R : Rnum; 2%R : Rnum]. split.
  - unfold v_show, show, plot_system.
    change (get_atoms v_sys) with (Ok (s_atoms v_sys)). cbn [bind].
    change (combine (s_atoms v_sys) [[]; []]) with
      [(at_pos (zv Rnum 1 1 1) <| a_id := 1%Z |>, [] : dict text); (at_pos (zv Rnum 2 2 2) <| a_id := 2%Z |> <| a_solid := true |>, [])].
    cbn [foldM]. unfold plot_step.
    change (value_of v_text v_num v_attr (at_pos (zv Rnum 1 1 1) <| a_id := 1%Z |>, []) (tx "id")) with (Ok 1%Z).
    change (value_of v_text v_num v_attr (at_pos (zv Rnum 2 2 2) <| a_id := 2%Z |> <| a_solid := true |>, []) (tx "id")) with (Ok 2%Z).
    change (value_of v_text v_num v_attr (at_pos (zv Rnum 1 1 1) <| a_id := 1%Z |>, []) (tx "solid")) with (Ok 0%Z).
    change (value_of v_text v_num v_attr (at_pos (zv Rnum 2 2 2) <| a_id := 2%Z |> <| a_solid := true |>, []) (tx "solid")) with (Ok 1%Z).
    change (v_truth 0%Z) with false. change (v_truth 1%Z) with true.
    cbn [bind app fst]. change (a_pos (at_pos (zv Rnum 2 2 2) <| a_id := 2%Z |> <| a_solid := true |>)) with (zv Rnum 2 2 2).
    rewrite !v_remap by lia. reflexivity.
  - split; [reflexivity|]. eexists. split; [right; left; reflexivity|]. repeat split.
Qed.
Print Assumptions C75_filter_refuted.

(** REFUTED: the button pressed twice draws every atom twice. *)
Theorem C75_twice_refuted : forall r : Rnum,
  exists c, v_show (Some (tx "id")) None [r; r] = Ok (create_box_plot v_box (mkV n0 n0 n0) ++ [c; c]).
Proof.
  intros r. destruct (C75_pressed Rnum Z v_text v_num v_attr v_truth v_float v_sys [[]; []] (Some (tx "id")) None r [r] _ (C75_hyp r)) as (pos & cs & E & H).
  exists (Cloud pos cs r). unfold v_show. rewrite H, E, <- app_assoc. reflexivity.
Qed.
Print Assumptions C75_twice_refuted.

(** ** The cell *)
Definition drawn_segments (b : m3 Rnum) (o : v3 Rnum) : list (v3 Rnum * v3 Rnum) :=
  flat_map (fun t => match t with Line ps => segments ps | Cloud _ _ _ => [] end) (create_box_plot b o).
(** The lines drawn for the cell of a system are exactly its twelve edges. *)
Theorem C75_cell :
  forall (b : m3 Rnum) (p q : v3 Rnum), let o := mkV (N := Rnum) 0%R 0%R 0%R in
  (In (p, q) (drawn_segments b o) \/ In (q, p) (drawn_segments b o)) <-> (edge o b p q \/ edge o b q p).
Proof. intros b p q. exact (box_edges b p q). Qed.
Print Assumptions C75_cell.
Example C75_cell_hyp : length (drawn_segments v_box (mkV (N := Rnum) 0%R 0%R 0%R)) = 24.
Proof. reflexivity. Qed.

(** REFUTED for another origin: the line from the origin ends at a corner of the
    unshifted cell. *)
Theorem C75_origin_refuted :
  exists (b : m3 Rnum) (o p q : v3 Rnum), In (p, q) (drawn_segments b o) /\ ~ edge o b p q /\ ~ edge o b q p.
Proof.
  exists (diag (N := Rnum) 1%R 1%R 1%R), (mkV (N := Rnum) 5%R 5%R 5%R), (mkV (N := Rnum) 5%R 5%R 5%R), (mkV (N := Rnum) 1%R 0%R 0%R).
  split; [now left|].
  split; intros ([|] & [|] & [(H1 & H2)|[(H1 & H2)|(H1 & H2)]]);
    apply (f_equal (fun p : v3 Rnum => vz p)) in H1, H2; cbn in H1, H2; lra.
Qed.
Print Assumptions C75_origin_refuted.

(** ** Where the atoms are drawn *)
(** Inside the drawn cell, for a rectangular box with all atoms stored as they
    are and coordinates less than one length outside. *)
Theorem C75_inside :
  forall (inv : m3 Rnum -> option (m3 Rnum)) (s0 s : sys Rnum) (x y z : R) (p : v3 Rnum),
  (0 < x)%R -> (0 < y)%R -> (0 < z)%R -> s_tri s0 = false -> s_actual s0 = None ->
  box_set inv s0 (diag (N := Rnum) x y z) = Ok s ->
  (- x <= vx p < 2 * x)%R -> (- y <= vy p < 2 * y)%R -> (- z <= vz p < 2 * z)%R ->
  in_cell (box_get s) (remap_atom s p).
Proof.
  intros inv s0 s x y z p Hx Hy Hz T A H Px Py Pz. rewrite box_set_diag in H. injection H as <-.
  assert (Bg : box_get (sbox s0 (diag (N := Rnum) x y z)) = diag (N := Rnum) x y z).
  { unfold box_get, sbox. cbn. now rewrite A. }
  rewrite Bg. unfold in_cell, remap_atom.
  change (s_tri (sbox s0 (diag (N := Rnum) x y z))) with (s_tri s0). rewrite T.
  change (s_len (sbox s0 (diag (N := Rnum) x y z))) with (sbox_len (diag (N := Rnum) x y z)). rewrite diag_len by lra.
  assert (K : forall L d : R, (0 < L)%R -> (- L <= d < 2 * L)%R -> (0 <= remap1 (N := Rnum) L d < L)%R).
  { intros L d HL Hd. unfold remap1. cbn. destruct (Rltb d 0) eqn:E1; [apply Rltb_true in E1; lra|]. apply Rltb_false in E1.
    destruct (Rleb L d) eqn:E2; [apply Rleb_true in E2; lra|]. apply Rleb_false in E2. lra. }
  cbn [vx vy vz r0 r1 r2 diag]. auto.
Qed.
Print Assumptions C75_inside.
Example C75_inside_hyp : exists s, box_set (fun _ => None) (sys_ctor (raw_sys Rnum)) (diag (N := Rnum) 10%R 10%R 10%R) = Ok s /\
  (- 10 <= vx (mkV (N := Rnum) (-3)%R 12%R 5%R) < 2 * 10)%R.
Proof. eexists. split; [apply box_set_diag|cbn; lra]. Qed.

(** REFUTED below 200 atoms: the coordinates are remapped into the enlarged
    box, the cell drawn is the one given. *)
Theorem C75_small_refuted :
  exists (b : m3 Rnum) (a : atom Rnum) (s0 : sys Rnum), b = diag (N := Rnum) 1%R 1%R 1%R /\ vx (a_pos a) = (-1/2)%R /\
    forall inv raw s, box_set inv s0 b = Ok s -> exists s', atoms_set inv raw s [a] = Ok s' /\
      box_get s' = b /\ vx (remap_atom s' (a_pos a)) = (13/2)%R /\ ~ in_cell (box_get s') (remap_atom s' (a_pos a)).
Proof.
  exists (diag (N := Rnum) 1%R 1%R 1%R), (at_pos (mkV (N := Rnum) (-1/2)%R 0%R 0%R)), (sys_ctor (raw_sys Rnum)).
  split; [reflexivity|]. split; [reflexivity|]. intros inv raw s H. rewrite box_set_diag in H. injection H as <-.
  set (s := sbox (sys_ctor (raw_sys Rnum)) (diag (N := Rnum) 1%R 1%R 1%R)).
  set (a := at_pos (mkV (N := Rnum) (-1/2)%R 0%R 0%R)).
  rewrite atoms_set_small by (cbn; lia).
  assert (Bg : box_get s = diag (N := Rnum) 1%R 1%R 1%R) by reflexivity.
  replace (neqb (box_sum (box_get s)) n0) with false.
  2:{ symmetry. rewrite Bg. unfold box_sum. cbn. apply Reqb_false. lra. }
  rewrite Bg. change (small_reps (Z.of_nat (length [a]))) with 3%Z.
  assert (Esc : scale_box (diag (N := Rnum) 1%R 1%R 1%R) (3, 3, 3)%Z = diag (N := Rnum) 7%R 7%R 7%R).
  { unfold scale_box, diag, vscale. cbn. rewrite !Rmult_0_r, !Rmult_1_r. reflexivity. }
  rewrite Esc, box_set_diag. cbn [bind]. eexists. split; [reflexivity|].
  match goal with |- box_get ?x = _ /\ _ => set (s' := x) end.
  assert (Bg' : box_get s' = diag (N := Rnum) 1%R 1%R 1%R) by reflexivity.
  assert (Ls : s_len s' = mkV (N := Rnum) 7%R 7%R 7%R).
  { change (s_len s') with (sbox_len (diag (N := Rnum) 7%R 7%R 7%R)). apply diag_len; lra. }
  assert (R : vx (remap_atom s' (a_pos a)) = (13/2)%R).
  { unfold remap_atom. change (s_tri s') with false. cbn [vx]. rewrite Ls. unfold remap1, a. cbn.
    rewrite (proj2 (Rltb_true _ _)) by lra. lra. }
  split; [exact Bg'|]. split; [exact R|]. rewrite Bg'. intros (I & _). rewrite R in I. cbn in I. lra.
Qed.
Print Assumptions C75_small_refuted.

(** Triclinic cells: an atom is drawn at a periodic image within half a cell of
    the corner at the origin - so REFUTED for every atom further inside: it is
    not drawn in the cell. *)
Theorem C75_triclinic :
  forall (s : sys Rnum) (b : m3 Rnum) (p f : v3 Rnum),
  tric s b -> p = lin b (vx f) (vy f) (vz f) -> (0 <= vx f < 1)%R -> (0 <= vy f < 1)%R -> (0 <= vz f < 1)%R ->
  exists i j k, remap_atom s p = lin b (vx f + IZR i) (vy f + IZR j) (vz f + IZR k) /\
    (Rabs (vx f + IZR i) <= 1 / 2)%R /\ (Rabs (vy f + IZR j) <= 1 / 2)%R /\ (Rabs (vz f + IZR k) <= 1 / 2)%R.
Proof.
  intros s b p f T E Fx Fy Fz.
  destruct (triclinic_frac s b (at_pos p) (at_pos (mkV (N := Rnum) 0%R 0%R 0%R)) f T) as (d & v & i & j & k & G & _ & Ev & B1 & B2 & B3).
  { rewrite <- E. destruct p as [x y z]. cbn. rewrite !Rminus_0_r. reflexivity. }
  exists i, j, k. assert (RA : remap_atom s p = v).
  { unfold remap_atom. rewrite (proj1 T). unfold get_distance in G. injection G as _ G. rewrite <- G.
    unfold distance_vector. f_equal. destruct p as [x y z]. unfold vsub. cbn. rewrite !Rminus_0_r. reflexivity. }
  rewrite RA. split; [exact Ev|].
  assert (A : forall t : R, (0 <= t < 1)%R -> (Rabs t <= 3 / 2)%R) by (intros t Ht; rewrite Rabs_pos_eq; lra).
  auto.
Qed.
Print Assumptions C75_triclinic.
Theorem C75_triclinic_refuted :
  exists (s : sys Rnum) (b : m3 Rnum) (p : v3 Rnum), tric s b /\ p = lin b 0%R 0%R (3/4)%R /\
    ~ exists x y z, (0 <= x < 1)%R /\ (0 <= y < 1)%R /\ (0 <= z < 1)%R /\ remap_atom s p = lin b x y z.
Proof.
  destruct k_hyp as [K1 K2].
  destruct (box_set_tric (fun _ => Some k_inv) (sys_ctor (raw_sys Rnum)) k_box k_inv K1 eq_refl K2) as [s [_ Hs]].
  exists s, k_box, (lin k_box 0%R 0%R (3/4)%R). split; [exact Hs|]. split; [reflexivity|].
  destruct (C75_triclinic s k_box (lin k_box 0%R 0%R (3/4)%R) (mkV (N := Rnum) 0%R 0%R (3/4)%R) Hs eq_refl) as (i & j & k & E & _ & _ & B); try (cbn; lra).
  intros (x & y & z & _ & _ & Hz & E'). rewrite E in E'. apply (f_equal (fun p : v3 Rnum => vz p)) in E'. cbn in E', B.
  assert (Z : (3/4 + IZR k = z)%R) by lra.
  assert (Zk : (-1 < IZR k)%R) by lra. apply (lt_IZR (-1)) in Zk.
  apply Rabs_le_inv in B || (unfold Rabs in B; destruct (Rcase_abs _) in B).
  all: try lra.
  all: assert (Hk : (0 <= IZR k)%R) by (apply IZR_le; lia); lra.
Qed.
Print Assumptions C75_triclinic_refuted.
