(** Plots: the loop over the atoms, the box and the button. *)
From Coq Require Import Reals Lra List Lia Bool.
From Verif Require Import Base Num NumR Types M_Geometry M_Container M_Steinhardt M_Text M_Lammps M_Visual S_Container S_Visual.
Import ListNotations.
Set Implicit Arguments.
Unset Strict Implicit.
Close Scope R_scope.

Section P.
Variable N : num.
Variable V : Type.
Variable of_text : text -> V.
Variable of_num : N -> V.
Variable getattr : atom N -> text -> option V.
Variable truth : V -> bool.
Variable to_float : V -> option N.
Notation value := (value_of of_text of_num getattr).

(** The value of one key for an atom, if there is one. *)
Definition passes (filterby : option text) (a : catom N) : bool :=
  match filterby with
  | None => true
  | Some k => match value a k with Ok v => truth v | Err _ => false end
  end.
Definition has_values (colorby filterby : option text) (a : catom N) : Prop :=
  (forall k, colorby = Some k -> exists v, value a k = Ok v) /\ (forall k, filterby = Some k -> exists v, value a k = Ok v).
Definition colour (colorby : option text) (a : catom N) : V :=
  match colorby with
  | None => of_num n1
  | Some k => match value a k with Ok v => v | Err _ => of_num n1 end
  end.
Notation step := (plot_step of_text of_num getattr truth).

Lemma loop_eq s cb fb l : forall st st', foldM (step s cb fb) l st = Ok st' ->
  st' = (fst st ++ map (fun a => remap_atom s (a_pos (fst a))) (filter (passes fb) l), snd st ++ map (colour cb) l) /\
  Forall (has_values cb fb) l.
Proof.
  induction l as [|a l IH]; intros [ps cs] st' H; cbn [foldM] in H.
  - injection H as <-. cbn. now rewrite !app_nil_r.
  - destruct (step s cb fb (ps, cs) a) as [[ps1 cs1]|] eqn:E; cbn [bind] in H; [|discriminate].
    destruct (IH _ _ H) as (-> & F). cbn [fst snd].
    unfold plot_step in E. cbn [filter map].
    assert (X : ps1 = ps ++ (if passes fb a then [remap_atom s (a_pos (fst a))] else []) /\ cs1 = cs ++ [colour cb a] /\ has_values cb fb a).
    { unfold passes, colour, has_values. destruct fb as [k|].
      - destruct (value a k) as [v|] eqn:Ev; cbn [bind] in E; [|discriminate].
        destruct cb as [k'|].
        + destruct (value a k') as [w|] eqn:Ew; cbn [bind] in E; [|discriminate]. injection E as <- <-.
          split; [destruct (truth v); now rewrite ?app_nil_r|]. split; [reflexivity|].
          split; intros ? [= <-]; eauto.
        + cbn [bind] in E. injection E as <- <-. split; [destruct (truth v); now rewrite ?app_nil_r|]. split; [reflexivity|].
          split; [discriminate|intros ? [= <-]; eauto].
      - cbn [bind] in E. destruct cb as [k'|].
        + destruct (value a k') as [w|] eqn:Ew; cbn [bind] in E; [|discriminate]. injection E as <- <-.
          split; [reflexivity|]. split; [reflexivity|]. split; [intros ? [= <-]; eauto|discriminate].
        + cbn [bind] in E. injection E as <- <-. repeat split; discriminate. }
    destruct X as (-> & -> & HV). split; [|now constructor].
    rewrite <- !app_assoc. destruct (passes fb a); reflexivity.
Qed.
Lemma loop_ok s cb fb l : Forall (has_values cb fb) l -> forall st, exists st', foldM (step s cb fb) l st = Ok st'.
Proof.
  induction 1 as [|a l (H1 & H2) F IH]; intros [ps cs]; cbn [foldM]; [eauto|].
  assert (X : exists st, step s cb fb (ps, cs) a = Ok st).
  { unfold plot_step. destruct fb as [k|]; [destruct (H2 k eq_refl) as (v & ->)|]; cbn [bind];
      (destruct cb as [k'|]; [destruct (H1 k' eq_refl) as (w & ->)|]; cbn [bind]; eauto). }
  destruct X as (st & ->). cbn [bind]. apply IH.
Qed.

Lemma astype_eq vs cs : astype_float to_float vs = Ok cs -> map to_float vs = map Some cs.
Proof.
  unfold astype_float. revert cs. induction vs as [|v vs IH]; cbn [mapM]; intros cs H.
  - injection H as <-. reflexivity.
  - destruct (to_float v) as [x|] eqn:E; cbn [bind] in H; [|discriminate].
    destruct (mapM _ vs) as [ys|]; cbn [bind] in H; [|discriminate]. injection H as <-. cbn [map]. rewrite E. f_equal. auto.
Qed.

Theorem plot_system_eq s customs cb fb pos cs tr :
  plot_system of_text of_num getattr truth to_float s customs cb fb = Ok (pos, cs, tr) ->
  exists l, get_atoms s = Ok l /\ let drawn := combine l customs in
    Forall (has_values cb fb) drawn /\
    pos = map (fun a => remap_atom s (a_pos (fst a))) (filter (passes fb) drawn) /\
    map to_float (map (colour cb) drawn) = map Some cs /\ tr = create_box_plot (box_get s) (mkV n0 n0 n0).
Proof.
  unfold plot_system. destruct (get_atoms s) as [l|]; cbn [bind]; [|discriminate]. intros H. exists l. split; [reflexivity|].
  destruct (foldM _ _ _) as [[ps vs]|] eqn:E in H; cbn [bind] in H; [|discriminate].
  destruct (loop_eq E) as (E1 & F). cbn [fst snd app] in E1. injection E1 as -> ->.
  destruct (astype_float _ _) as [cs'|] eqn:Ec; cbn [bind] in H; [|discriminate]. injection H as <- <- <-.
  apply astype_eq in Ec. auto.
Qed.

Lemma press_eq pos cs : pos <> [] -> forall radii (tr : list (trace N)),
  press pos cs radii tr = Ok (tr ++ map (Cloud pos cs) radii).
Proof.
  intros P. induction radii as [|r radii IH]; intros tr; cbn [press]; [now rewrite app_nil_r|].
  unfold plot_3d. destruct pos as [|p pos]; [congruence|]. cbn [bind]. rewrite IH, <- app_assoc. reflexivity.
Qed.
End P.

(** ** The cell *)
Lemma v3_ext (p q : v3 Rnum) : vx p = vx q -> vy p = vy q -> vz p = vz q -> p = q.
Proof. destruct p, q; cbn; congruence. Qed.
Ltac v3eq := apply v3_ext; cbn; lra.
Definition box_segments (b : m3 Rnum) (o : v3 Rnum) : list (v3 Rnum * v3 Rnum) :=
  flat_map (fun t => match t with Line ps => segments ps | Cloud _ _ _ => [] end) (create_box_plot b o).
Definition C (b : m3 Rnum) := corner (mkV (N := Rnum) 0%R 0%R 0%R) b.
Lemma box_segments_eq (b : m3 Rnum) : box_segments b (mkV n0 n0 n0) =
  let c := C b in
  [(c false false false, c true false false); (c true false false, c true true false); (c true true false, c false true false); (c false true false, c false false false);
   (c false false true, c true false true); (c true false true, c true true true); (c true true true, c false true true); (c false true true, c false false true);
   (c false false false, c true false false); (c true false false, c true false true); (c true false true, c false false true); (c false false true, c false false false);
   (c false true false, c true true false); (c true true false, c true true true); (c true true true, c false true true); (c false true true, c false true false);
   (c false false false, c false true false); (c false true false, c false true true); (c false true true, c false false true); (c false false true, c false false false);
   (c true false false, c true true false); (c true true false, c true true true); (c true true true, c true false true); (c true false true, c true false false)].
Proof.
  unfold box_segments, create_box_plot, combos2, faces, C, corner. cbn [flat_map map app segments combine tl row Nat.sub Nat.add].
  destruct b as [[a1 a2 a3] [b1 b2 b3] [c1 c2 c3]]. cbn.
  repeat (apply f_equal2; [apply f_equal2; v3eq|]). reflexivity.
Qed.
Theorem box_edges (b : m3 Rnum) p q :
  (In (p, q) (box_segments b (mkV n0 n0 n0)) \/ In (q, p) (box_segments b (mkV n0 n0 n0))) <->
  (edge (mkV (N := Rnum) 0%R 0%R 0%R) b p q \/ edge (mkV (N := Rnum) 0%R 0%R 0%R) b q p).
Proof.
  rewrite box_segments_eq. cbv zeta. unfold edge. fold (C b). set (c := C b). clearbody c. cbn [In]. split.
  - assert (K : forall x y : v3 Rnum, (exists e f : bool, x = c false e f /\ y = c true e f \/ x = c e false f /\ y = c e true f \/ x = c e f false /\ y = c e f true) ->
        (exists e f : bool, x = c false e f /\ y = c true e f \/ x = c e false f /\ y = c e true f \/ x = c e f false /\ y = c e f true)) by auto.
    intros [H|H]; repeat (destruct H as [H|H]; [injection H as <- <-|]); try contradiction;
    try (left; first [now (exists false, false; intuition) | now (exists false, true; intuition) | now (exists true, false; intuition) | now (exists true, true; intuition)]);
    (right; first [now (exists false, false; intuition) | now (exists false, true; intuition) | now (exists true, false; intuition) | now (exists true, true; intuition)]).
  - intros [([|] & [|] & [(-> & ->)|[(-> & ->)|(-> & ->)]])|([|] & [|] & [(-> & ->)|[(-> & ->)|(-> & ->)]])];
    first [left; solve [repeat (first [left; reflexivity|right])] | right; solve [repeat (first [left; reflexivity|right])]].
Qed.
