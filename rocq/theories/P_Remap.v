(** remap_atoms over the reals. *)
From Coq Require Import Lia ZArith List Reals Lra.
From Verif Require Import Base Num NumR Types M_Geometry M_Container S_Geometry S_Container
  P_Geometry P_Box P_Container Ex.
Set Implicit Arguments.
Unset Strict Implicit.
Open Scope R_scope.

Lemma remap1_spec (L x : R) : remapped1 L x (remap1 (N:=Rnum) L x).
Proof.
  intros [HL Hx]. unfold remap1; rnum. unfold Rltb, Rleb.
  destruct (Rlt_dec x 0).
  - split; [lra|]. exists 1%Z. lra.
  - destruct (Rle_dec L x).
    + split; [lra|]. exists (-1)%Z. lra.
    + split; [lra|]. exists 0%Z. lra.
Qed.

Lemma inside_true b p : inside (N:=Rnum) b p = true <-> in_cell b p.
Proof.
  unfold inside, in_cell; rnum. rewrite !andb_true_iff, !Rleb_true, !Rltb_true. tauto.
Qed.

Lemma box_set_geometry (inv : m3 Rnum -> option (m3 Rnum)) s b s' l p q :
  box_set inv s b = Ok s' -> abs_distance (set_atoms s' l) p q = abs_distance s' p q.
Proof. intros _. reflexivity. Qed.

Lemma remap_atoms_spec (inv : m3 Rnum -> option (m3 Rnum)) s ri asg ra (dtol : R) s' l' l :
  get_atoms s = Ok l ->
  remap_atoms inv s ri asg ra dtol = Ok (s', l') ->
  exists l1 l2,
    Forall2 (remapped (box_get s)) l l1 /\
    subseq l2 l1 /\ (ra = false -> l2 = l1) /\
    (ra = true -> forall a, In a l2 <-> In a l1 /\ in_cell (box_get s) (a_pos a)) /\
    subseq l' l2 /\ (ri = false -> l' = l2) /\
    (ri = true ->
       (l2 <> [] -> l' <> []) /\
       (forall i j a b, (i < j)%nat -> nth_error l' i = Some a -> nth_error l' j = Some b ->
          dtol < abs_distance s' (a_pos a) (a_pos b)) /\
       (forall i a, nth_error l2 i = Some a -> In a l' \/
          exists j b, (i < j)%nat /\ nth_error l2 j = Some b /\
            abs_distance s' (a_pos a) (a_pos b) <= dtol)) /\
    (asg = true -> s_atoms s' = l').
Proof.
  intros Hl H. unfold remap_atoms in H. rewrite Hl in H. cbn [bind] in H.
  destruct (box_set inv s (box_get s)) as [s1|e] eqn:B; [|discriminate]. cbn [bind] in H.
  set (b := box_get s) in *.
  set (l1 := map (fun a : atom Rnum => a <| a_pos := remap_py b (a_pos a) |>) l) in *.
  set (l2 := if ra then filter (fun a => inside b (a_pos a)) l1 else l1) in *.
  injection H as H1 H2.
  assert (D : forall p q, abs_distance s' p q = abs_distance s1 p q)
    by (intros; subst s'; destruct asg; reflexivity).
  exists l1, l2.
  assert (SF : forall (f : atom Rnum -> bool) x, subseq (filter f x) x).
  { intros f x. induction x as [|a x IH]; cbn; [constructor|]. destruct (f a); constructor; assumption. }
  assert (SR : forall x : list (atom Rnum), subseq x x) by (induction x; constructor; assumption).
  split.
  { unfold l1. clear. induction l as [|a l IH]; cbn; constructor; [|assumption].
    unfold remapped, remap_py; cbn.
    split; [apply remap1_spec|]. split; [apply remap1_spec|]. split; [apply remap1_spec|reflexivity]. }
  split. { unfold l2. destruct ra; auto. }
  split. { unfold l2. intros ->. reflexivity. }
  split. { unfold l2. intros -> a. rewrite filter_In, inside_true. tauto. }
  destruct ri.
  - set (bad := dup_indices s1 dtol l2) in *.
    assert (Hbad : forall i, In i bad <-> exists j a c, (i < j)%nat /\ nth_error l2 i = Some a /\
       nth_error l2 j = Some c /\ abs_distance s1 (a_pos a) (a_pos c) <= dtol).
    { intros i. unfold bad. rewrite dup_indices_In. split; intros [j [a [c [X1 [X2 [X3 X4]]]]]];
        exists j, a, c; repeat split; auto; apply Rleb_true; assumption. }
    pose (d := raw_atom Rnum).
    assert (El : l' = map (fun i => nth i l2 d) (kept bad (length l2)))
      by (rewrite <- H2; apply drop_indices_spec).
    split. { rewrite El. unfold kept.
      pose proof (subseq_kept (fun i => negb (existsb (Nat.eqb i) bad)) l2 d 0) as S0.
      erewrite map_ext; [exact S0|]. intros; cbn. rewrite Nat.sub_0_r. reflexivity. }
    split; [discriminate|]. split.
    + intros _. split; [|split].
      * intros Hne E. rewrite El in E.
        assert (K : In (length l2 - 1)%nat (kept bad (length l2))).
        { apply In_kept. split; [destruct l2; [congruence|cbn; lia]|].
          intros X. apply Hbad in X. destruct X as [j [a [c [X1 [_ [X3 _]]]]]].
          assert (j < length l2)%nat by (apply nth_error_Some; congruence). lia. }
        apply map_eq_nil in E. rewrite E in K. contradiction.
      * intros i j a c Hij Ha Hc. rewrite El in Ha, Hc.
        apply nth_error_map_inv in Ha. apply nth_error_map_inv in Hc.
        destruct Ha as [x [Hx Ea]], Hc as [y [Hy Ec]].
        assert (Hxy := StronglySorted_kept Hx Hy Hij).
        assert (Kx := nth_error_In _ _ Hx). assert (Ky := nth_error_In _ _ Hy).
        apply In_kept in Kx, Ky. destruct Kx as [Kx1 Kx2], Ky as [Ky1 _].
        rewrite D. apply Rnot_le_lt. intros Hle. apply Kx2, Hbad.
        exists y, a, c. subst a c. repeat split; auto; apply nth_error_nth'; assumption.
      * intros i a Ha. destruct (in_dec Nat.eq_dec i bad) as [I|I].
        -- right. apply Hbad in I. destruct I as [j [a' [c [X1 [X2 [X3 X4]]]]]].
           exists j, c. rewrite D. assert (a' = a) by congruence. subst. auto.
        -- left. rewrite El. apply in_map_iff. exists i.
           assert (Hi : (i < length l2)%nat) by (apply nth_error_Some; congruence).
           split; [apply nth_error_nth with (d := d) in Ha; exact Ha|]. apply In_kept. auto.
    + intros ->. subst s'. cbn. exact H2.
  - split; [subst l'; apply SR|]. split; [intros; congruence|]. split; [discriminate|].
    intros ->. subst s'. cbn. exact H2.
Qed.
