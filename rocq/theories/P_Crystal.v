(** Proofs about make_crystal. *)
From Coq Require Import Reals Lra ZArith List Lia String.
From Verif Require Import Base Num NumR Types M_Geometry M_Container M_Analysis M_Crystal S_Geometry S_Crystal P_Geometry P_Container P_Analysis.
Import ListNotations.
Set Implicit Arguments.

Lemma flat_map_nth {A B} (f : A -> list B) n : forall l q a r, (forall a, In a l -> List.length (f a) = n) ->
  nth_error l q = Some a -> r < n -> nth_error (flat_map f l) (q * n + r) = nth_error (f a) r.
Proof.
  induction l as [|b l IH]; intros [|q] a r H E Hr; cbn in E; try discriminate; cbn [flat_map].
  - injection E as ->. cbn [Nat.mul Nat.add]. apply nth_error_app1. rewrite H by (now left). exact Hr.
  - assert (L : List.length (f b) = n) by (apply H; now left).
    rewrite nth_error_app2 by (rewrite L; nia). rewrite L. replace (S q * n + r - n) with (q * n + r) by nia.
    apply IH; auto. intros; apply H; now right.
Qed.
Lemma flat_map_len {A B} (f : A -> list B) n l : (forall a, In a l -> List.length (f a) = n) ->
  List.length (flat_map f l) = List.length l * n.
Proof.
  induction l as [|b l IH]; intros H; [reflexivity|]. cbn [flat_map List.length]. rewrite app_length, (H b) by (now left). rewrite IH; [reflexivity|intros; apply H; now right].
Qed.
Lemma nth_zrange n i : i < n -> nth_error (zrange 1 (Z.of_nat n + 1)) i = Some (Z.of_nat (S i)).
Proof.
  intros H. unfold zrange. replace (Z.to_nat (Z.of_nat n + 1 - 1)) with n by lia.
  rewrite nth_error_map, (nth_error_nth' _ 0) by (rewrite seq_length; lia). rewrite seq_nth by lia. cbn [option_map]. f_equal. lia.
Qed.
Lemma len_zrange1 n : List.length (zrange 1 (Z.of_nat n + 1)) = n.
Proof. rewrite length_zrange. lia. Qed.

Section Any.
Variable N : num.
Variable raw : Z -> atom N.
Variable normal : Z -> N -> N -> N.
Implicit Types u : unit_cell N.
Definition good_cell u := List.length (uc_types u) = List.length (uc_pos u).

Lemma sites_length (nx ny nz : nat) u : good_cell u ->
  List.length (crystal_sites (Z.of_nat nx) (Z.of_nat ny) (Z.of_nat nz) u) = nx * ny * nz * List.length (uc_pos u).
Proof.
  intros G. unfold crystal_sites. red in G.
  assert (Lk : forall i j k, List.length (map (fun p => (i, j, k, p)) (combine (uc_types u) (uc_pos u)) : list (Z * Z * Z * (Z * v3 N))) = List.length (uc_pos u)).
  { intros. rewrite map_length, combine_length. lia. }
  rewrite (@flat_map_len _ _ _ (ny * (nz * List.length (uc_pos u)))), len_zrange1; [nia|].
  intros i _. rewrite (@flat_map_len _ _ _ (nz * List.length (uc_pos u))), len_zrange1; [reflexivity|].
  intros j _. rewrite (@flat_map_len _ _ _ (List.length (uc_pos u))), len_zrange1; [reflexivity|]. intros k _. apply Lk.
Qed.
Lemma sites_nth (nx ny nz : nat) u i j k l t p : good_cell u -> i < nx -> j < ny -> k < nz ->
  nth_error (uc_types u) l = Some t -> nth_error (uc_pos u) l = Some p ->
  nth_error (crystal_sites (Z.of_nat nx) (Z.of_nat ny) (Z.of_nat nz) u) (((i * ny + j) * nz + k) * List.length (uc_pos u) + l) =
  Some (Z.of_nat (S i), Z.of_nat (S j), Z.of_nat (S k), (t, p)).
Proof.
  intros G Hi Hj Hk Ht Hp. red in G. set (n := List.length (uc_pos u)).
  assert (Hl : l < n) by (apply nth_error_Some; congruence).
  assert (Lk : forall i j k, List.length (map (fun p => (i, j, k, p)) (combine (uc_types u) (uc_pos u)) : list (Z * Z * Z * (Z * v3 N))) = n).
  { intros. rewrite map_length, combine_length. unfold n. lia. }
  unfold crystal_sites.
  replace (((i * ny + j) * nz + k) * n + l) with (i * (ny * (nz * n)) + (j * (nz * n) + (k * n + l))) by nia.
  assert (K1 : k * n + l < nz * n) by nia. assert (K2 : j * (nz * n) + (k * n + l) < ny * (nz * n)) by nia.
  assert (L1 : forall i j, List.length (flat_map (fun k => map (fun p => (i, j, k, p)) (combine (uc_types u) (uc_pos u))) (zrange 1 (Z.of_nat nz + 1)) : list (Z * Z * Z * (Z * v3 N))) = nz * n).
  { intros. rewrite (@flat_map_len _ _ _ n), len_zrange1; auto. }
  rewrite (@flat_map_nth _ _ _ (ny * (nz * n)) _ i (Z.of_nat (S i)) (j * (nz * n) + (k * n + l))); [|intros|now apply nth_zrange|exact K2].
  2:{ rewrite (@flat_map_len _ _ _ (nz * n)), len_zrange1; auto. }
  rewrite (@flat_map_nth _ _ _ (nz * n) _ j (Z.of_nat (S j)) (k * n + l)); [|intros; apply L1|now apply nth_zrange|exact K1].
  rewrite (@flat_map_nth _ _ _ n _ k (Z.of_nat (S k)) l); [|intros; apply Lk|now apply nth_zrange|exact Hl].
  rewrite nth_error_map.
  assert (E : nth_error (combine (uc_types u) (uc_pos u)) l = Some (t, p)).
  { clear -Ht Hp. revert Ht Hp. generalize (uc_types u), (uc_pos u). intros ts ps. revert ps l.
    induction ts as [|x ts IH]; intros [|y ps] [|l]; cbn; try discriminate; [now intros [= ->] [= ->]|apply IH]. }
  rewrite E. reflexivity.
Qed.
Lemma place_length a noise f : forall l co, List.length (place raw normal a noise f co l) = List.length l.
Proof. induction l as [|[[[i j] k] p] l IH]; intros co; [reflexivity|]. cbn [place List.length]. now rewrite IH. Qed.
Lemma place_nth a noise f : forall l co m i j k p, nth_error l m = Some (i, j, k, p) ->
  nth_error (place raw normal a noise f co l) m = Some (crystal_atom raw normal a noise f i j k (co + Z.of_nat m) p).
Proof.
  induction l as [|[[[i j] k] p] l IH]; intros co [|m] i' j' k' p'; cbn [nth_error place]; try discriminate.
  - intros [= <- <- <- <-]. now rewrite Z.add_0_r.
  - intros E. rewrite (IH (co + 1)%Z _ _ _ _ _ E). do 2 f_equal. lia.
Qed.
End Any.

(** ** Counting and the run of make_crystal *)
Lemma zrange_clip n : zrange 1 (n + 1) = zrange 1 (Z.of_nat (Z.to_nat n) + 1).
Proof. unfold zrange. f_equal. f_equal. lia. Qed.
Lemma number_app {A} (P : A -> bool) l l' : number P (l ++ l') = number P l + number P l'.
Proof. unfold number. now rewrite filter_app, app_length. Qed.
Lemma number_flat_map {A B} (P : B -> bool) (f : A -> list B) c l :
  (forall a, In a l -> number P (f a) = c) -> number P (flat_map f l) = List.length l * c.
Proof.
  induction l as [|a l IH]; intros H; [reflexivity|]. cbn [flat_map List.length].
  rewrite number_app, (H a) by (now left). rewrite IH; [reflexivity|intros; apply H; now right].
Qed.
Lemma number_map {A B} (P : B -> bool) (f : A -> B) l : number P (map f l) = number (fun a => P (f a)) l.
Proof. unfold number. induction l as [|a l IH]; [reflexivity|]. cbn. destruct (P (f a)); cbn; now rewrite IH. Qed.
Lemma number_fst_combine {A B} (P : A -> bool) : forall (l : list A) (l' : list B), List.length l = List.length l' ->
  number (fun p => P (fst p)) (combine l l') = number P l.
Proof.
  induction l as [|a l IH]; intros [|b l'] H; try discriminate; [reflexivity|]. injection H as H. unfold number in *. cbn.
  destruct (P a); cbn; now rewrite IH.
Qed.

Section Run.
Variable N : num.
Variable raw : Z -> atom N.
Variable normal : Z -> N -> N -> N.

Lemma sites_number P (nx ny nz : nat) (u : unit_cell N) : good_cell u ->
  number (fun s => P (fst (snd s))) (crystal_sites (Z.of_nat nx) (Z.of_nat ny) (Z.of_nat nz) u) = nx * ny * nz * number P (uc_types u).
Proof.
  intros G. unfold crystal_sites.
  rewrite (@number_flat_map _ _ _ _ (ny * (nz * number P (uc_types u)))), len_zrange1; [nia|].
  intros i _. rewrite (@number_flat_map _ _ _ _ (nz * number P (uc_types u))), len_zrange1; [reflexivity|].
  intros j _. rewrite (@number_flat_map _ _ _ _ (number P (uc_types u))), len_zrange1; [reflexivity|].
  intros k _. rewrite number_map. cbn [fst snd]. now apply number_fst_combine.
Qed.
Lemma crystal_atom_fields a noise f i j k co p :
  a_type (crystal_atom raw normal a noise f i j k co p) = fst p /\ a_id (crystal_atom raw normal a noise f i j k co p) = co /\
  a_loc (crystal_atom raw normal a noise f i j k co p) = (co - 1)%Z /\ a_ghost (crystal_atom raw normal a noise f i j k co p) = 0%Z.
Proof. destruct p as [t u]. unfold crystal_atom. destruct (nltb _ _); repeat split. Qed.
Lemma place_number P a noise f : forall l co,
  number (fun x => P (a_type x)) (place raw normal a noise f co l) = number (fun s => P (fst (snd s))) l.
Proof.
  induction l as [|[[[i j] k] p] l IH]; intros co; [reflexivity|]. unfold number in *. cbn [place filter].
  destruct (crystal_atom_fields a noise f i j k co p) as (-> & _). cbn [snd]. destruct (P (fst p)); cbn; now rewrite IH.
Qed.
Lemma place_real a noise f : forall l co x, In x (place raw normal a noise f co l) -> a_ghost x = 0%Z.
Proof.
  induction l as [|[[[i j] k] p] l IH]; intros co x; [intros []|]. cbn [place]. intros [<-|H]; [|eauto].
  apply crystal_atom_fields.
Qed.
Lemma place_ids a noise f : forall l co, map (@a_id N) (place raw normal a noise f co l) = map (fun m => (co + Z.of_nat m)%Z) (seq 0 (List.length l)).
Proof.
  induction l as [|[[[i j] k] p] l IH]; intros co; [reflexivity|]. cbn [place map List.length seq].
  destruct (crystal_atom_fields a noise f i j k co p) as (_ & -> & _). f_equal; [lia|].
  rewrite IH, <- seq_shift, map_map. apply map_ext. intros m. lia.
Qed.
Lemma place_locs a noise f : forall l co, map (@a_loc N) (place raw normal a noise f co l) = map (fun m => (co - 1 + Z.of_nat m)%Z) (seq 0 (List.length l)).
Proof.
  induction l as [|[[[i j] k] p] l IH]; intros co; [reflexivity|]. cbn [place map List.length seq].
  destruct (crystal_atom_fields a noise f i j k co p) as (_ & _ & -> & _). f_equal; [lia|].
  rewrite IH, <- seq_shift, map_map. apply map_ext. intros m. lia.
Qed.
(** The names and their bases. *)
Lemma the_cell_basis name bs (a ca : N) : In (name, bs) basis ->
  exists u, the_cell name a ca = Ok u /\ good_cell u /\ uc_types u = map fst bs.
Proof.
  unfold basis. cbv zeta. intros H. cbn [In] in H.
  repeat match type of H with _ \/ _ => destruct H as [H|H] | False => destruct H end;
    injection H as <- <-; eexists; (split; [reflexivity|split; reflexivity]).
Qed.
Lemma the_cell_unknown name (a ca : N) : ~ In name (map fst basis) -> the_cell name a ca = Err ValueError.
Proof.
  intros H. unfold the_cell.
  repeat match goal with |- context [String.eqb name ?c] => destruct (String.eqb_spec name c) as [E|_];
    [exfalso; apply H; rewrite E; cbn; tauto|] end. reflexivity.
Qed.
Lemma make_crystal_run name bs (a ca noise : N) (nx ny nz : Z) rest : In (name, bs) basis ->
  exists u, the_cell name a ca = Ok u /\ good_cell u /\ uc_types u = map fst bs /\
  make_crystal raw normal name a (Some (nx :: ny :: nz :: rest)) ca noise =
  Ok (place raw normal a noise (uc_fact u) 1 (crystal_sites (Z.of_nat (Z.to_nat nx)) (Z.of_nat (Z.to_nat ny)) (Z.of_nat (Z.to_nat nz)) u),
      let f := uc_fact u in
      mkM (mkV (nmul (nmul (nofZ nx) a) (vx f)) n0 n0) (mkV n0 (nmul (nmul (nofZ ny) a) (vy f)) n0) (mkV n0 n0 (nmul (nmul (nofZ nz) a) (vz f)))).
Proof.
  intros H. destruct (the_cell_basis a ca H) as (u & E & G & T). exists u. split; [exact E|]. split; [exact G|]. split; [exact T|].
  unfold make_crystal.
  assert (P0 : py_get (nx :: ny :: nz :: rest) 0 = Ok nx) by reflexivity.
  assert (P1 : py_get (nx :: ny :: nz :: rest) 1 = Ok ny) by reflexivity.
  assert (P2 : py_get (nx :: ny :: nz :: rest) 2 = Ok nz) by reflexivity.
  rewrite P0, P1, P2. cbn [bind]. rewrite E. cbn [bind]. cbv zeta. do 3 f_equal.
  unfold crystal_sites. rewrite (zrange_clip nx), (zrange_clip ny), (zrange_clip nz). reflexivity.
Qed.
End Run.

(** ** Real arithmetic *)
Lemma frac_inj (i j : nat) (f g : R) : (0 <= f < 1)%R -> (0 <= g < 1)%R -> (INR i + f = INR j + g)%R -> i = j /\ f = g.
Proof.
  intros Hf Hg E. assert (i = j).
  { apply INR_eq. destruct (Nat.lt_trichotomy i j) as [H|[->|H]]; [|reflexivity|]; exfalso;
      apply le_INR in H; rewrite S_INR in H; lra. }
  subst. split; [reflexivity|lra].
Qed.
Definition unit_coord (f : R * R * R) : Prop :=
  let '(x, y, z) := f in (0 <= x < 1 /\ 0 <= y < 1 /\ 0 <= z < 1)%R.
Lemma basis_unit name bs : In (name, bs) basis -> Forall (fun p => unit_coord (snd p)) bs.
Proof.
  unfold basis. cbv zeta. intros H. cbn [In] in H.
  repeat match type of H with _ \/ _ => destruct H as [H|H] | False => destruct H end;
    injection H as <- <-; repeat (apply Forall_cons; [unfold unit_coord; cbn [snd]; lra|]); apply Forall_nil.
Qed.
Lemma trip_inv (x y z x' y' z' : R) : (x, y, z) = (x', y', z') -> x = x' /\ y = y' /\ z = z'.
Proof. intros H. now inversion H. Qed.
Lemma basis_nodup name bs : In (name, bs) basis -> NoDup (map snd bs).
Proof.
  unfold basis. cbv zeta. intros H. cbn [In] in H.
  repeat match type of H with _ \/ _ => destruct H as [H|H] | False => destruct H end;
    injection H as <- <-; cbn [map snd]; repeat apply NoDup_cons; try apply NoDup_nil; cbn [In]; intros K;
    repeat match type of K with _ \/ _ => destruct K as [K|K] | False => destruct K end;
    apply trip_inv in K; destruct K as (? & ? & ?); lra.
Qed.
Lemma basis_names : NoDup (map fst basis).
Proof.
  unfold basis. cbv zeta. cbn [map fst]. repeat constructor; cbn [In]; intros K;
    repeat match type of K with _ \/ _ => destruct K as [K|K] | False => destruct K end; discriminate.
Qed.
Lemma basis_nonempty name bs : In (name, bs) basis -> bs <> [].
Proof.
  unfold basis. cbv zeta. intros H. cbn [In] in H.
  repeat match type of H with _ \/ _ => destruct H as [H|H] | False => destruct H end; injection H as <- <-; discriminate.
Qed.
(** Positions of the cells, and their factors. *)
Lemma sqrt3_pos : (0 < sqrt 3)%R. Proof. apply sqrt_lt_R0. lra. Qed.
Lemma sqrt3_inv : (1 / sqrt 3 = sqrt 3 / 3)%R.
Proof. pose proof sqrt3_pos. pose proof (sqrt_sqrt 3 ltac:(lra)) as E. apply Rmult_eq_reg_r with (r := sqrt 3); [|lra].
  replace (1 / sqrt 3 * sqrt 3)%R with 1%R by (field; lra). replace (sqrt 3 / 3 * sqrt 3)%R with (sqrt 3 * sqrt 3 / 3)%R by field. lra. Qed.
Definition scaled (sx sy sz : R) (p : Z * (R * R * R)) : v3 Rnum :=
  let '(fx, fy, fz) := snd p in mkV ((fx * sx)%R : Rnum) ((fy * sy)%R : Rnum) ((fz * sz)%R : Rnum).
Lemma v3_eq (x y z x' y' z' : R) : x = x' -> y = y' -> z = z' -> mkV (N := Rnum) x y z = mkV (N := Rnum) x' y' z'.
Proof. intros -> -> ->. reflexivity. Qed.
Ltac lists := repeat match goal with
  | |- _ :: _ = _ :: _ => apply f_equal2
  | |- [] = [] => reflexivity
  | |- mkV _ _ _ = mkV _ _ _ => apply v3_eq; rnum; try rewrite sqrt3_inv; lra
  end.
Lemma the_cell_real name bs (a ca : R) (u : unit_cell Rnum) : In (name, bs) basis -> the_cell (N := Rnum) name a ca = Ok u ->
  let '(sx, sy, sz) := cell_sides name a ca in
  uc_pos u = map (scaled sx sy sz) bs /\
  (a * vx (uc_fact u) = sx /\ a * vy (uc_fact u) = sy /\ a * vz (uc_fact u) = sz)%R.
Proof.
  pose proof sqrt3_inv as S3.
  unfold basis. cbv zeta. intros H Eu. cbn [In] in H.
  destruct H as [H|H]; [injection H as <- <-|].
  { change (Ok (cell_sc (N := Rnum) a) = Ok u) in Eu. injection Eu as <-.
    change (cell_sides "sc" a ca) with (a, a, a). unfold cell_sc, uc_pos, uc_fact, vx, vy, vz, map, scaled, snd. split; [lists|rnum; lra]. }
  destruct H as [H|H]; [injection H as <- <-|].
  { change (Ok (cell_bcc (N := Rnum) a) = Ok u) in Eu. injection Eu as <-.
    change (cell_sides "bcc" a ca) with (a, a, a). unfold cell_bcc, uc_pos, uc_fact, vx, vy, vz, map, scaled, snd. split; [lists|rnum; lra]. }
  destruct H as [H|H]; [injection H as <- <-|].
  { change (Ok (cell_fcc (N := Rnum) a) = Ok u) in Eu. injection Eu as <-.
    change (cell_sides "fcc" a ca) with (a, a, a). unfold cell_fcc, fcc_pos, uc_pos, uc_fact, vx, vy, vz, map, scaled, snd. split; [lists|rnum; lra]. }
  destruct H as [H|H]; [injection H as <- <-|].
  { change (Ok (cell_hcp (N := Rnum) a ca) = Ok u) in Eu. injection Eu as <-.
    change (cell_sides "hcp" a ca) with (a, a * sqrt 3, a * ca)%R. unfold cell_hcp, uc_pos, uc_fact, vx, vy, vz, map, scaled, snd. split; [lists|rnum; lra]. }
  destruct H as [H|H]; [injection H as <- <-|].
  { change (Ok (cell_diamond (N := Rnum) a) = Ok u) in Eu. injection Eu as <-.
    change (cell_sides "diamond" a ca) with (a, a, a). unfold cell_diamond, uc_pos, uc_fact, vx, vy, vz, map, scaled, snd. split; [lists|rnum; lra]. }
  destruct H as [H|H]; [injection H as <- <-|].
  { change (Ok (cell_a15 (N := Rnum) a) = Ok u) in Eu. injection Eu as <-.
    change (cell_sides "a15" a ca) with (a, a, a). unfold cell_a15, uc_pos, uc_fact, vx, vy, vz, map, scaled, snd. split; [lists|rnum; lra]. }
  destruct H as [H|H]; [injection H as <- <-|].
  { change (Ok (cell_l12 (N := Rnum) a) = Ok u) in Eu. injection Eu as <-.
    change (cell_sides "l12" a ca) with (a, a, a). unfold cell_l12, fcc_pos, uc_pos, uc_fact, vx, vy, vz, map, scaled, snd. split; [lists|rnum; lra]. }
  destruct H as [H|H]; [injection H as <- <-|].
  { change (Ok (cell_b2 (N := Rnum) a) = Ok u) in Eu. injection Eu as <-.
    change (cell_sides "b2" a ca) with (a, a, a). unfold cell_b2, uc_pos, uc_fact, vx, vy, vz, map, scaled, snd. split; [lists|rnum; lra]. }
  destruct H.
Qed.
Definition slot (ny nz nb i j k l : nat) : nat := ((i * ny + j) * nz + k) * nb + l.
Lemma slot_bound nx ny nz nb i j k l : i < nx -> j < ny -> k < nz -> l < nb -> slot ny nz nb i j k l < nx * ny * nz * nb.
Proof. intros. unfold slot. assert (i * ny + j < nx * ny) by nia. assert ((i * ny + j) * nz + k < nx * ny * nz) by nia. nia. Qed.
Lemma slot_surj nx ny nz nb m : m < nx * ny * nz * nb -> exists i j k l, i < nx /\ j < ny /\ k < nz /\ l < nb /\ m = slot ny nz nb i j k l.
Proof.
  intros H. assert (nb <> 0) by (intros ->; lia). assert (nz <> 0) by (intros ->; lia). assert (ny <> 0) by (intros ->; lia).
  exists (m / nb / nz / ny), (m / nb / nz mod ny), (m / nb mod nz), (m mod nb).
  split; [apply Nat.div_lt_upper_bound; [lia|]; apply Nat.div_lt_upper_bound; [lia|]; apply Nat.div_lt_upper_bound; [lia|]; nia|].
  split; [apply Nat.mod_upper_bound; lia|]. split; [apply Nat.mod_upper_bound; lia|]. split; [apply Nat.mod_upper_bound; lia|].
  unfold slot. pose proof (Nat.div_mod m nb). pose proof (Nat.div_mod (m / nb) nz). pose proof (Nat.div_mod (m / nb / nz) ny). nia.
Qed.
Definition reals (n : Z) : R := INR (Z.to_nat n).

Section Lattice.
Variable raw : Z -> atom Rnum.
Variable normal : Z -> Rnum -> Rnum -> Rnum.
Variables (name : string) (bs : list (Z * (R * R * R))) (a ca noise : R) (nx ny nz : Z) (rest : list Z).
Hypothesis HB : In (name, bs) basis.
Hypothesis Hnoise : (noise <= 0)%R.
Notation cx := (Z.to_nat nx). Notation cy := (Z.to_nat ny). Notation cz := (Z.to_nat nz).

Lemma lattice_run : exists atoms,
  make_crystal raw normal name (a : Rnum) (Some (nx :: ny :: nz :: rest)) (ca : Rnum) (noise : Rnum) =
    Ok (atoms, let '(sx, sy, sz) := cell_sides name a ca in
               mkM (mkV ((IZR nx * sx)%R : Rnum) (0%R : Rnum) (0%R : Rnum)) (mkV (0%R : Rnum) ((IZR ny * sy)%R : Rnum) (0%R : Rnum)) (mkV (0%R : Rnum) (0%R : Rnum) ((IZR nz * sz)%R : Rnum))) /\
  List.length atoms = cx * cy * cz * List.length bs /\
  forall i j k l t f, i < cx -> j < cy -> k < cz -> nth_error bs l = Some (t, f) ->
    exists x, nth_error atoms (slot cy cz (List.length bs) i j k l) = Some x /\ a_type x = t /\ a_pos x = site name a ca i j k f /\ a_ghost x = 0%Z.
Proof.
  destruct (make_crystal_run raw normal (a : Rnum) (ca : Rnum) (noise : Rnum) nx ny nz rest HB) as (u & Eu & G & T & E).
  pose proof (the_cell_real a ca HB Eu) as C. destruct (cell_sides name a ca) as [[sx sy] sz] eqn:Es. destruct C as (Cp & Fx & Fy & Fz).
  eexists. split; [etransitivity; [exact E|]; f_equal; f_equal|].
  { rewrite <- Fx, <- Fy, <- Fz. cbv zeta. rnum. f_equal; apply v3_eq; ring. }
  assert (Lp : List.length (uc_pos u) = List.length bs) by (rewrite Cp; apply map_length).
  split; [rewrite place_length, sites_length, Lp; auto|].
  intros i j k l t f Hi Hj Hk Hl. unfold slot. rewrite <- Lp.
  assert (Ht : nth_error (uc_types u) l = Some t) by (rewrite T, nth_error_map, Hl; reflexivity).
  assert (Hp : nth_error (uc_pos u) l = Some (scaled sx sy sz (t, f))) by (rewrite Cp, nth_error_map, Hl; reflexivity).
  eexists. split; [eapply place_nth, sites_nth; eauto|]. split; [apply crystal_atom_fields|]. split; [|apply crystal_atom_fields].
  unfold crystal_atom, site. rewrite Es. destruct f as [[fx fy] fz]. cbn [scaled snd].
  change (nltb n0 (noise : Rnum)) with (Rltb 0 noise). replace (Rltb 0 noise) with false by (symmetry; apply Rltb_false; lra).

  assert (I : forall i, (IZR (Z.of_nat (S i)) - 1 = INR i)%R) by (intros; rewrite INR_IZR_INZ, Nat2Z.inj_succ, succ_IZR; ring).
  change (mkV (N := Rnum) (fx * sx + a * vx (uc_fact u) * (IZR (Z.of_nat (S i)) - 1))%R (fy * sy + a * vy (uc_fact u) * (IZR (Z.of_nat (S j)) - 1))%R (fz * sz + a * vz (uc_fact u) * (IZR (Z.of_nat (S k)) - 1))%R = mkV (N := Rnum) ((INR i + fx) * sx)%R ((INR j + fy) * sy)%R ((INR k + fz) * sz)%R).
  rewrite !I, Fx, Fy, Fz. apply v3_eq; ring.
Qed.
End Lattice.
Lemma cell_sides_pos name a ca : (0 < a)%R -> (name = "hcp"%string -> 0 < ca)%R ->
  let '(sx, sy, sz) := cell_sides name a ca in (0 < sx /\ 0 < sy /\ 0 < sz)%R.
Proof.
  intros Ha Hc. unfold cell_sides. destruct (String.eqb_spec name "hcp") as [E|_]; [|repeat split; lra].
  specialize (Hc E). pose proof sqrt3_pos. repeat split; nra.
Qed.
Lemma site_inj name bs a ca i j k l t f i' j' k' l' t' f' : (0 < a)%R -> (name = "hcp"%string -> 0 < ca)%R -> In (name, bs) basis ->
  nth_error bs l = Some (t, f) -> nth_error bs l' = Some (t', f') -> site name a ca i j k f = site name a ca i' j' k' f' ->
  i = i' /\ j = j' /\ k = k' /\ l = l'.
Proof.
  intros Ha Hc HB H H' E. pose proof (@cell_sides_pos name a ca Ha Hc) as C. unfold site in E. destruct (cell_sides name a ca) as [[sx sy] sz].
  pose proof (basis_unit HB) as U. rewrite Forall_forall in U.
  pose proof (U _ (nth_error_In _ _ H)) as U1. pose proof (U _ (nth_error_In _ _ H')) as U2. cbn [snd] in U1, U2.
  destruct f as [[fx fy] fz], f' as [[gx gy] gz]. cbn in U1, U2. injection E as Ex Ey Ez.
  apply Rmult_eq_reg_r in Ex; [|lra]. apply Rmult_eq_reg_r in Ey; [|lra]. apply Rmult_eq_reg_r in Ez; [|lra].
  apply frac_inj in Ex; [|lra|lra]. apply frac_inj in Ey; [|lra|lra]. apply frac_inj in Ez; [|lra|lra].
  destruct Ex as [-> ->], Ey as [-> ->], Ez as [-> ->]. repeat split.
  pose proof (basis_nodup HB) as ND. rewrite NoDup_nth_error in ND. apply ND.
  - rewrite map_length. apply nth_error_Some. congruence.
  - rewrite !nth_error_map, H, H'. reflexivity.
Qed.
Lemma site_in name bs a ca i j k nx ny nz f t : (0 < a)%R -> (name = "hcp"%string -> 0 < ca)%R -> In (name, bs) basis -> In (t, f) bs ->
  i < Z.to_nat nx -> j < Z.to_nat ny -> k < Z.to_nat nz ->
  in_box (let '(sx, sy, sz) := cell_sides name a ca in mkV ((IZR nx * sx)%R : Rnum) ((IZR ny * sy)%R : Rnum) ((IZR nz * sz)%R : Rnum)) (site name a ca i j k f).
Proof.
  intros Ha Hc HB H Hi Hj Hk. pose proof (@cell_sides_pos name a ca Ha Hc) as C. unfold site. destruct (cell_sides name a ca) as [[sx sy] sz].
  pose proof (basis_unit HB) as U. rewrite Forall_forall in U. specialize (U _ H). cbn [snd] in U.
  destruct f as [[fx fy] fz]. cbn in U.
  assert (B : forall i n, i < Z.to_nat n -> (0 <= INR i <= IZR n - 1)%R).
  { intros i0 n Hn. split; [apply pos_INR|]. rewrite INR_IZR_INZ, <- minus_IZR. apply IZR_le. lia. }
  apply B in Hi, Hj, Hk. unfold in_box; cbn [vx vy vz]. repeat split; nra.
Qed.
