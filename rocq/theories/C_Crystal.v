(** C51 and C52: crystals made by make_crystal. *)
From Coq Require Import Reals Lra ZArith List Lia String Bool.
From Verif Require Import Base Num NumR NumP Types M_Geometry M_Container M_Neighbors M_Analysis M_Crystal S_Geometry S_Container S_Neighbors S_Crystal
  P_Geometry P_Container P_Box P_Analysis P_Crystal P_Coord P_Perfect P_CrystalSys P_CrystalTwo Ex.
From Verif Require Import C_Neighbors C_Analysis.
Import ListNotations.
Close Scope R_scope.
Close Scope Z_scope.

(** ** C51 *)
(** Any arithmetic, with or without noise: number of atoms, ids, indices, types. *)
Theorem C51_atoms : forall (N : num) raw normal name bs (a ca noise : N) (nx ny nz : Z) rest,
  In (name, bs) basis ->
  exists atoms box, make_crystal raw normal name a (Some (nx :: ny :: nz :: rest)) ca noise = Ok (atoms, box) /\
    let n := List.length bs * (Z.to_nat nx * Z.to_nat ny * Z.to_nat nz) in
    List.length atoms = n /\
    map (@a_id N) atoms = map (fun i => Z.of_nat (S i)) (seq 0 n) /\
    map (@a_loc N) atoms = map Z.of_nat (seq 0 n) /\
    (forall t, number (fun x => Z.eqb (a_type x) t) atoms =
               number (fun p => Z.eqb (fst p) t) bs * (Z.to_nat nx * Z.to_nat ny * Z.to_nat nz)) /\
    (forall x, In x atoms -> a_ghost x = 0%Z).
Proof.
  intros N raw normal name bs a ca noise nx ny nz rest H.
  destruct (make_crystal_run raw normal a ca noise nx ny nz rest H) as (u & _ & G & T & E).
  eexists _, _. split; [exact E|]. cbv zeta.
  assert (L : List.length (uc_pos u) = List.length bs) by (rewrite <- G, T; apply map_length).
  assert (LS : List.length (crystal_sites (Z.of_nat (Z.to_nat nx)) (Z.of_nat (Z.to_nat ny)) (Z.of_nat (Z.to_nat nz)) u) = List.length bs * (Z.to_nat nx * Z.to_nat ny * Z.to_nat nz)).
  { rewrite sites_length, L by exact G. apply Nat.mul_comm. }
  rewrite place_length, place_ids, place_locs, LS. split; [reflexivity|].
  split; [apply map_ext; intros; lia|]. split; [apply map_ext; intros; lia|]. split.
  - intros t. rewrite (@place_number N raw normal (fun x => Z.eqb x t)), (@sites_number N (fun x => Z.eqb x t)) by exact G.
    rewrite T, number_map. apply Nat.mul_comm.
  - intros x. apply place_real.
Qed.
Print Assumptions C51_atoms.

(** Without a list of repetitions one cell is made. *)
Theorem C51_one_cell : forall (N : num) raw normal name (a ca noise : N),
  make_crystal raw normal name a None ca noise = make_crystal raw normal name a (Some [1; 1; 1]%Z) ca noise.
Proof. reflexivity. Qed.
Print Assumptions C51_one_cell.

Theorem C51_errors : forall (N : num) raw normal name (a ca noise : N) nx ny nz rest l,
  (~ In name (map fst basis) ->
    make_crystal raw normal name a None ca noise = Err ValueError /\
    make_crystal raw normal name a (Some (nx :: ny :: nz :: rest)) ca noise = Err ValueError) /\
  (List.length l < 3 -> make_crystal raw normal name a (Some l) ca noise = Err IndexError).
Proof.
  intros N raw normal name a ca noise nx ny nz rest l. split.
  - intros H. unfold make_crystal.
    assert (P0 : py_get (nx :: ny :: nz :: rest) 0 = Ok nx) by reflexivity.
    assert (P1 : py_get (nx :: ny :: nz :: rest) 1 = Ok ny) by reflexivity.
    assert (P2 : py_get (nx :: ny :: nz :: rest) 2 = Ok nz) by reflexivity.
    rewrite P0, P1, P2. cbn [bind]. rewrite (the_cell_unknown _ _ _ H). split; reflexivity.
  - intros H. destruct l as [|x [|y [|z l]]]; cbn [List.length] in H; try lia; reflexivity.
Qed.
Print Assumptions C51_errors.

(** Exact reals, no noise: every atom sits on its lattice site, the order of
    the atoms is that of the loops, all atoms lie in the box and no two
    coincide. *)
Theorem C51_lattice : forall raw normal name bs (a ca noise : R) (nx ny nz : Z) rest,
  In (name, bs) basis -> (0 < a)%R -> (name = "hcp"%string -> (0 < ca)%R) -> (noise <= 0)%R ->
  exists atoms, let '(sx, sy, sz) := cell_sides name a ca in
    make_crystal raw normal name (a : Rnum) (Some (nx :: ny :: nz :: rest)) (ca : Rnum) (noise : Rnum) =
      Ok (atoms, diag (N := Rnum) (IZR nx * sx)%R (IZR ny * sy)%R (IZR nz * sz)%R) /\
    (forall i j k l t f, i < Z.to_nat nx -> j < Z.to_nat ny -> k < Z.to_nat nz -> nth_error bs l = Some (t, f) ->
       exists x, nth_error atoms (((i * Z.to_nat ny + j) * Z.to_nat nz + k) * List.length bs + l) = Some x /\
         a_type x = t /\ a_pos x = site name a ca i j k f) /\
    (forall x, In x atoms -> in_box (mkV ((IZR nx * sx)%R : Rnum) ((IZR ny * sy)%R : Rnum) ((IZR nz * sz)%R : Rnum)) (a_pos x)) /\
    NoDup (map (@a_pos Rnum) atoms).
Proof.
  intros raw normal name bs a ca noise nx ny nz rest HB Ha Hc Hno.
  destruct (@lattice_run raw normal name bs a ca noise nx ny nz rest HB Hno) as (atoms & E & L & H).
  exists atoms.
  assert (IN : forall m, m < List.length atoms -> exists i j k l t f x, i < Z.to_nat nx /\ j < Z.to_nat ny /\ k < Z.to_nat nz /\ nth_error bs l = Some (t, f) /\
      m = slot (Z.to_nat ny) (Z.to_nat nz) (List.length bs) i j k l /\ nth_error atoms m = Some x /\ a_pos x = site name a ca i j k f).
  { intros m Hm. rewrite L in Hm. destruct (slot_surj _ _ _ _ Hm) as (i & j & k & l & Hi & Hj & Hk & Hl & ->).
    destruct (nth_error bs l) as [[t f]|] eqn:El; [|apply nth_error_None in El; lia].
    destruct (H i j k l t f Hi Hj Hk El) as (x & Ex & _ & Px & _). exists i, j, k, l, t, f, x. repeat split; auto. }
  pose proof (fun i j k t f => @site_in name bs a ca i j k nx ny nz f t Ha Hc HB) as SI.
  destruct (cell_sides name a ca) as [[sx sy] sz] eqn:Es.
  split; [exact E|]. split; [|split].
  - intros i j k l t f Hi Hj Hk Hl. destruct (H i j k l t f Hi Hj Hk Hl) as (x & Ex & Tx & Px & _). exists x. auto.
  - intros x Hx. apply In_nth_error in Hx. destruct Hx as [m Hm].
    destruct (IN m) as (i & j & k & l & t & f & x' & Hi & Hj & Hk & Hl & _ & Ex & Px); [apply nth_error_Some; congruence|].
    rewrite Hm in Ex. injection Ex as <-. rewrite Px. eapply SI; eauto. eapply nth_error_In; eauto.
  - apply NoDup_nth_error. intros m m' Hm E1. rewrite map_length in Hm. rewrite !nth_error_map in E1.
    destruct (IN m Hm) as (i & j & k & l & t & f & x & Hi & Hj & Hk & Hl & -> & Ex & Px). rewrite Ex in E1. cbn [option_map] in E1.
    destruct (nth_error atoms m') as [x'|] eqn:Ex'; [|discriminate]. injection E1 as E1.
    destruct (IN m') as (i' & j' & k' & l' & t' & f' & x'' & Hi' & Hj' & Hk' & Hl' & -> & Ey & Py); [apply nth_error_Some; congruence|].
    rewrite Ex' in Ey. injection Ey as <-. rewrite Px, Py in E1.
    destruct (@site_inj name bs a ca i j k l t f i' j' k' l' t' f' Ha Hc HB Hl Hl' E1) as (-> & -> & -> & ->). reflexivity.
Qed.
Print Assumptions C51_lattice.

(** The docstring default hcp cell, twice in x: eight atoms. *)
Example C51_example : forall raw normal,
  exists atoms box, make_crystal raw normal "hcp" (3%R : Rnum) (Some [2; 1; 1]%Z) (1.633%R : Rnum) (0%R : Rnum) = Ok (atoms, box) /\
    List.length atoms = 8 /\ NoDup (map (@a_pos Rnum) atoms) /\
    exists x, nth_error atoms 7 = Some x /\ a_pos x = site "hcp" 3 1.633 1 0 0 (0, 2/3, 1/2)%R.
Proof.
  intros raw normal.
  assert (HB : exists bs, In ("hcp"%string, bs) basis /\ List.length bs = 4 /\ nth_error bs 3 = Some (1%Z, (0, 2/3, 1/2)%R)).
  { eexists. split; [unfold basis; cbv zeta; do 3 right; left; reflexivity|]. split; reflexivity. }
  destruct HB as (bs & HB & L4 & N3).
  destruct (C51_lattice raw normal "hcp" bs 3%R 1.633%R 0%R 2 1 1 [] HB ltac:(lra) ltac:(intros; lra) ltac:(lra)) as (atoms & H).
  destruct (cell_sides "hcp" 3 1.633) as [[sx sy] sz]. destruct H as (E & HP & _ & ND).
  destruct (C51_atoms Rnum raw normal "hcp" bs 3%R 1.633%R 0%R 2 1 1 [] HB) as (atoms' & box & E' & L & _).
  assert (EE : @Ok (list (atom Rnum) * m3 Rnum) (atoms', box) = Ok (atoms, _)) by (rewrite <- E'; exact E). injection EE as -> _.
  eexists atoms, _. split; [exact E|]. split; [rewrite L, L4; reflexivity|]. split; [exact ND|].
  destruct (HP 1 0 0 3 1%Z (0, 2/3, 1/2)%R) as (x & Ex & _ & Px); [lia..|exact N3|]. rewrite L4 in Ex. exists x. split; [exact Ex|exact Px].
Qed.
(** A run in double precision. *)
Definition l12_run : res (list (atom P64) * m3 P64) :=
  make_crystal (fun _ => raw_atom P64) (fun _ x _ => x) "l12" (nofZ 2 : P64) (Some [2; 1; 1]%Z) (n1 : P64) (n0 : P64).
Example C51_run_example : test (fun r => forallb (fun p => Z.eqb (fst p) (snd p))
    (combine (map (@a_type P64) (fst r) ++ map (@a_id P64) (fst r)) [1; 2; 2; 2; 1; 2; 2; 2; 1; 2; 3; 4; 5; 6; 7; 8]%Z) &&
    forallb (fun p => neqb (fst p) (nofZ (snd p)))
    (combine (map (fun x : atom P64 => vx (a_pos x)) (fst r)) [0; 1; 0; 1; 2; 3; 2; 3]%Z)) l12_run = true.
Proof. vm_compute. reflexivity. Qed.

(** ** C52 *)
(** Exact reals: a new System gets the box and the atoms of the crystal (small
    systems are padded with ghost atoms by the setter) and neighbours are found
    with a cutoff between the first and the second shell.  Every stored atom
    has the coordination number of the structure.  Crystals of more than 2300
    atoms are searched with cells; there the box has to be three cutoffs wide,
    and the cutoff must not be below 1e-6. *)
Theorem C52_coordination : forall name z lo hi bs, In (name, (z, lo, hi)) shells -> In (name, bs) basis ->
  forall (a ca noise r : R) (nx ny nz : Z) rest, (0 < a)%R -> (noise <= 0)%R -> (3 <= nx /\ 3 <= ny /\ 3 <= nz)%Z ->
  (lo * a < r <= hi * a)%R ->
  (nx * ny * nz * Z.of_nat (List.length bs) <= 2300)%Z \/
    (1 / 1000000 <= r /\ 3 * r <= IZR nx * a /\ 3 * r <= IZR ny * a /\ 3 * r <= IZR nz * a)%R ->
  forall raw normal raw' inv mem srt voro area_pow inv' t pad nl,
  exists atoms box s1 s2 s3,
    make_crystal raw normal name (a : Rnum) (Some (nx :: ny :: nz :: rest)) (ca : Rnum) (noise : Rnum) = Ok (atoms, box) /\
    box_set inv (sys_ctor mem) box = Ok s1 /\ atoms_set inv raw' s1 atoms = Ok s2 /\
    find_neighbors srt voro area_pow inv' s2 (mkArgs (N := Rnum) (MCutoff (CutVal (N := Rnum) r)) FNone t pad nl) = Ok (s3, None) /\
    Z.to_nat (s_real s2) = List.length bs * (Z.to_nat nx * Z.to_nat ny * Z.to_nat nz) /\
    Z.to_nat (s_real s2) <= List.length (s_atoms s2) /\
    forall i, i < List.length (s_atoms s2) -> List.length (nbrs_at s3 i) = z.
Proof.
  intros name z lo hi bs Hsh HB a ca noise r nx ny nz rest Ha Hno Hn [Hlo Hhi] Hsize raw normal raw' inv mem srt voro area_pow inv' t pad nl.
  assert (Q2 : (sqrt 2 * sqrt 2 = 2)%R) by (apply sqrt_sqrt; lra). assert (P2 : (0 < sqrt 2)%R) by (apply sqrt_lt_R0; lra).
  assert (Q3 : (sqrt 3 * sqrt 3 = 3)%R) by (apply sqrt_sqrt; lra). assert (P3 : (0 < sqrt 3)%R) by (apply sqrt_lt_R0; lra).
  assert (SQ : forall (x y k : R), (0 <= x)%R -> (x * a < y -> x * x = k -> k * (a * a) < y * y)%R).
  { intros x y k Hx H <-. assert (0 <= x * a)%R by nra. nra. }
  assert (SQ' : forall (x y k : R), (0 < y)%R -> (y <= x * a -> x * x = k -> y * y <= k * (a * a))%R).
  { intros x y k Hy H <-. nra. }
  assert (BOX : forall d m, (sq3 d < m)%Z -> (m <= 8)%Z -> let '(x, y, z) := d in (-2 <= x <= 2 /\ -2 <= y <= 2 /\ -2 <= z <= 2)%Z).
  { intros [[x y] w] m H M. cbn in H. nia. }
  assert (ENUM : forall (p : Z3 -> bool) d, (let '(x, y, z) := d in (-2 <= x <= 2 /\ -2 <= y <= 2 /\ -2 <= z <= 2)%Z) ->
    forallb p (flat_map (fun x => flat_map (fun y => map (fun w => (x, y, w)) [-2; -1; 0; 1; 2]%Z) [-2; -1; 0; 1; 2]%Z) [-2; -1; 0; 1; 2]%Z) = true -> p d = true).
  { intros p [[x y] w] (Bx & By & Bw) F. rewrite forallb_forall in F. apply F. apply in_flat_map. exists x.
    assert (M : forall v, (-2 <= v <= 2)%Z -> In v [-2; -1; 0; 1; 2]%Z) by (intros v Hv; cbn; lia).
    split; [auto|]. apply in_flat_map. exists y. split; [auto|]. apply in_map. auto. }
  assert (DEC : forall d d' : Z3, {d = d'} + {d <> d'}) by (intros; repeat decide equality).
  pose (sh (memb : B3 -> bool) (m : Z) := filter (fun d => memb (odd3 d) && (sq3 d <? m)%Z && negb (sq3 d =? 0)%Z)
    (flat_map (fun x => flat_map (fun y => map (fun w => (x, y, w)) [-2; -1; 0; 1; 2]%Z) [-2; -1; 0; 1; 2]%Z) [-2; -1; 0; 1; 2]%Z)).
  assert (SH : forall memb m1 m2 k, (m2 <= 8)%Z -> List.length (sh memb m2) = k -> forallb (fun d => (sq3 d <=? m1)%Z) (sh memb m2) = true ->
     NoDup (sh memb m2) /\
     (forall d, memb (odd3 d) = true -> d <> (0, 0, 0)%Z -> (sq3 d < m2)%Z -> In d (sh memb m2)) /\
     (forall d, In d (sh memb m2) -> memb (odd3 d) = true /\ (sq3 d <= m1)%Z /\ d <> (0, 0, 0)%Z /\
        let '(a, b, c) := d in (-2 <= a <= 2 /\ -2 <= b <= 2 /\ -2 <= c <= 2)%Z)).
  { intros memb m1 m2 k M _ F1. split; [|split].
    - apply NoDup_filter. apply NoDup_flat_map; [repeat constructor; cbn; lia| |].
      + intros x _. apply NoDup_flat_map; [repeat constructor; cbn; lia| |].
        * intros y _. apply FinFun.Injective_map_NoDup; [intros u v; congruence|repeat constructor; cbn; lia].
        * intros y y' q _ _ H1 H2. apply in_map_iff in H1, H2. destruct H1 as (? & <- & _), H2 as (? & E & _). congruence.
      + intros x x' q _ _ H1 H2. apply in_flat_map in H1, H2. destruct H1 as (? & _ & H1), H2 as (? & _ & H2).
        apply in_map_iff in H1, H2. destruct H1 as (? & <- & _), H2 as (? & E & _). congruence.
    - intros d Hm Hz Hq. apply filter_In. split.
      + pose proof (BOX _ _ Hq M) as B. destruct d as [[x y] w]. destruct B as (Bx & By & Bw). apply in_flat_map. exists x.
        assert (MM : forall v, (-2 <= v <= 2)%Z -> In v [-2; -1; 0; 1; 2]%Z) by (intros v Hv; cbn; lia).
        split; [auto|]. apply in_flat_map. exists y. split; [auto|]. apply in_map. auto.
      + rewrite Hm. apply Z.ltb_lt in Hq. rewrite Hq. cbn [andb]. apply negb_true_iff, Z.eqb_neq. intros K. apply Hz. destruct d as [[x y] w]. cbn in K.
        f_equal; [f_equal|]; nia.
    - intros d Hd. assert (Hd' := Hd). apply filter_In in Hd. destruct Hd as [_ Hd]. rewrite !andb_true_iff in Hd. destruct Hd as ((H1 & H2) & H3).
      apply Z.ltb_lt in H2. rewrite forallb_forall in F1. apply F1 in Hd'. apply Z.leb_le in Hd'. split; [exact H1|]. split; [exact Hd'|]. split; [|exact (BOX _ _ H2 M)].
      intros ->. cbn in H3. discriminate. }
  assert (UNI : forall bs', In (name, bs') basis -> bs' = bs).
  { intros bs' H'. pose proof basis_names as ND. clear -ND H' HB. induction basis as [|[n' b'] l IH]; [contradiction|].
    cbn [map fst] in ND. inversion ND as [|? ? N1 N2]; subst. cbn [In] in H', HB.
    destruct H' as [E1|H'], HB as [E2|HB]; [congruence| | |auto].
    - injection E1 as -> ->. destruct N1. apply in_map_iff. exists (name, bs). auto.
    - injection E2 as -> ->. destruct N1. apply in_map_iff. exists (name, bs'). auto. }
  assert (COUNT : forall k : nat, (Z.of_nat k = nx * ny * nz * Z.of_nat (List.length bs))%Z -> k = List.length bs * (Z.to_nat nx * Z.to_nat ny * Z.to_nat nz)).
  { intros k Hk. apply Nat2Z.inj. rewrite Hk, !Nat2Z.inj_mul, !Z2Nat.id by lia. ring. }
  assert (GOAL : forall hs memb m1 m2, cell_sides name a ca = (a, a, a) -> map snd bs = map half3 hs -> NoDup hs -> (forall b, In b hs <-> memb b = true) ->
     (forall x d, memb x = true -> memb (xor3 x d) = memb d) -> (m2 <= 8)%Z -> List.length (sh memb m2) = z -> z <= 300 ->
     forallb (fun d => (sq3 d <=? m1)%Z) (sh memb m2) = true -> (0 < r)%R ->
     (IZR m1 * (a / 2 * (a / 2)) < r * r)%R -> (r * r <= IZR m2 * (a / 2 * (a / 2)))%R ->
     exists atoms box s1 s2 s3,
    make_crystal raw normal name (a : Rnum) (Some (nx :: ny :: nz :: rest)) (ca : Rnum) (noise : Rnum) = Ok (atoms, box) /\
    box_set inv (sys_ctor mem) box = Ok s1 /\ atoms_set inv raw' s1 atoms = Ok s2 /\
    find_neighbors srt voro area_pow inv' s2 (mkArgs (N := Rnum) (MCutoff (CutVal (N := Rnum) r)) FNone t pad nl) = Ok (s3, None) /\
    Z.to_nat (s_real s2) = List.length bs * (Z.to_nat nx * Z.to_nat ny * Z.to_nat nz) /\
    Z.to_nat (s_real s2) <= List.length (s_atoms s2) /\
    forall i, i < List.length (s_atoms s2) -> List.length (nbrs_at s3 i) = z).
  { intros hs memb m1 m2 Hc Hhs NDh Hmem Hgrp M8 Hz Z300 F1 Hr R1 R2. destruct (SH memb m1 m2 z M8 Hz F1) as (ND & H1 & H3).
    assert (LB : List.length bs = List.length hs) by (rewrite <- (map_length snd bs), Hhs; apply map_length).
    assert (CT : Z.of_nat (count0 hs (Z.to_nat nx) (Z.to_nat ny) (Z.to_nat nz)) = (nx * ny * nz * Z.of_nat (List.length bs))%Z).
    { unfold count0. rewrite !Nat2Z.inj_mul, !Z2Nat.id, LB by lia. reflexivity. }
    destruct (@crystal_coordination hs memb (sh memb m2) m1 m2 NDh Hmem Hgrp ND H1 H3 name bs HB Hhs a ca noise r nx ny nz rest Hc Hno Ha Hn Hr R1 R2
      ltac:(lia) ltac:(rewrite CT; exact Hsize) raw normal raw' inv (sys_ctor mem) srt voro area_pow inv' t pad nl eq_refl eq_refl)
      as (atoms & box & s1 & s2 & s3 & E1 & E2 & E3 & E4 & E5 & E6 & E7).
    exists atoms, box, s1, s2, s3. rewrite E5. rewrite Hz in E7. split; [exact E1|]. split; [exact E2|]. split; [exact E3|]. split; [exact E4|].
    split; [apply COUNT; exact CT|]. split; [exact E6|exact E7]. }
  unfold shells in Hsh. cbn [In] in Hsh. destruct Hsh as [E|[E|[E|[]]]]; injection E as <- <- <- <-.
  - assert (Eb := UNI _ (or_introl eq_refl)). subst bs.
    apply (GOAL [(false, false, false)] (fun b => let '(x, y, w) := b in negb x && negb y && negb w) 4%Z 8%Z); try reflexivity; try lia.
    + repeat constructor; cbn; tauto.
    + intros [[[|] [|]] [|]]; cbn; (split; intros K; [destruct K as [K|[]]; try discriminate; reflexivity|try discriminate; auto]).
    + intros [[[|] [|]] [|]] [[[|] [|]] [|]]; cbn; intros; try discriminate; reflexivity.
    + lra.
    + pose proof (SQ 1 r 1 ltac:(lra) Hlo ltac:(lra))%R. lra.
    + pose proof (SQ' (sqrt 2) r 2 ltac:(lra) Hhi Q2)%R. lra.
  - assert (Eb := UNI _ (or_intror (or_introl eq_refl))). subst bs.
    apply (GOAL [(false, false, false); (true, true, true)] (fun b => let '(x, y, w) := b in Bool.eqb x y && Bool.eqb y w) 3%Z 4%Z); try reflexivity; try lia.
    + repeat constructor; cbn; [intros [K|[]]; discriminate|tauto].
    + intros [[[|] [|]] [|]]; cbn; (split; intros K; [destruct K as [K|[K|[]]]; try discriminate; reflexivity|try discriminate; auto]).
    + intros [[[|] [|]] [|]] [[[|] [|]] [|]]; cbn; intros; try discriminate; reflexivity.
    + assert (0 < sqrt 3 / 2 * a)%R by nra. lra.
    + pose proof (SQ (sqrt 3 / 2) r (3/4) ltac:(lra) Hlo ltac:(lra))%R. lra.
    + assert (0 < sqrt 3 / 2 * a)%R by nra. pose proof (SQ' 1 r 1 ltac:(lra) Hhi ltac:(lra))%R. lra.
  - assert (Eb := UNI _ (or_intror (or_intror (or_introl eq_refl)))). subst bs.
    apply (GOAL [(false, false, false); (true, false, true); (false, true, true); (true, true, false)] (fun b => let '(x, y, w) := b in negb (xorb (xorb x y) w)) 2%Z 4%Z); try reflexivity; try lia.
    + repeat constructor; cbn; try tauto; intros K; repeat destruct K as [K|K]; try discriminate; tauto.
    + intros [[[|] [|]] [|]]; cbn; (split; intros K; [repeat (destruct K as [K|K]; try discriminate); try reflexivity; contradiction|try discriminate; auto]).
    + intros [[[|] [|]] [|]] [[[|] [|]] [|]]; cbn; intros; try discriminate; reflexivity.
    + assert (0 < sqrt 2 / 2 * a)%R by nra. lra.
    + pose proof (SQ (sqrt 2 / 2) r (1/2) ltac:(lra) Hlo ltac:(lra))%R. lra.
    + assert (0 < sqrt 2 / 2 * a)%R by nra. pose proof (SQ' 1 r 1 ltac:(lra) Hhi ltac:(lra))%R. lra.
Qed.
Print Assumptions C52_coordination.

(** For bcc and fcc the width of the box is no restriction. *)
Theorem C52_bcc_fcc : forall name z lo hi bs, In (name, (z, lo, hi)) shells -> In (name, bs) basis -> name <> "sc"%string ->
  forall (a ca noise r : R) (nx ny nz : Z) rest, (0 < a)%R -> (noise <= 0)%R -> (3 <= nx /\ 3 <= ny /\ 3 <= nz)%Z ->
  (lo * a < r <= hi * a)%R -> (1 / 1000000 <= r)%R ->
  forall raw normal raw' inv mem srt voro area_pow inv' t pad nl,
  exists atoms box s1 s2 s3,
    make_crystal raw normal name (a : Rnum) (Some (nx :: ny :: nz :: rest)) (ca : Rnum) (noise : Rnum) = Ok (atoms, box) /\
    box_set inv (sys_ctor mem) box = Ok s1 /\ atoms_set inv raw' s1 atoms = Ok s2 /\
    find_neighbors srt voro area_pow inv' s2 (mkArgs (N := Rnum) (MCutoff (CutVal (N := Rnum) r)) FNone t pad nl) = Ok (s3, None) /\
    Z.to_nat (s_real s2) = List.length bs * (Z.to_nat nx * Z.to_nat ny * Z.to_nat nz) /\
    Z.to_nat (s_real s2) <= List.length (s_atoms s2) /\
    forall i, i < List.length (s_atoms s2) -> List.length (nbrs_at s3 i) = z.
Proof.
  intros name z lo hi bs Hsh HB Hsc a ca noise r nx ny nz rest Ha Hno Hn Hr Hmin. intros.
  apply (C52_coordination name z lo hi bs Hsh HB a ca noise r nx ny nz rest Ha Hno Hn Hr). right. split; [exact Hmin|].
  assert (hi = 1%R) as ->.
  { unfold shells in Hsh. cbn [In] in Hsh. destruct Hsh as [E|[E|[E|[]]]]; injection E as <- <- <- <-; [contradiction|reflexivity..]. }
  destruct Hn as (Hx & Hy & Hz). apply IZR_le in Hx, Hy, Hz. repeat split; nra.
Qed.
Print Assumptions C52_bcc_fcc.

(** The width condition is needed: 3 x 3 x 256 simple cubic cells, more than
    2300 atoms, cutoff between the shells; the search with cells finds some
    neighbours twice, or fails. *)
Theorem C52_coordination_refuted : exists (a r : R) (nx ny nz : Z), (0 < a)%R /\ (3 <= nx /\ 3 <= ny /\ 3 <= nz)%Z /\ (1 * a < r <= sqrt 2 * a)%R /\
  forall raw normal raw' inv mem srt voro area_pow inv' t pad nl,
  exists atoms box s1 s2,
    make_crystal raw normal "sc" (a : Rnum) (Some [nx; ny; nz]) (1%R : Rnum) (0%R : Rnum) = Ok (atoms, box) /\
    box_set inv (sys_ctor mem) box = Ok s1 /\ atoms_set inv raw' s1 atoms = Ok s2 /\
    ~ exists s3, find_neighbors srt voro area_pow inv' s2 (mkArgs (N := Rnum) (MCutoff (CutVal (N := Rnum) r)) FNone t pad nl) = Ok (s3, None) /\
        forall i, i < List.length (s_atoms s2) -> List.length (nbrs_at s3 i) = 6.
Proof.
  exists 1%R, (6/5)%R, 3%Z, 3%Z, 256%Z. split; [lra|]. split; [lia|]. split.
  { assert (6/5 < sqrt 2)%R; [|lra]. apply Rsqr_incrst_0; unfold Rsqr; [rewrite sqrt_sqrt by lra; lra|lra|apply sqrt_pos]. }
  intros. destruct (@big_refuted raw normal raw' inv (sys_ctor mem) eq_refl srt voro area_pow inv' t pad nl) as (atoms & s1 & s2 & E1 & E2 & E3 & L & H).
  exists atoms, big_box, s1, s2. split; [exact E1|]. split; [exact E2|]. split; [exact E3|].
  intros (s3 & E & H6). specialize (H6 0 L). specialize (H s3 E). rewrite H6 in H. lia.
Qed.
Print Assumptions C52_coordination_refuted.

(** A body centred cubic crystal of 3 x 4 x 3 cells, 72 atoms; the setter adds
    ghost atoms. *)
Example C52_example : forall raw normal raw' inv mem srt voro area_pow inv' t pad nl,
  exists atoms box s1 s2 s3,
    make_crystal raw normal "bcc" (3%R : Rnum) (Some [3; 4; 3]%Z) (1%R : Rnum) (0%R : Rnum) = Ok (atoms, box) /\
    box_set inv (sys_ctor mem) box = Ok s1 /\ atoms_set inv raw' s1 atoms = Ok s2 /\
    find_neighbors srt voro area_pow inv' s2 (mkArgs (N := Rnum) (MCutoff (CutVal (N := Rnum) 2.8%R)) FNone t pad nl) = Ok (s3, None) /\
    Z.to_nat (s_real s2) = 72 /\ Z.to_nat (s_real s2) <= List.length (s_atoms s2) /\
    forall i, i < List.length (s_atoms s2) -> List.length (nbrs_at s3 i) = 8.
Proof.
  intros. assert (HB : exists bs, In ("bcc"%string, bs) basis /\ List.length bs = 2) by (eexists; split; [right; left; reflexivity|reflexivity]).
  destruct HB as (bs & HB & L).
  assert (sqrt 3 < 1.75)%R.
  { apply Rsqr_incrst_0; unfold Rsqr; [rewrite sqrt_sqrt by lra; lra|apply sqrt_pos|lra]. }
  destruct (C52_coordination "bcc" 8 (sqrt 3 / 2) 1 bs (or_intror (or_introl eq_refl)) HB 3 1 0 2.8 3 4 3 [] ltac:(lra) ltac:(lra) ltac:(lia) ltac:(lra)
    ltac:(left; rewrite L; lia) raw normal raw' inv mem srt voro area_pow inv' t pad nl) as (atoms & box & s1 & s2 & s3 & E1 & E2 & E3 & E4 & E5 & E6 & E7).
  exists atoms, box, s1, s2, s3. rewrite L in E5. split; [exact E1|]. split; [exact E2|]. split; [exact E3|]. split; [exact E4|]. split; [exact E5|]. split; [exact E6|exact E7].
Qed.
