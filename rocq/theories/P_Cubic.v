(** Lemmas about extract_cubic_box. *)
From Coq Require Import Reals Lra Lia Psatz.
From Verif Require Import Base Num NumR Types Ex M_Geometry M_Container M_Cubic S_Geometry S_Container S_Cubic P_Geometry P_Container.
Local Open Scope R_scope.

Lemma coord_comp c p : (c < 3)%nat -> coord (N := Rnum) c p = comp c p.
Proof. intros H. destruct c as [|[|[|c]]]; [reflexivity..|lia]. Qed.

Lemma aligned_spec c (a b : atom Rnum) : (c < 3)%nat ->
  aligned c a b = true <-> on_axis c (a_pos a) (a_pos b) /\ a_type b = a_type a.
Proof.
  intros Hc. unfold aligned, on_axis.
  assert (Q : forall x y : R, nltb (n := Rnum) (nabs (n := Rnum) (nsub (n := Rnum) x y)) (nlit (n := Rnum) 1 100000) = true <-> Rabs (x - y) < 1 / 100000).
  { intros x y. rnum. apply Rltb_true. }
  destruct c as [|[|[|c]]]; [..|lia]; cbn [others]; rewrite !Bool.andb_true_iff, !Q, Z.eqb_eq; cbn [coord]; split.
  - intros ((H1 & H2) & H3). split; [|exact H3]. intros c' Hl Hn. destruct c' as [|[|[|c']]]; [lia|exact H1|exact H2|lia].
  - intros (H & H3). split; [split|exact H3]; [apply (H 1%nat)|apply (H 2%nat)]; lia.
  - intros ((H1 & H2) & H3). split; [|exact H3]. intros c' Hl Hn. destruct c' as [|[|[|c']]]; [exact H1|lia|exact H2|lia].
  - intros (H & H3). split; [split|exact H3]; [apply (H 0%nat)|apply (H 2%nat)]; lia.
  - intros ((H1 & H2) & H3). split; [|exact H3]. intros c' Hl Hn. destruct c' as [|[|[|c']]]; [exact H1|exact H2|lia|lia].
  - intros (H & H3). split; [split|exact H3]; [apply (H 0%nat)|apply (H 1%nat)]; lia.
Qed.

Definition near_ok (s : sys Rnum) c (anchor : atom Rnum) (l : list (atom Rnum)) (o : option (atom Rnum)) : Prop :=
  let D a := (abs_distance s (a_pos anchor) (a_pos a) : R) in
  match o with
  | None => forall a, In a l -> aligned c anchor a = true -> 10000 <= D a
  | Some m => In m l /\ aligned c anchor m = true /\ D m < 10000 /\
              forall a, In a l -> aligned c anchor a = true -> D m <= D a
  end.
Lemma nearest_fold (s : sys Rnum) c anchor l : forall done d o,
  near_ok s c anchor done o ->
  d = match o with None => 10000 | Some m => (abs_distance s (a_pos anchor) (a_pos m) : R) end ->
  near_ok s c anchor (done ++ l) (snd (fold_left (nearest_step s c anchor) l (d, o))).
Proof.
  induction l as [|a l IH]; intros done d o H E.
  - rewrite app_nil_r. exact H.
  - replace (done ++ a :: l)%list with ((done ++ [a]) ++ l)%list by (rewrite <- app_assoc; reflexivity).
    cbn [fold_left]. unfold nearest_step at 2. cbn [fst].
    destruct (aligned c anchor a) eqn:EA.
    + destruct (nltb (n := Rnum) (abs_distance s (a_pos anchor) (a_pos a)) d) eqn:EL.
      * assert (EL' : (abs_distance s (a_pos anchor) (a_pos a) : R) < d) by (apply Rltb_true; exact EL).
        apply IH; [|reflexivity]. cbv beta iota zeta delta [near_ok].
        split; [apply in_or_app; right; left; reflexivity|]. split; [exact EA|].
        destruct o as [m|]; cbv beta iota zeta delta [near_ok] in H.
        -- destruct H as (H1 & H2 & H3 & H4). split; [subst d; lra|].
           intros x Hx Ax. apply in_app_or in Hx as [Hx|[<-|[]]]; [|apply Rle_refl]. specialize (H4 x Hx Ax). subst d. lra.
        -- split; [lra|]. intros x Hx Ax. apply in_app_or in Hx as [Hx|[<-|[]]]; [|apply Rle_refl]. specialize (H x Hx Ax). lra.
      * assert (EL' : d <= (abs_distance s (a_pos anchor) (a_pos a) : R)) by (apply Rltb_false; exact EL).
        apply IH; [|exact E].
        destruct o as [m|]; cbv beta iota zeta delta [near_ok] in H |- *.
        -- destruct H as (H1 & H2 & H3 & H4). split; [apply in_or_app; left; exact H1|]. split; [exact H2|]. split; [exact H3|].
           intros x Hx Ax. apply in_app_or in Hx as [Hx|[<-|[]]]; [apply H4; assumption|]. subst d. exact EL'.
        -- intros x Hx Ax. apply in_app_or in Hx as [Hx|[<-|[]]]; [apply H; assumption|]. subst d. exact EL'.
    + apply IH; [|exact E].
      destruct o as [m|]; cbv beta iota zeta delta [near_ok] in H |- *.
      * destruct H as (H1 & H2 & H3 & H4). split; [apply in_or_app; left; exact H1|]. split; [exact H2|]. split; [exact H3|].
        intros x Hx Ax. apply in_app_or in Hx as [Hx|[<-|[]]]; [apply H4; assumption|]. congruence.
      * intros x Hx Ax. apply in_app_or in Hx as [Hx|[<-|[]]]; [apply H; assumption|]. congruence.
Qed.
Lemma nearest_spec (s : sys Rnum) c anchor l : near_ok s c anchor l (nearest s c anchor l).
Proof. unfold nearest. apply (nearest_fold s c anchor l []); [intros a []|reflexivity]. Qed.

Lemma py_min_R (x y : R) : (py_min (N := Rnum) x y : R) = Rmin x y.
Proof. unfold py_min; rnum. unfold Rmin. destruct (Rle_dec x y), (Rltb y x) eqn:E; try apply Rltb_true in E; try apply Rltb_false in E; try lra; reflexivity. Qed.
Lemma py_max_R (x y : R) : (py_max (N := Rnum) x y : R) = Rmax x y.
Proof. unfold py_max; rnum. unfold Rmax. destruct (Rle_dec x y), (Rltb x y) eqn:E; try apply Rltb_true in E; try apply Rltb_false in E; try lra; reflexivity. Qed.

Lemma bounds_inv (s : sys Rnum) c anchor l lo hi :
  bounds s c anchor l = Ok (lo, hi) ->
  exists m, nearest s c anchor l = Some m /\ (lo : R) = Rmin (coord c (a_pos anchor)) (coord c (a_pos m)) /\
            (hi : R) = Rmax (coord c (a_pos anchor)) (coord c (a_pos m)).
Proof.
  unfold bounds. destruct (nearest s c anchor l) as [m|]; [|discriminate]. intros H. injection H as <- <-.
  exists m. split; [reflexivity|]. rewrite <- py_min_R, <- py_max_R. auto.
Qed.

(** The result of a successful call, in full. *)
Lemma extract_inv inv raw (s s' : sys Rnum) reps b' l' :
  extract_cubic_box inv raw s reps = Ok (s', (b', l')) ->
  exists anchor rest lx hx ly hy lz hz,
    repeat_cell inv raw s reps None false true = Ok (s', anchor :: rest) /\
    bounds s' 0 anchor rest = Ok (lx, hx) /\ bounds s' 1 anchor rest = Ok (ly, hy) /\ bounds s' 2 anchor rest = Ok (lz, hz) /\
    b' = diag (N := Rnum) (hx - lx) (hy - ly) (hz - lz) /\
    forall a', In a' l' <-> exists a, In a (anchor :: rest) /\
      lx <= vx (a_pos a) < hx /\ ly <= vy (a_pos a) < hy /\ lz <= vz (a_pos a) < hz /\
      a' = a <| a_pos := mkV (N := Rnum) (vx (a_pos a) - lx) (vy (a_pos a) - ly) (vz (a_pos a) - lz) |>.
Proof.
  unfold extract_cubic_box. destruct (repeat_cell inv raw s reps None false true) as [[s1 [|anchor rest]]|e] eqn:ER; cbn [bind]; try discriminate.
  destruct (bounds s1 0 anchor rest) as [[lx hx]|] eqn:E1; cbn [bind]; [|discriminate].
  destruct (bounds s1 1 anchor rest) as [[ly hy]|] eqn:E2; cbn [bind]; [|discriminate].
  destruct (bounds s1 2 anchor rest) as [[lz hz]|] eqn:E3; cbn [bind]; [|discriminate].
  intros H.
  pose proof (f_equal (fun r => match r with Ok (_, (_, l)) => l | Err _ => [] end) H) as HL.
  pose proof (f_equal (fun r => match r with Ok (_, (b, _)) => b | Err _ => b' end) H) as HB.
  pose proof (f_equal (fun r => match r with Ok (s, _) => s | Err _ => s' end) H) as HS.
  cbv beta iota zeta in HL, HB, HS. clear H. subst s1 b' l'.
  exists anchor, rest, lx, hx, ly, hy, lz, hz.
  split; [reflexivity|]. split; [exact E1|]. split; [exact E2|]. split; [exact E3|]. split; [reflexivity|].
  intros a'. rewrite in_map_iff. split.
  - intros (a & E & Hf). apply filter_In in Hf as [Hin Hb]. exists a. split; [exact Hin|].
    unfold between in Hb. cbn [fst snd] in Hb. rewrite !Bool.andb_true_iff in Hb. destruct Hb as (((A1 & A2) & (A3 & A4)) & (A5 & A6)).
    apply Rleb_true in A1, A3, A5. apply Rltb_true in A2, A4, A6.
    split; [split; assumption|]. split; [split; assumption|]. split; [split; assumption|]. symmetry. exact E.
  - intros (a & Hin & (A1 & A2) & (A3 & A4) & (A5 & A6) & E). exists a. split; [symmetry; exact E|].
    apply filter_In. split; [exact Hin|]. unfold between. cbn [fst snd].
    rewrite !Bool.andb_true_iff. repeat split; try (apply Rleb_true; assumption); apply Rltb_true; assumption.
Qed.

Lemma lin_zero b (p : v3 Rnum) : let d := lin b (IZR 0) (IZR 0) (IZR 0) in
  vx p = vx p + vx d /\ vy p = vy p + vy d /\ vz p = vz p + vz d.
Proof.
  assert (Q : forall x u v w : R, x = x + (0 * u + 0 * v + 0 * w)) by (intros; ring).
  unfold lin; cbn [vx vy vz]. split; [apply Q|split; apply Q].
Qed.

(** The atoms of the repeated list. *)
Lemma repeated_atoms inv raw (s s' : sys Rnum) rx ry rz l ratoms :
  get_atoms s = Ok l -> repeat_cell inv raw s (rx, ry, rz) None false true = Ok (s', ratoms) ->
  (forall a, In a ratoms -> exists a0 i j k, In a0 l /\ (within rx i /\ within ry j /\ within rz k \/ (i = 0 /\ j = 0 /\ k = 0)%Z) /\ a_type a = a_type a0 /\
     let d := lin (box_get s) (IZR i) (IZR j) (IZR k) in
     vx (a_pos a) = vx (a_pos a0) + vx d /\ vy (a_pos a) = vy (a_pos a0) + vy d /\ vz (a_pos a) = vz (a_pos a0) + vz d) /\
  (forall a0 i j k, In a0 l -> within rx i -> within ry j -> within rz k -> exists a, In a ratoms /\ a_type a = a_type a0 /\
     let d := lin (box_get s) (IZR i) (IZR j) (IZR k) in
     vx (a_pos a) = vx (a_pos a0) + vx d /\ vy (a_pos a) = vy (a_pos a0) + vy d /\ vz (a_pos a) = vz (a_pos a0) + vz d) /\
  exists new, ratoms = (l ++ new)%list /\
  (forall a, In a new -> exists a0 i j k, In a0 l /\ within rx i /\ within ry j /\ within rz k /\ (i, j, k) <> (0, 0, 0)%Z /\ a_type a = a_type a0 /\
     let d := lin (box_get s) (IZR i) (IZR j) (IZR k) in
     vx (a_pos a) = vx (a_pos a0) + vx d /\ vy (a_pos a) = vy (a_pos a0) + vy d /\ vz (a_pos a) = vz (a_pos a0) + vz d).
Proof.
  intros HG HR. apply repeat_spec in HR as (l0 & new & HG' & -> & (keys & _ & HK & HF & _) & _).
  rewrite HG in HG'. injection HG' as <-.
  assert (disp : forall i j k p q, displaced (box_get s) i j k p q ->
     let d := lin (box_get s) (IZR i) (IZR j) (IZR k) in
     vx q = vx p + vx d /\ vy q = vy p + vy d /\ vz q = vz p + vz d).
  { intros i j k p q (D1 & D2 & D3). cbv zeta in D1, D2, D3. unfold lin; cbn [vx vy vz].
    revert D1 D2 D3. rnum. intros D1 D2 D3. rewrite D1, D2, D3. repeat split; ring. }
  assert (N1 : forall a, In a new -> exists a0 i j k, In a0 l /\ within rx i /\ within ry j /\ within rz k /\ (i, j, k) <> (0, 0, 0)%Z /\ a_type a = a_type a0 /\
     let d := lin (box_get s) (IZR i) (IZR j) (IZR k) in
     vx (a_pos a) = vx (a_pos a0) + vx d /\ vy (a_pos a) = vy (a_pos a0) + vy d /\ vz (a_pos a) = vz (a_pos a0) + vz d).
  { intros a Ha.
    assert (X : exists k, In k keys /\ copy_rel (box_get s) l 0 k a).
    { clear -HF Ha. induction HF as [|k g keys new R1 HF IH]; [destruct Ha|]. destruct Ha as [->|Ha]; [exists k; split; [left; reflexivity|exact R1]|].
      destruct (IH Ha) as (k' & K1 & K2). exists k'. split; [right; exact K1|exact K2]. }
    destruct X as ([[[i j] k] m] & Kin & a0 & Hn & HD & HT & _). apply HK in Kin as (B1 & B2 & B3 & B4 & _).
    exists a0, i, j, k. split; [eapply nth_error_In; exact Hn|]. repeat (split; [first [exact B1|exact B2|exact B3|exact B4|exact HT]|]). apply disp. exact HD. }
  split; [|split].
  - intros a Ha. apply in_app_or in Ha as [Ha|Ha].
    + exists a, 0%Z, 0%Z, 0%Z. split; [exact Ha|]. split; [right; auto|]. split; [reflexivity|]. apply lin_zero.
    + destruct (N1 a Ha) as (a0 & i & j & k & H1 & H2 & H3 & H4 & _ & H5 & H6). exists a0, i, j, k. split; [exact H1|]. split; [left; auto|]. split; [exact H5|exact H6].
  - intros a0 i j k Ha Bi Bj Bk.
    destruct (Z.eq_dec i 0) as [Ei|Ei], (Z.eq_dec j 0) as [Ej|Ej], (Z.eq_dec k 0) as [Ek|Ek].
    1: { subst. exists a0. split; [apply in_or_app; left; exact Ha|]. split; [reflexivity|]. apply lin_zero. }
    all: destruct (In_nth_error l a0 Ha) as (m & Hm).
    all: assert (Kin : In ((i, j, k), m) keys).
    1, 3, 5, 7, 9, 11, 13: apply HK; split; [exact Bi|]; split; [exact Bj|]; split; [exact Bk|]; split; [congruence|]; apply nth_error_Some; congruence.
    all: assert (X : exists a, In a new /\ copy_rel (box_get s) l 0 ((i, j, k), m) a).
    1, 3, 5, 7, 9, 11, 13: clear -HF Kin; induction HF as [|k0 g keys new R1 HF IH]; [destruct Kin|];
      destruct Kin as [->|Kin]; [exists g; split; [left; reflexivity|exact R1]|]; destruct (IH Kin) as (g' & K1 & K2); exists g'; split; [right; exact K1|exact K2].
    all: destruct X as (a & Ain & a1 & Hn & HD & HT & _); rewrite Hm in Hn; injection Hn as <-.
    all: exists a; split; [apply in_or_app; right; exact Ain|]; split; [exact HT|]; apply disp; exact HD.
  - exists new. split; [reflexivity|]. exact N1.
Qed.

(** ** The crystal *)
Lemma lin_inj0 (b : m3 Rnum) (i j k : R) : volume_of b <> 0 ->
  vx (lin b i j k) = 0 -> vy (lin b i j k) = 0 -> vz (lin b i j k) = 0 -> i = 0 /\ j = 0 /\ k = 0.
Proof.
  destruct b as [[a1 a2 a3] [b1 b2 b3] [c1 c2 c3]]. unfold volume_of, lin; cbn [vx vy vz r0 r1 r2].
  cbn in a1, a2, a3, b1, b2, b3, c1, c2, c3. intros V H1 H2 H3.
  assert (Q : forall x : R, x * (a1 * (b2 * c3 - b3 * c2) - a2 * (b1 * c3 - b3 * c1) + a3 * (b1 * c2 - b2 * c1)) = 0 -> x = 0).
  { intros x Hx. apply Rmult_integral in Hx as [Hx|Hx]; [exact Hx|contradiction]. }
  repeat split; apply Q.
  - replace (i * _) with ((i * a1 + j * b1 + k * c1) * (b2 * c3 - b3 * c2) - (i * a2 + j * b2 + k * c2) * (b1 * c3 - b3 * c1) + (i * a3 + j * b3 + k * c3) * (b1 * c2 - b2 * c1)) by ring.
    rewrite H1, H2, H3. ring.
  - replace (j * _) with ((i * a1 + j * b1 + k * c1) * (a3 * c2 - a2 * c3) + (i * a2 + j * b2 + k * c2) * (a1 * c3 - a3 * c1) + (i * a3 + j * b3 + k * c3) * (a2 * c1 - a1 * c2)) by ring.
    rewrite H1, H2, H3. ring.
  - replace (k * _) with ((i * a1 + j * b1 + k * c1) * (a2 * b3 - a3 * b2) + (i * a2 + j * b2 + k * c2) * (a3 * b1 - a1 * b3) + (i * a3 + j * b3 + k * c3) * (a1 * b2 - a2 * b1)) by ring.
    rewrite H1, H2, H3. ring.
Qed.

Lemma into_window (x lo L : R) : 0 < L -> exists n : Z, lo <= x - IZR n * L < lo + L.
Proof.
  intros HL. exists (up ((x - lo) / L) - 1)%Z. rewrite minus_IZR.
  destruct (archimed ((x - lo) / L)) as [H1 H2]. set (u := IZR (up ((x - lo) / L))) in *.
  assert (E : (x - lo) / L * L = x - lo) by (field; lra).
  assert (G1 : (x - lo) / L * L < u * L) by (apply Rmult_lt_compat_r; lra).
  assert (G2 : (u - (x - lo) / L) * L <= 1 * L) by (apply Rmult_le_compat_r; lra).
  nra.
Qed.

(** The vector of length [L] in direction [c] is a lattice vector. *)
Definition axis_vector (b : m3 Rnum) (c : nat) (L : R) : Prop :=
  0 < L /\ exists i j k, forall c', (c' < 3)%nat -> comp c' (lin b (IZR i) (IZR j) (IZR k)) = if Nat.eqb c' c then L else 0.

Lemma comp_opp b i j k c' : comp c' (lin b (IZR (- i)) (IZR (- j)) (IZR (- k))) = - comp c' (lin b (IZR i) (IZR j) (IZR k)).
Proof.
  rewrite !opp_IZR. unfold comp, lin; cbn [vx vy vz].
  destruct c' as [|[|[|c']]]; cbn [nth]; try ring. destruct c'; cbn [nth]; ring.
Qed.

Lemma edge_vector inv raw (s s' : sys Rnum) rx ry rz anchor l rest c lo hi :
  get_atoms s = Ok (anchor :: l) -> volume_of (box_get s) <> 0 ->
  (forall a, In a l -> a_type a <> a_type anchor) -> axes_exact (box_get s) rx ry rz -> (c < 3)%nat ->
  repeat_cell inv raw s (rx, ry, rz) None false true = Ok (s', anchor :: rest) ->
  bounds s' c anchor rest = Ok (lo, hi) ->
  axis_vector (box_get s) c (hi - lo) /\ lo <= comp c (a_pos anchor) <= hi.
Proof.
  intros HG HV HU HA Hc HR HB.
  apply bounds_inv in HB as (m & HM & Hlo & Hhi). rewrite !coord_comp in Hlo, Hhi by exact Hc.
  pose proof (nearest_spec s' c anchor rest) as NS. rewrite HM in NS. destruct NS as (Hin & HAl & _). apply aligned_spec in HAl as (HOn & HTy); [|exact Hc].
  destruct (repeated_atoms _ _ _ _ _ _ _ _ _ HG HR) as (_ & _ & new & EN & HN).
  injection EN as ->. apply in_app_or in Hin as [Hin|Hin]; [destruct (HU m Hin HTy)|].
  destruct (HN m Hin) as (a0 & i & j & k & Ha0 & Wi & Wj & Wk & Hne & HT & HD).
  assert (a0 = anchor). { destruct Ha0 as [<-|Ha0]; [reflexivity|]. exfalso. apply (HU a0 Ha0). congruence. } subst a0.
  assert (HC : forall c', (c' < 3)%nat -> comp c' (a_pos m) = comp c' (a_pos anchor) + comp c' (lin (box_get s) (IZR i) (IZR j) (IZR k))).
  { intros c' Hc'. cbv zeta in HD. destruct HD as (D1 & D2 & D3). destruct c' as [|[|[|c']]]; [exact D1|exact D2|exact D3|lia]. }
  set (e := lin (box_get s) (IZR i) (IZR j) (IZR k)) in *.
  assert (HZ : forall c', (c' < 3)%nat -> c' <> c -> comp c' e = 0).
  { assert (S : forall c', (c' < 3)%nat -> c' <> c -> Rabs (comp c' e) < 1 / 100000).
    { intros c' Hc' Hn. specialize (HOn c' Hc' Hn). rewrite (HC c' Hc') in HOn. replace (comp c' (a_pos anchor) + comp c' e - comp c' (a_pos anchor)) with (comp c' e) in HOn by ring. exact HOn. }
    specialize (HA i j k Wi Wj Wk). fold e in HA. cbv zeta in HA. destruct HA as (A0 & A1 & A2).
    intros c' Hc' Hn. destruct c as [|[|[|c]]]; [..|lia].
    - destruct (A0 (S 1%nat ltac:(lia) ltac:(lia)) (S 2%nat ltac:(lia) ltac:(lia))) as (Z1 & Z2). destruct c' as [|[|[|c']]]; [lia|exact Z1|exact Z2|lia].
    - destruct (A1 (S 0%nat ltac:(lia) ltac:(lia)) (S 2%nat ltac:(lia) ltac:(lia))) as (Z1 & Z2). destruct c' as [|[|[|c']]]; [exact Z1|lia|exact Z2|lia].
    - destruct (A2 (S 0%nat ltac:(lia) ltac:(lia)) (S 1%nat ltac:(lia) ltac:(lia))) as (Z1 & Z2). destruct c' as [|[|[|c']]]; [exact Z1|exact Z2|lia|lia]. }
  assert (HNZ : comp c e <> 0).
  { intros H0. assert (AZ : forall c', (c' < 3)%nat -> comp c' e = 0) by (intros c' Hc'; destruct (Nat.eq_dec c' c) as [->|Hn]; auto).
    destruct (lin_inj0 (box_get s) (IZR i) (IZR j) (IZR k) HV (AZ 0%nat ltac:(lia)) (AZ 1%nat ltac:(lia)) (AZ 2%nat ltac:(lia))) as (Z1 & Z2 & Z3).
    apply Hne. apply eq_IZR in Z1, Z2, Z3. congruence. }
  rewrite (HC c Hc) in Hlo, Hhi. set (p := comp c (a_pos anchor)) in *. set (x := comp c e) in *.
  assert (HL : lo <= p <= hi /\ (0 < x -> hi - lo = x) /\ (x < 0 -> hi - lo = - x)).
  { rewrite Hlo, Hhi. unfold Rmin, Rmax. destruct (Rle_dec p (p + x)); split; [lra|split; intros; lra|lra|split; intros; lra]. }
  destruct HL as (HL1 & HL2 & HL3). split; [|exact HL1].
  destruct (Rlt_le_dec 0 x) as [Hx|Hx].
  - split; [rewrite HL2; assumption|]. exists i, j, k. fold e. intros c' Hc'. destruct (Nat.eqb_spec c' c) as [->|Hn]; [rewrite HL2 by exact Hx; reflexivity|apply HZ; assumption].
  - assert (Hx' : x < 0) by (unfold x in *; lra). split; [rewrite HL3; lra|].
    exists (- i)%Z, (- j)%Z, (- k)%Z. intros c' Hc'. rewrite comp_opp. fold e. destruct (Nat.eqb_spec c' c) as [->|Hn]; [rewrite HL3 by exact Hx'; reflexivity|rewrite HZ by assumption; ring].
Qed.

Lemma comb (p i j k u v w n0 n1 n2 i0 j0 k0 i1 j1 k1 i2 j2 k2 A B C : R) :
  i0 * u + j0 * v + k0 * w = A -> i1 * u + j1 * v + k1 * w = B -> i2 * u + j2 * v + k2 * w = C ->
  p + (i * u + j * v + k * w) + (n0 * A + n1 * B + n2 * C) =
  p + ((i + n0 * i0 + n1 * i1 + n2 * i2) * u + (j + n0 * j0 + n1 * j1 + n2 * j2) * v + (k + n0 * k0 + n1 * k1 + n2 * k2) * w).
Proof. intros <- <- <-. ring. Qed.

Lemma axis_vectors_same (b : m3 Rnum) (l l' : list (atom Rnum)) (lo L : v3 Rnum) :
  axis_vector b 0 (vx L) -> axis_vector b 1 (vy L) -> axis_vector b 2 (vz L) ->
  (forall a', In a' l' -> in_crystal b l (mkV (N := Rnum) (vx (a_pos a') + vx lo) (vy (a_pos a') + vy lo) (vz (a_pos a') + vz lo)) (a_type a')) ->
  (forall p t, in_crystal b l p t -> vx lo <= vx p < vx lo + vx L -> vy lo <= vy p < vy lo + vy L -> vz lo <= vz p < vz lo + vz L ->
     exists a', In a' l' /\ a_type a' = t /\ vx p = vx (a_pos a') + vx lo /\ vy p = vy (a_pos a') + vy lo /\ vz p = vz (a_pos a') + vz lo) ->
  same_crystal b l lo (diag (N := Rnum) (vx L) (vy L) (vz L)) l'.
Proof.
  intros (P0 & i0 & j0 & k0 & E0) (P1 & i1 & j1 & k1 & E1) (P2 & i2 & j2 & k2 & E2) H1 H2.
  assert (T : forall p t n0 n1 n2 q, in_crystal b l p t ->
     vx q = vx p + IZR n0 * vx L -> vy q = vy p + IZR n1 * vy L -> vz q = vz p + IZR n2 * vz L -> in_crystal b l q t).
  { intros p t n0 n1 n2 q (a & i & j & k & Ha & Ht & C1 & C2 & C3) Q1 Q2 Q3.
    exists a, (i + n0 * i0 + n1 * i1 + n2 * i2)%Z, (j + n0 * j0 + n1 * j1 + n2 * j2)%Z, (k + n0 * k0 + n1 * k1 + n2 * k2)%Z.
    split; [exact Ha|]. split; [exact Ht|]. cbv zeta in C1, C2, C3 |- *.
    pose proof (E0 0%nat ltac:(lia)) as E00. pose proof (E0 1%nat ltac:(lia)) as E01. pose proof (E0 2%nat ltac:(lia)) as E02.
    pose proof (E1 0%nat ltac:(lia)) as E10. pose proof (E1 1%nat ltac:(lia)) as E11. pose proof (E1 2%nat ltac:(lia)) as E12.
    pose proof (E2 0%nat ltac:(lia)) as E20. pose proof (E2 1%nat ltac:(lia)) as E21. pose proof (E2 2%nat ltac:(lia)) as E22.
    clear E0 E1 E2 H1 H2. unfold comp, lin in *; cbn [nth vx vy vz Nat.eqb] in *.
    rewrite !plus_IZR, !mult_IZR. rewrite Q1, Q2, Q3, C1, C2, C3.
    split; [refine (eq_trans _ (comb _ _ _ _ _ _ _ _ _ _ _ _ _ _ _ _ _ _ _ _ _ _ E00 E10 E20)); ring|].
    split; [refine (eq_trans _ (comb _ _ _ _ _ _ _ _ _ _ _ _ _ _ _ _ _ _ _ _ _ _ E01 E11 E21)); ring|].
    refine (eq_trans _ (comb _ _ _ _ _ _ _ _ _ _ _ _ _ _ _ _ _ _ _ _ _ _ E02 E12 E22)); ring. }
  assert (G0 : forall x n e : R, x - n * e = x + - n * e) by (intros; ring).
  intros p t. split.
  - intros HC. destruct (into_window (vx p) (vx lo) (vx L) P0) as (m0 & W0). destruct (into_window (vy p) (vy lo) (vy L) P1) as (m1 & W1). destruct (into_window (vz p) (vz lo) (vz L) P2) as (m2 & W2).
    set (q := mkV (N := Rnum) (vx p - IZR m0 * vx L) (vy p - IZR m1 * vy L) (vz p - IZR m2 * vz L)).
    assert (HQ : in_crystal b l q t).
    { apply (T p t (- m0)%Z (- m1)%Z (- m2)%Z q HC); rewrite opp_IZR; apply G0. }
    destruct (H2 q t HQ W0 W1 W2) as (a' & Ha & Ht & Q1 & Q2 & Q3). exists a', m0, m1, m2. split; [exact Ha|]. split; [exact Ht|].
    assert (G : forall x n e y o u v : R, x - n * e = y + o -> x - o = y + (n * e + u * 0 + v * 0)) by (intros; lra).
    assert (G' : forall x n e y o u v : R, x - n * e = y + o -> x - o = y + (u * 0 + n * e + v * 0)) by (intros; lra).
    assert (G'' : forall x n e y o u v : R, x - n * e = y + o -> x - o = y + (u * 0 + v * 0 + n * e)) by (intros; lra).
    split; [exact (G _ _ _ _ _ _ _ Q1)|]. split; [exact (G' _ _ _ _ _ _ _ Q2)|exact (G'' _ _ _ _ _ _ _ Q3)].
  - intros (a' & m0 & m1 & m2 & Ha & Ht & C1 & C2 & C3). subst t.
    apply (T _ _ m0 m1 m2 p (H1 a' Ha)); cbn [vx vy vz].
    + assert (G : forall x n e y o u v : R, x - o = y + (n * e + u * 0 + v * 0) -> x = y + o + n * e) by (intros; lra). exact (G _ _ _ _ _ _ _ C1).
    + assert (G : forall x n e y o u v : R, x - o = y + (u * 0 + n * e + v * 0) -> x = y + o + n * e) by (intros; lra). exact (G _ _ _ _ _ _ _ C2).
    + assert (G : forall x n e y o u v : R, x - o = y + (u * 0 + v * 0 + n * e) -> x = y + o + n * e) by (intros; lra). exact (G _ _ _ _ _ _ _ C3).
Qed.
