(** embed_in_cubic_box over the reals. *)
From Coq Require Import Reals Lra.
From Verif Require Import Base Num NumR Types M_Geometry M_Container S_Geometry S_Embed P_Geometry P_Box Ex.
Local Open Scope R_scope.

Lemma norm_sq (d : v3 Rnum) : (norm d : R) * norm d = dot3 d d.
Proof.
  unfold norm, dot3; rnum. apply sqrt_sqrt. nra.
Qed.
Lemma norm_nonneg (d : v3 Rnum) : 0 <= (norm d : R).
Proof. unfold norm; rnum. apply sqrt_pos. Qed.
Lemma norm_pos (d : v3 Rnum) : 0 < dot3 d d -> 0 < (norm d : R).
Proof. intros H. unfold norm; rnum. apply sqrt_lt_R0. exact H. Qed.

(** Cholesky factors of the matrix of scalar products. *)
Section Chol.
Variables aa bb cc p q r : R. (* a.a, b.b, c.c, a.b, b.c, c.a *)
Variables na nb nc : R.
Hypothesis Ha : na * na = aa. Hypothesis Hb : nb * nb = bb. Hypothesis Hc : nc * nc = cc.
Hypothesis Pa : 0 < na. Hypothesis Pb : 0 < nb. Hypothesis Pc : 0 < nc.
Hypothesis G2 : 0 < aa * bb - p * p.
Hypothesis G3 : 0 < aa * bb * cc + 2 * p * q * r - aa * q * q - bb * r * r - cc * p * p.
Let xy := nb * (p / (na * nb)).
Let xz := nc * (r / (nc * na)).
Let ly := sqrt (nb * nb - xy * xy).
Let yz := (nb * nc * (q / (nb * nc)) - xy * xz) / ly.
Let lz := sqrt (nc * nc - xz * xz - yz * yz).
Lemma xy_eq : xy = p / na. Proof. unfold xy. field. lra. Qed.
Lemma xz_eq : xz = r / na. Proof. unfold xz. field. lra. Qed.
Lemma aa_pos : 0 < aa. Proof. rewrite <- Ha. nra. Qed.
Lemma ly2_pos : 0 < bb - p * p / aa.
Proof.
  pose proof aa_pos. replace (bb - p * p / aa) with ((aa * bb - p * p) / aa) by (field; lra).
  apply Rdiv_lt_0_compat; lra.
Qed.
Lemma ly_sq : ly * ly = bb - p * p / aa.
Proof.
  unfold ly. rewrite xy_eq. rewrite Hb. replace (p / na * (p / na)) with (p * p / aa) by (rewrite <- Ha; field; lra).
  apply sqrt_sqrt. pose proof ly2_pos. lra.
Qed.
Lemma ly_pos : 0 < ly.
Proof.
  pose proof ly_sq. pose proof ly2_pos. assert (0 <= ly) by apply sqrt_pos. destruct H1; [assumption|]. rewrite <- H1 in H. lra.
Qed.
Lemma yz_eq : yz = (q - p * r / aa) / ly.
Proof.
  pose proof ly_pos. unfold yz. rewrite xy_eq, xz_eq. rewrite <- Ha. field. repeat split; lra.
Qed.
Lemma lz2_eq : nc * nc - xz * xz - yz * yz =
  (aa * bb * cc + 2 * p * q * r - aa * q * q - bb * r * r - cc * p * p) / (aa * bb - p * p).
Proof.
  pose proof ly_pos as L. pose proof ly_sq as L2. pose proof aa_pos as A. rewrite yz_eq, xz_eq, Hc.
  replace (r / na * (r / na)) with (r * r / aa) by (rewrite <- Ha; field; lra).
  replace ((q - p * r / aa) / ly * ((q - p * r / aa) / ly)) with ((q - p * r / aa) * (q - p * r / aa) / (ly * ly)) by (field; lra).
  rewrite L2. field. repeat split; lra.
Qed.
Lemma lz_sq : lz * lz = nc * nc - xz * xz - yz * yz /\ 0 < lz.
Proof.
  assert (P : 0 < nc * nc - xz * xz - yz * yz) by (rewrite lz2_eq; apply Rdiv_lt_0_compat; lra).
  split; [apply sqrt_sqrt; lra|apply sqrt_lt_R0; exact P].
Qed.
Lemma chol : na * na = aa /\ xy * xy + ly * ly = bb /\ xz * xz + yz * yz + lz * lz = cc /\
  na * xy = p /\ xy * xz + ly * yz = q /\ xz * na = r.
Proof.
  pose proof ly_pos as L. destruct lz_sq as [Z _]. pose proof aa_pos as A. pose proof ly_sq as L2.
  split; [exact Ha|]. split; [rewrite xy_eq, L2, <- Ha; field; lra|]. split; [rewrite Z, <- Hc; ring|].
  split; [rewrite xy_eq; field; lra|]. split; [rewrite yz_eq, xy_eq, xz_eq, <- Ha; field; repeat split; lra|rewrite xz_eq; field; lra].
Qed.
End Chol.

Lemma py_min_le (x y : R) : (py_min (N := Rnum) x y : R) <= x /\ (py_min (N := Rnum) x y : R) <= y /\ (py_min (N := Rnum) x y = x \/ py_min (N := Rnum) x y = y).
Proof. unfold py_min; rnum. destruct (Rltb y x) eqn:E; [apply Rltb_true in E|apply Rltb_false in E]; repeat split; auto; lra. Qed.
Lemma py_max_ge (x y : R) : x <= (py_max (N := Rnum) x y : R) /\ y <= (py_max (N := Rnum) x y : R) /\ (py_max (N := Rnum) x y = x \/ py_max (N := Rnum) x y = y).
Proof. unfold py_max; rnum. destruct (Rltb x y) eqn:E; [apply Rltb_true in E|apply Rltb_false in E]; repeat split; auto; lra. Qed.

Lemma unit0 : unit_interval 0. Proof. unfold unit_interval; lra. Qed.
Lemma unit1 : unit_interval 1. Proof. unfold unit_interval; lra. Qed.

(** Extent of u*x + v*y for x >= 0. *)
Lemma spans2 (x y : R) : 0 <= x ->
  spans (fun u v w => u * 0 + v * x + w * y) (0 + (py_min (N := Rnum) 0 y : R)) (x + (py_max (N := Rnum) 0 y : R) - (0 + (py_min (N := Rnum) 0 y : R))).
Proof.
  intros Hx. destruct (py_min_le 0 y) as (M1 & M2 & M3). destruct (py_max_ge 0 y) as (X1 & X2 & X3).
  set (m := (py_min (N := Rnum) 0 y : R)) in *. set (k := (py_max (N := Rnum) 0 y : R)) in *. split; [|split].
  - intros u v w Hu Hv Hw. unfold unit_interval in *.
    assert (0 <= v * x <= x) by nra. assert (m <= w * y <= k) by (destruct (Rle_dec 0 y); nra). lra.
  - destruct M3 as [E|E]; [exists 0, 0, 0|exists 0, 0, 1]; repeat (split; [auto using unit0, unit1|]); rewrite E; lra.
  - destruct X3 as [E|E]; [exists 0, 1, 0|exists 0, 1, 1]; repeat (split; [auto using unit0, unit1|]); rewrite E; lra.
Qed.
Lemma spans3 (x y z : R) : 0 <= x ->
  let m := (py_min (N := Rnum) (py_min (N := Rnum) (py_min (N := Rnum) 0 y) z) (y + z) : R) in
  let k := (py_max (N := Rnum) (py_max (N := Rnum) (py_max (N := Rnum) 0 y) z) (y + z) : R) in
  spans (fun u v w => u * x + v * y + w * z) (0 + m) (x + k - (0 + m)).
Proof.
  intros Hx m k.
  destruct (py_min_le 0 y) as (M1 & M2 & M3). destruct (py_min_le (py_min (N := Rnum) 0 y) z) as (M4 & M5 & M6).
  destruct (py_min_le (py_min (N := Rnum) (py_min (N := Rnum) 0 y) z) (y + z)) as (M7 & M8 & M9).
  destruct (py_max_ge 0 y) as (X1 & X2 & X3). destruct (py_max_ge (py_max (N := Rnum) 0 y) z) as (X4 & X5 & X6).
  destruct (py_max_ge (py_max (N := Rnum) (py_max (N := Rnum) 0 y) z) (y + z)) as (X7 & X8 & X9).
  fold m in M7, M8, M9. fold k in X7, X8, X9. 
  assert (B : m <= 0 /\ m <= y /\ m <= z /\ m <= y + z /\ (m = 0 \/ m = y \/ m = z \/ m = y + z)).
  { repeat split; lra. }
  assert (C : 0 <= k /\ y <= k /\ z <= k /\ y + z <= k /\ (k = 0 \/ k = y \/ k = z \/ k = y + z)).
  { repeat split; lra. }
  clear - Hx B C. clearbody m k. destruct B as (B1 & B2 & B3 & B4 & B5), C as (C1 & C2 & C3 & C4 & C5). split; [|split].
  - intros u v w Hu Hv Hw. unfold unit_interval in *.
    assert (0 <= u * x <= x) by nra.
    assert (m <= v * y + w * z <= k).
    { destruct (Rle_dec 0 y), (Rle_dec 0 z).
      - assert (0 <= v * y <= y) by nra. assert (0 <= w * z <= z) by nra. lra.
      - assert (0 <= v * y <= y) by nra. assert (z <= w * z <= 0) by nra. lra.
      - assert (y <= v * y <= 0) by nra. assert (0 <= w * z <= z) by nra. lra.
      - assert (y <= v * y <= 0) by nra. assert (z <= w * z <= 0) by nra. lra. }
    lra.
  - destruct B5 as [E|[E|[E|E]]]; [exists 0, 0, 0|exists 0, 1, 0|exists 0, 0, 1|exists 0, 1, 1]; repeat (split; [auto using unit0, unit1|]); rewrite E; lra.
  - destruct C5 as [E|[E|[E|E]]]; [exists 1, 0, 0|exists 1, 1, 0|exists 1, 0, 1|exists 1, 1, 1]; repeat (split; [auto using unit0, unit1|]); rewrite E; lra.
Qed.

Theorem cube_tight (b : m3 Rnum) : volume3 b <> 0 ->
  exists (c : m3 Rnum) (o L : v3 Rnum), cube_of b = diag (N := Rnum) (vx L) (vy L) (vz L) /\ congruent b c /\ tight_box c o L /\
    0 < vx L /\ 0 < vy L /\ 0 < vz L.
Proof.
  intros V.
  assert (D : 0 < volume3 b * volume3 b) by nra.
  set (aa := dot3 (r0 b) (r0 b)). set (bb := dot3 (r1 b) (r1 b)). set (cc := dot3 (r2 b) (r2 b)).
  set (p := dot3 (r0 b) (r1 b)). set (q := dot3 (r1 b) (r2 b)). set (r := dot3 (r2 b) (r0 b)).
  assert (GE : volume3 b * volume3 b = aa * bb * cc + 2 * p * q * r - aa * q * q - bb * r * r - cc * p * p)
    by (unfold aa, bb, cc, p, q, r, volume3, dot3; ring).
  assert (NN : forall v : v3 Rnum, 0 <= dot3 v v) by (intros v; unfold dot3; nra).
  (* the minor is positive: otherwise the volume vanishes *)
  assert (Lag : aa * bb - p * p = let x := vy (r0 b) * vz (r1 b) - vz (r0 b) * vy (r1 b) in
    let y := vz (r0 b) * vx (r1 b) - vx (r0 b) * vz (r1 b) in let z := vx (r0 b) * vy (r1 b) - vy (r0 b) * vx (r1 b) in x * x + y * y + z * z)
    by (unfold aa, bb, p, dot3; cbv zeta; ring).
  cbv zeta in Lag. set (x := vy (r0 b) * vz (r1 b) - vz (r0 b) * vy (r1 b)) in Lag.
  set (y := vz (r0 b) * vx (r1 b) - vx (r0 b) * vz (r1 b)) in Lag. set (z := vx (r0 b) * vy (r1 b) - vy (r0 b) * vx (r1 b)) in Lag.
  assert (VE : volume3 b = x * vx (r2 b) + y * vy (r2 b) + z * vz (r2 b)) by (unfold volume3, x, y, z; ring).
  assert (G2 : 0 < aa * bb - p * p).
  { rewrite Lag. destruct (Req_dec x 0), (Req_dec y 0), (Req_dec z 0); nra. }
  assert (Pa : 0 < aa). { destruct (NN (r0 b)) as [|E]; [assumption|]. exfalso. fold aa in E. rewrite <- E in G2. nra. }
  assert (Pb : 0 < bb). { destruct (NN (r1 b)) as [|E]; [assumption|]. exfalso. fold bb in E. rewrite <- E in G2. nra. }
  assert (Pc : 0 < cc).
  { destruct (NN (r2 b)) as [|E]; [assumption|]. exfalso. apply V. rewrite VE. unfold dot3 in E.
    assert (vx (r2 b) = 0) as -> by nra. assert (vy (r2 b) = 0) as -> by nra. assert (vz (r2 b) = 0) as -> by nra. ring. }
  assert (Na := norm_sq (r0 b)). assert (Nb := norm_sq (r1 b)). assert (Nc := norm_sq (r2 b)).
  assert (Qa := norm_pos _ Pa). assert (Qb := norm_pos _ Pb). assert (Qc := norm_pos _ Pc).
  fold aa in Na. fold bb in Nb. fold cc in Nc.
  assert (G3 : 0 < aa * bb * cc + 2 * p * q * r - aa * q * q - bb * r * r - cc * p * p) by lra.
  set (na := (norm (r0 b) : R)) in *. set (nb := (norm (r1 b) : R)) in *. set (nc := (norm (r2 b) : R)) in *.
  destruct (chol aa bb cc p q r na nb nc Na Nb Nc Qa Qb Qc G2 G3) as (C1 & C2 & C3 & C4 & C5 & C6).
  assert (PL := ly_pos aa bb p na nb Na Nb Qa Qb G2).
  assert (PZ := proj2 (lz_sq aa bb cc p q r na nb nc Na Nb Nc Qa Qb Qc G2 G3)).
  set (xy := nb * (p / (na * nb))) in *. set (xz := nc * (r / (nc * na))) in *. set (ly := sqrt (nb * nb - xy * xy)) in *.
  set (yz := (nb * nc * (q / (nb * nc)) - xy * xz) / ly) in *. set (lz := sqrt (nc * nc - xz * xz - yz * yz)) in *.
  set (m := (py_min (N := Rnum) (py_min (N := Rnum) (py_min (N := Rnum) 0 xy) xz) (xy + xz) : R)).
  set (k := (py_max (N := Rnum) (py_max (N := Rnum) (py_max (N := Rnum) 0 xy) xz) (xy + xz) : R)).
  set (m2 := (py_min (N := Rnum) 0 yz : R)). set (k2 := (py_max (N := Rnum) 0 yz : R)).
  exists (mkM (N := Rnum) (mkV (N := Rnum) na 0 0) (mkV (N := Rnum) xy ly 0) (mkV (N := Rnum) xz yz lz)),
    (mkV (N := Rnum) (0 + m) (0 + m2) 0), (mkV (N := Rnum) (na + k - (0 + m)) (ly + k2 - (0 + m2)) (lz - 0)).
  split; [reflexivity|]. split.
  { unfold congruent. cbn [r0 r1 r2]. unfold dot3 at 2 4 6 8 10 12. cbn [vx vy vz].
    fold aa bb cc p q r. repeat split; lra. }
  split.
  { unfold tight_box, lin. cbn [vx vy vz r0 r1 r2]. split; [|split].
    - apply (spans3 na xy xz). lra.
    - apply (spans2 ly yz). lra.
    - split; [|split].
      + intros u v w Hu Hv Hw. unfold unit_interval in *. nra.
      + exists 0, 0, 0. repeat (split; [apply unit0|]). lra.
      + exists 0, 0, 1. repeat (split; [auto using unit0, unit1|]). lra. }
  destruct (py_min_le 0 yz) as (Y1 & _). destruct (py_max_ge 0 yz) as (Y2 & _). fold m2 in Y1. fold k2 in Y2.
  destruct (spans3 na xy xz) as (SX & _); [lra|]. cbv zeta in SX. fold m k in SX.
  cbn [vx vy vz]. repeat split; try lra.
  assert (S0 := SX 0 0 0 unit0 unit0 unit0). assert (S1 := SX 1 0 0 unit1 unit0 unit0). lra.
Qed.
