(** Property C01 for the doubles that are returned. *)
From Coq Require Import ZArith.
From Coq.Floats Require Import SpecFloat.
From Verif Require Import Base Num NumF Types M_Geometry M_Container Ex S_Double P_Double.

(** Every box accepted by the setter, orthogonal or triclinic, any earlier boxes,
    any two atoms, finite or not: the same double in both orders, never
    negative.  From an atom to itself it is +0 if the position is finite and, in a
    triclinic box, the matrices are finite and the lengths are not zero. *)
Theorem C01_double :
  forall (lib : libm) inv (s0 s : sys (SF64 lib)) (B : m3 (SF64 lib)),
  box_set inv s0 B = Ok s ->
  all33 dbl B -> all33 dbl (s_rot s0) -> all33 dbl (s_rotinv s0) -> (forall m m', inv m = Some m' -> all33 dbl m') ->
  forall a b : atom (SF64 lib), all3 dbl (a_pos a) -> all3 dbl (a_pos b) ->
  exists d : spec_float,
    get_distance s a b false = DistOnly (N := SF64 lib) d /\
    get_distance s b a false = DistOnly (N := SF64 lib) d /\
    SFltb d (S754_zero false) = false /\
    (s_tri s = false -> all3 fin (a_pos a) -> all3 fin (a_pos b) -> SFeqb d d = true) /\
    (all3 fin (a_pos a) ->
     (s_tri s = true -> all33 fin (s_rot s) /\ all33 fin (s_rotinv s) /\ all3 fin (s_len s) /\
        all3 (fun x => ~ zero x) (s_len s)) ->
     get_distance s a a false = DistOnly (N := SF64 lib) (S754_zero false)).
Proof.
  intros lib inv s0 s B H HB HR HI Hinv a b Ha Hb. pose proof (@box_set_good lib inv s0 s B H HB HR HI Hinv) as G.
  exists (abs_distance s (a_pos a) (a_pos b)). unfold get_distance. split; [reflexivity|]. split; [f_equal; symmetry; apply distance_sym; assumption|].
  split; [apply norm_nonneg|]. split; [intros T Fa Fb; apply distance_not_nan; assumption|].
  intros Fa HT. f_equal. apply distance_self; [exact G|exact Fa|]. intros T. destruct (HT T) as (A1 & A2 & A3 & A4 & A5 & A6). repeat split; assumption || apply A1 || apply A2 || apply A3.
Qed.
Print Assumptions C01_double.

(** In Python the same NaN is not equal to itself: two atoms with an infinite
    coordinate. *)
Theorem C01_infinite_refuted :
  exists (s : sys F64) (a b : atom F64) (d : F64),
    box_set (fun m => Some m) (sys_ctor (raw_sys F64)) (diag (N := F64) (nofZ 10) (nofZ 10) (nofZ 10)) = Ok s /\
    all3 dbl (lib := libm_test) (a_pos a) /\ all3 dbl (lib := libm_test) (a_pos b) /\
    get_distance s a b false = DistOnly (N := F64) d /\ get_distance s b a false = DistOnly (N := F64) d /\ SFeqb d d = false.
Proof.
  assert (E : exists s, box_set (fun m => Some m) (sys_ctor (raw_sys F64)) (diag (N := F64) (nofZ 10) (nofZ 10) (nofZ 10)) = Ok s /\ s_len s = sbox_len (diag (N := F64) (nofZ 10) (nofZ 10) (nofZ 10)) /\ s_tri s = false).
  { eexists. split; [reflexivity|]. split; reflexivity. }
  destruct E as (s & E & EL & ET).
  exists s, (at_pos (mkV (N := F64) (S754_infinity false) (nofZ 1) (nofZ 1))), (at_pos (mkV (N := F64) (S754_infinity false) (nofZ 2) (nofZ 2))), S754_nan.
  split; [exact E|]. split; [repeat split; vm_compute; reflexivity|]. split; [repeat split; vm_compute; reflexivity|].
  unfold get_distance, abs_distance, pbc_diff. rewrite ET, EL. split; [|split; [|reflexivity]]; f_equal; vm_compute; reflexivity.
Qed.
Print Assumptions C01_infinite_refuted.

Example C01_double_hyp : exists s, box_set (fun m => Some m) (sys_ctor (raw_sys F64)) (diag (N := F64) (nofZ 10) (nofZ 8) (nofZ 6)) = Ok s /\
  all33 dbl (lib := libm_test) (diag (N := F64) (nofZ 10) (nofZ 8) (nofZ 6)) /\ all33 dbl (lib := libm_test) (s_rot (raw_sys F64)) /\ all33 dbl (lib := libm_test) (s_rotinv (raw_sys F64)).
Proof. eexists. split; [reflexivity|]. split; [|split]; repeat split; vm_compute; reflexivity. Qed.
(** A subnormal box length, half of which is not a double; differences at a tie
    and above. *)
Example C01_double_runs :
  let L := S754_finite false 5 (-1074) in let w := fun d => wrap1 (N := F64) L d in
  (w (S754_finite false 3 (-1074)), w (S754_finite true 3 (-1074)), w (S754_finite false 2 (-1074)), w (S754_finite true 2 (-1074)))
  = (S754_finite true 2 (-1074), S754_finite false 2 (-1074), S754_finite false 2 (-1074), S754_finite true 2 (-1074)).
Proof. vm_compute. reflexivity. Qed.
