(** Properties C19 and C20 on doubles: the number and the adaptive method. *)
From Coq Require Import Reals ZArith Lia Permutation Sorted.
From Coq.Floats Require Import SpecFloat.
From Verif Require Import Base Num NumF Types Ex M_Geometry M_Container M_Neighbors S_Neighbors S_Double S_Number
  P_Order P_Double P_Number C_Neighbors.
Close Scope R_scope. Close Scope Z_scope.
#[local] Open Scope nat_scope.

Lemma two_way_double (lib : libm) (s : sys (SF64 lib)) : double_box s -> double_atoms s -> two_way s.
Proof.
  intros (B1 & B2 & B3 & B4) A a b Ha Hb. unfold abs_distance_ij. cbn [fst].
  assert (G : good_box s) by (split; [exact B1|split; [exact B2|split; assumption]]).
  exact (@distance_sym lib s (a_pos b) (a_pos a) G (A b Hb) (A a Ha)).
Qed.

(** The box setter gives such a box, and storing atoms keeps it. *)
Lemma double_box_set (lib : libm) inv (s0 s : sys (SF64 lib)) B l : box_set inv s0 B = Ok s ->
  all33 dbl B -> all33 dbl (s_rot s0) -> all33 dbl (s_rotinv s0) -> (forall m m', inv m = Some m' -> all33 dbl m') ->
  double_box (set_atoms s l).
Proof.
  intros H HB HR HI Hinv. destruct (@box_set_good lib inv s0 s B H HB HR HI Hinv) as (A1 & A2 & A3 & A4).
  split; [exact A1|split; [exact A2|split; assumption]].
Qed.

(** On doubles (any libm, any std::sort, orthogonal or triclinic, infinite and
    NaN coordinates included) the number method lists the k nearest atoms with
    the distances as computed, or fails because an atom has fewer than k atoms
    within the guessed distance. *)
Theorem C19_double :
  forall (lib : libm) srt voro area_pow inv (s : sys (SF64 lib)) (f : filt) (t pad : SF64 lib) (nl k : Z),
  sorts_numbers srt -> stored s -> double_box s -> double_atoms s ->
  nltb t n1 = false -> (0 <= k)%Z -> (s_real s <= 4000)%Z ->
  match find_neighbors srt voro area_pow inv s (mkArgs (MNumber _ k true) f t pad nl) with
  | Ok (s', None) => s_found s' = true /\ length (s_atoms s') = length (s_atoms s) /\
      forall i a, nth_error (s_atoms s) i = Some a -> exists a', nth_error (s_atoms s') i = Some a' /\
        same_atom a' a /\ nearest_views s i (Z.to_nat k) (a_nbrs a')
  | Ok (s', Some e) => e = RuntimeError /\ s_found s' = s_found s /\
      exists i, i < length (s_atoms s) /\ few_views s (guess_distance s t) i k
  | Err e => e = UB /\ (300 < k)%Z
  end.
Proof.
  intros lib srt voro area_pow inv s f t pad nl k Hs St HB HA Ht Hk Hr.
  pose proof (@number_find (SF64 lib) (or_intror (ex_intro _ lib eq_refl)) srt Hs voro area_pow inv s f t pad nl k St
    (two_way_double lib s HB HA) Ht Hr) as H.
  destruct (find_neighbors _ _ _ _ _ _) as [[s' [e|]]|e]; auto.
  destruct H as (A & B & i & Hi & [H|H]); [lia|]. eauto.
Qed.
Print Assumptions C19_double.

(** The adaptive method on doubles, with the cutoff as computed. *)
Theorem C20_double :
  forall (lib : libm) srt voro area_pow inv (s : sys (SF64 lib)) (f : filt) (t pad : SF64 lib) (k : Z) (c : cut (SF64 lib)),
  c = CutAdaptive _ \/ (exists z, c = CutVal z /\ neqb z n0 = true) ->
  sorts_numbers srt -> stored s -> double_box s -> double_atoms s ->
  nltb t n1 = false -> (0 <= k)%Z -> (s_nop s <= 4000)%Z ->
  match find_neighbors srt voro area_pow inv s (mkArgs (MCutoff c) f t pad k) with
  | Ok (s', None) => s_found s' = true /\ length (s_atoms s') = length (s_atoms s) /\
      forall i a, nth_error (s_atoms s) i = Some a -> exists a', nth_error (s_atoms s') i = Some a' /\
        same_atom a' a /\ adaptive_views s i k pad (guess_distance s t) f (a_nbrs a')
  | Ok (s', Some e) => e = RuntimeError /\ s_found s' = s_found s /\
      exists i, i < length (s_atoms s) /\ few_views s (guess_distance s t) i k
  | Err e => e = UB
  end.
Proof.
  intros lib srt voro area_pow inv s f t pad k c Hc Hs St HB HA Ht Hk Hr.
  pose proof (@adaptive_all (SF64 lib) (or_intror (ex_intro _ lib eq_refl)) srt Hs voro area_pow inv s f t pad k c Hc St
    (two_way_double lib s HB HA) Ht Hr) as H.
  destruct (find_neighbors _ _ _ _ _ _) as [[s' [e|]]|e]; auto.
  destruct H as (A & B & i & Hi & [H|H]); [lia|]. eauto.
Qed.
Print Assumptions C20_double.

(** Insertion sort is such a sort on doubles. *)
Example isort_numbers : forall lib, sorts_numbers (@isort (SF64 lib)).
Proof.
  intros lib l. assert (HM : machine (SF64 lib)) by (right; now exists lib).
  induction l as [|d l IH]; intros HF; simpl; [split; [apply Permutation_refl|constructor]|].
  destruct (IH (fun x Hx => HF x (or_intror Hx))) as [P S]. clear IH.
  assert (Hd := HF d (or_introl eq_refl)).
  assert (Hl : forall x, In x (isort l) -> nleb (d_dist x) (d_dist x) = true).
  { intros x Hx. apply HF. right. eapply Permutation_in; eauto. }
  assert (G : forall m, (forall x, In x m -> nleb (d_dist x) (d_dist x) = true) ->
     StronglySorted (fun x y => nltb (n := SF64 lib) (d_dist y) (d_dist x) = false) m ->
     Permutation (ins d m) (d :: m) /\
     StronglySorted (fun x y => nltb (n := SF64 lib) (d_dist y) (d_dist x) = false) (ins d m)).
  { induction m as [|x m IH]; cbn [ins]; intros Hm Sm; [split; auto; repeat constructor|].
    inversion Sm as [|? ? Sm' Fx]; subst.
    destruct (nltb (n := SF64 lib) (d_dist d) (d_dist x)) eqn:E.
    - assert (L : nleb (n := SF64 lib) (d_dist d) (d_dist x) = true) by (apply sf_lt_incl; exact E).
      split; [apply Permutation_refl|]. constructor; auto. constructor.
      + destruct (nltb (n := SF64 lib) (d_dist x) (d_dist d)) eqn:E2; auto.
        assert (X := machine_lt_le _ _ _ _ HM E2 L). assert (Y := sf_irrefl (d_dist x)). cbn in X. rewrite Y in X. discriminate.
      + rewrite Forall_forall in *. intros y Hy. destruct (nltb (n := SF64 lib) (d_dist y) (d_dist d)) eqn:E2; auto.
        assert (X := machine_lt_le _ _ _ _ HM E2 L). rewrite (Fx y Hy) in X. discriminate.
    - destruct (IH (fun y Hy => Hm y (or_intror Hy)) Sm') as [P1 S1]. split.
      + apply perm_trans with (x :: d :: m); [now constructor|apply perm_swap].
      + constructor; auto. apply (Permutation_Forall (Permutation_sym P1)). now constructor. }
  destruct (G (isort l) Hl S) as [P1 S1]. split; auto. apply perm_trans with (d :: isort l); auto.
Qed.

(** Five atoms at decimal coordinates, one of them across the boundary. *)
Definition n_sys (N : num) : sys N :=
  set_atoms (sbox (sys_ctor (raw_sys N)) (diag (nlit 151 10) (nlit 151 10) (nlit 99 10)))
    (map (fun p => let '(x, y, z, t) := p in at_pos (mkV (nlit x 10) (nlit y 10) (nlit z 10)) <| a_type := t |>)
       [(1, 3, 7, 1); (147, 3, 7, 2); (13, 9, 1, 1); (61, 1, 97, 1); (77, 70, 50, 2)]%Z).
Example C19_double_hyp : sorts_numbers (@isort F64) /\ stored (n_sys F64) /\ double_box (lib := libm_test) (n_sys F64) /\
  double_atoms (lib := libm_test) (n_sys F64) /\ nltb (n := F64) (nofZ 5) n1 = false /\ (s_real (n_sys F64) <= 4000)%Z.
Proof.
  split; [apply (isort_numbers libm_test)|]. split; [reflexivity|]. split; [repeat split; vm_compute; reflexivity|].
  split; [|split; [vm_compute; reflexivity|vm_compute; discriminate]].
  intros a Ha. simpl in Ha. repeat destruct Ha as [<-|Ha]; [..|destruct Ha]; repeat split; vm_compute; reflexivity.
Qed.
Example C19_double_runs :
  lists (run (n_sys F64) (mkArgs (N := F64) (MNumber _ 2 true) FNone (nofZ 5) n1 6)) =
    Some ([[1; 2]; [0; 2]; [0; 1]; [2; 0]; [3; 2]], true, None) /\
  lists (run (n_sys F64) (mkArgs (N := F64) (MNumber _ 5 true) FNone (nofZ 5) n1 6)) =
    Some ([[]; []; []; []; []], false, Some RuntimeError) /\
  lists (run (n_sys F64) (mkArgs (N := F64) (MCutoff (CutAdaptive _)) FNone (nofZ 5) (nlit 5 4) 2)) =
    Some ([[1]; [0]; [0; 1]; [2; 0; 1]; [3; 2; 1; 0]], true, None).
Proof. repeat split; vm_compute; reflexivity. Qed.
