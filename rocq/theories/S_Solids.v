(** Specification vocabulary for solid particles. *)
From Coq Require Import Reals ZArith List.
From Verif Require Import Base Num NumR Types M_Solids S_Steinhardt.
Import ListNotations.
Set Implicit Arguments.
Unset Strict Implicit.

(** ** s_ij from its definition *)
Local Open Scope R_scope.
(** sum_m Re(q_lm(E) conj(q_lm(E'))) *)
Definition dot_lm (l : nat) (E E' : dirs) : R :=
  Rsum (map (fun m => fst (q_lm l m E) * fst (q_lm l m E') + snd (q_lm l m E) * snd (q_lm l m E'))
            (zrange (- Z.of_nat l) (Z.of_nat l + 1))).
Definition s_ij (l : nat) (E E' : dirs) : R :=
  dot_lm l E E' / (sqrt (dot_lm l E E) * sqrt (dot_lm l E' E')).
Close Scope R_scope.

Section Solids.
Variable N : num.
(** The arrays have the sizes of atom.h and the neighbours fit. *)
Definition solid_ready (s : sys N) : Prop :=
  q_ready s /\ forall a, In a (s_atoms s) -> length (a_sij a) = 300 /\ length (a_nbrs a) <= 300.
(** Everything the classification does not change. *)
Definition but_solid (a : atom N) : atom N :=
  but_q a <| a_sij := [] |> <| a_frenkel := 0%Z |> <| a_avq := n0 |> <| a_solid := false |>.
(** The s_ij of an atom that belong to its neighbours. *)
Definition sij_values (a : atom N) : list N := firstn (length (a_nbrs a)) (a_sij a).
Definition count (f : N -> bool) (l : list N) : Z := Z.of_nat (length (filter f l)).
Definition total (l : list N) : N := fold_left nadd l n0.

(** Arguments find_solids accepts. *)
Definition in_unit (p : pynum N) : Prop :=
  p <> PyOther /\ nleb n0 (to_num p) = true /\ nleb (to_num p) n1 = true.
Definition bonds_ok (p : pynum N) : Prop :=
  match p with
  | PyInt _ => True
  | PyFloat x => nleb n0 x = true /\ nleb x n1 = true
  | PyOther => False
  end.
Definition q_ok_arg (p : pynum N) : Prop := exists q, p = PyInt q /\ (2 <= q <= 12)%Z.
(** Enough solid bonds: a number (int) or a fraction of the neighbours (float). *)
Definition enough (bonds : pynum N) (a : atom N) : Prop :=
  match bonds with
  | PyInt b => nltb (n := N) (nofZ b) (nofZ (a_frenkel a)) = true
  | PyFloat x => nltb x (ndiv (nofZ (a_frenkel a)) (nofZ (Z.of_nat (length (a_nbrs a))))) = true
  | PyOther => False
  end.
Definition avg_passes (cc : Z) (avg : pynum N) (a : atom N) : Prop :=
  if Z.eqb cc 0 then nltb (to_num avg) (a_avq a) = true else nltb (a_avq a) (to_num avg) = true.
(** A stricter number or fraction of bonds. *)
Definition stricter (b b' : pynum N) : Prop :=
  match b, b' with
  | PyInt _, PyInt _ | PyFloat _, PyFloat _ => nleb (to_num b) (to_num b') = true
  | _, _ => False
  end.
End Solids.
