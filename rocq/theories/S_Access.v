(** What the methods that hand out or derive values of single atoms should
    give: the cutoff of an atom, the values of the custom columns, the lists of
    Steinhardt's parameters. *)
From Coq Require Import Reals ZArith List Ascii String.
From Coq.Floats Require Import SpecFloat.
From Verif Require Import Base Num NumR Types M_Text M_Steinhardt.
Import ListNotations.
Close Scope R_scope. Close Scope Z_scope.
Set Implicit Arguments.
Unset Strict Implicit.

(** Everything about an atom except its cutoff. *)
Definition but_cutoff (N : num) (a : atom N) : atom N := a <| a_cutoff := n0 |>.
(** The distances of the neighbours of an atom. *)
Definition reach (a : atom Rnum) : list R := map (fun e => nb_dist e) (a_nbrs a).
(** [m] is the mean of the numbers of [l]: the deviations cancel. *)
Definition is_mean (l : list R) (m : R) : Prop :=
  (fold_right Rplus 0 (map (fun d => d - m) l) = 0)%R.
Definition not_a_number (x : spec_float) : Prop := x = S754_nan.

(** The value that a custom column [k] of an atom stands for: the dictionary
    [custom] of the atom comes first, then an attribute of this name, then
    [q<l>] and [aq<l>], where l is written in decimal digits, 2 to 12. *)
Section Custom.
Variable N : num.
Variable V : Type.
Variable of_text : text -> V.
Variable of_num : N -> V.
Variable getattr : atom N -> text -> option V.
Inductive column (a : atom N) (d : dict text) : text -> V -> Prop :=
| col_custom k v : dget d k = Some v -> column a d k (of_text v)
| col_attribute k v : dget d k = None -> getattr a k = Some v -> column a d k v
| col_q l v : dget d (tx "q" ++ show_int l) = None -> getattr a (tx "q" ++ show_int l) = None ->
    (2 <= l <= 12)%Z -> nth_error (a_q a) (Z.to_nat (l - 2)) = Some v ->
    column a d (tx "q" ++ show_int l) (of_num v)
| col_aq l v : dget d (tx "aq" ++ show_int l) = None -> getattr a (tx "aq" ++ show_int l) = None ->
    (2 <= l <= 12)%Z -> nth_error (a_aq a) (Z.to_nat (l - 2)) = Some v ->
    column a d (tx "aq" ++ show_int l) (of_num v).
(** A name that means nothing: neither stored nor an attribute, and not the
    beginning of a parameter's name. *)
Definition meaningless (a : atom N) (d : dict text) (k : text) : Prop :=
  dget d k = None /\ getattr a k = None /\
  (forall w, k <> tx "q" ++ w) /\ (forall w, k <> tx "aq" ++ w).
End Custom.
