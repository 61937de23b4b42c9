(** Concrete data used by the Examples beside the theorems: memory content of
    freshly allocated objects (all zero) and small constructors. *)
From Verif Require Import Base Num Types.
Set Implicit Arguments.
Unset Strict Implicit.

Section Ex.
Variable N : num.
Definition zero3 : v3 N := mkV n0 n0 n0.
Definition raw_atom : atom N :=
  mkAtom zero3 0 0 0 0 0 [] [] n0 [] [] [] [] [] 0 n0 0 false false false 0 [] n0 n0 n0 n0.
Definition raw_sys : sys N :=
  mkSys [] 0 0 0 (mkM zero3 zero3 zero3) zero3 false (mkM zero3 zero3 zero3)
        (mkM zero3 zero3 zero3) None n0 0 false false 0 false false.
Definition zv (x y z : Z) : v3 N := mkV (nofZ x) (nofZ y) (nofZ z).
Definition diag (x y z : N) : m3 N := mkM (mkV x n0 n0) (mkV n0 y n0) (mkV n0 n0 z).
Definition at_pos (p : v3 N) : atom N := raw_atom <| a_pos := p |>.
End Ex.
