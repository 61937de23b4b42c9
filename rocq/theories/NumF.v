(** IEEE-754 binary64 as an instance of [num], from the executable (axiom
    free) definitions of Coq's [SpecFloat].  The transcendental functions of
    the C library are arbitrary parameters. *)
From Coq Require Import ZArith.
From Coq.Floats Require Import SpecFloat.
From Verif Require Import Num.
Open Scope Z_scope.

Definition prec64 := 53.
Definition emax64 := 1024.

Definition sf_add := SFadd prec64 emax64.
Definition sf_sub := SFsub prec64 emax64.
Definition sf_mul := SFmul prec64 emax64.
Definition sf_div := SFdiv prec64 emax64.
Definition sf_sqrt := SFsqrt prec64 emax64.
Definition sf_ofZ (z : Z) : spec_float := binary_normalize prec64 emax64 z 0 false.
Definition sf_lit (p : Z) (q : positive) : spec_float :=
  sf_div (sf_ofZ p) (sf_ofZ (Zpos q)).
(** Truncation towards zero; the C cast is undefined for nan, infinities and
    values outside int, here 0 for the former two. *)
Definition sf_trunc (x : spec_float) : Z :=
  match x with
  | S754_finite s m e =>
      let a := if Z.leb 0 e then Z.shiftl (Zpos m) e else Z.shiftr (Zpos m) (- e) in
      if s then - a else a
  | _ => 0
  end.

Record libm := mkLibm {
  l_cbrt : spec_float -> spec_float; l_cos : spec_float -> spec_float;
  l_sin : spec_float -> spec_float; l_acos : spec_float -> spec_float;
  l_atan2 : spec_float -> spec_float -> spec_float;
  l_exp : spec_float -> spec_float; l_log : spec_float -> spec_float
}.

Definition SF64 (L : libm) : num := {|
  carrier := spec_float;
  nadd := sf_add; nsub := sf_sub; nmul := sf_mul; ndiv := sf_div;
  nopp := SFopp; nabs := SFabs; nsqrt := sf_sqrt;
  nltb := SFltb; nleb := SFleb; neqb := SFeqb;
  nofZ := sf_ofZ; nlit := sf_lit; ntrunc := sf_trunc;
  ncbrt := l_cbrt L; ncos := l_cos L; nsin := l_sin L; nacos := l_acos L;
  natan2 := l_atan2 L; nexp := l_exp L; nlog := l_log L
|}.

(** A library whose functions are placeholders, for running parts of the model
    that do not call them.  [cbrt] is a real cube root by bisection-free
    Newton steps, good enough for the concrete examples that need it. *)
Fixpoint newton_cbrt (k : nat) (x y : spec_float) : spec_float :=
  match k with
  | O => y
  | S k =>
      newton_cbrt k x
        (sf_div (sf_add (sf_mul (sf_ofZ 2) y) (sf_div x (sf_mul y y))) (sf_ofZ 3))
  end.
Definition libm_test : libm := {|
  l_cbrt := fun x => if SFeqb x (sf_ofZ 0) then x else newton_cbrt 60 x x;
  l_cos := fun x => x; l_sin := fun x => x; l_acos := fun x => x;
  l_atan2 := fun y _ => y; l_exp := fun x => x; l_log := fun x => x |}.
Definition F64 : num := SF64 libm_test.
