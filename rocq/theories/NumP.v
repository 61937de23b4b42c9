(** Coq's primitive floats: IEEE binary64 computed by the processor.  Used for
    the larger concrete runs; [FloatAxioms] of the standard library states that
    the operations agree with [SpecFloat] (and so with [SF64]). *)
From Coq Require Import ZArith Floats Uint63 SpecFloat.
From Verif Require Import Base Num NumF.

Definition pf_ofZ (z : Z) : float :=
  match z with
  | Z0 => PrimFloat.zero
  | Zpos p => PrimFloat.of_uint63 (Uint63.of_Z (Zpos p))
  | Zneg p => PrimFloat.opp (PrimFloat.of_uint63 (Uint63.of_Z (Zpos p)))
  end.
Definition PF (L : libm) : num := {|
  carrier := float;
  nadd := PrimFloat.add; nsub := PrimFloat.sub; nmul := PrimFloat.mul; ndiv := PrimFloat.div;
  nopp := PrimFloat.opp; nabs := PrimFloat.abs; nsqrt := PrimFloat.sqrt;
  nltb := PrimFloat.ltb; nleb := PrimFloat.leb; neqb := PrimFloat.eqb;
  nofZ := pf_ofZ; nlit := fun a b => PrimFloat.div (pf_ofZ a) (pf_ofZ (Zpos b));
  ntrunc := fun x => sf_trunc (Prim2SF x);
  ncbrt := fun x => SF2Prim (l_cbrt L (Prim2SF x)); ncos := fun x => SF2Prim (l_cos L (Prim2SF x));
  nsin := fun x => SF2Prim (l_sin L (Prim2SF x)); nacos := fun x => SF2Prim (l_acos L (Prim2SF x));
  natan2 := fun x y => SF2Prim (l_atan2 L (Prim2SF x) (Prim2SF y));
  nexp := fun x => SF2Prim (l_exp L (Prim2SF x)); nlog := fun x => SF2Prim (l_log L (Prim2SF x))
|}.
Definition P64 : num := PF libm_test.
