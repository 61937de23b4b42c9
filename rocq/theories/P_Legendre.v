(** The functions PLM, dfactorial and YLM of the code are the associated
    Legendre functions and spherical harmonics for l = 2..12. *)
From Coq Require Import Reals ZArith List Lia Lra.
From Verif Require Import Base Num NumR Types M_Geometry M_Steinhardt S_Steinhardt P_Addition.
Import ListNotations.
Set Implicit Arguments.
Unset Strict Implicit.
Local Open Scope R_scope.

Ltac plm_case Hs :=
    unfold assoc_legendre;
    match goal with |- PLM ?a ?b ?x = _ * peval ?p ?x / IZR ?k =>
      let p' := eval vm_compute in p in change p with p';
      let k' := eval vm_compute in k in change k with k';
      let a' := eval vm_compute in a in change a with a';
      let b' := eval vm_compute in b in change b with b' end;
    cbv -[Rplus Rmult Rminus Rdiv Ropp sqrt IZR Rinv pow R peval];
    rewrite ?Hs;
    match goal with |- context [sqrt ?e] => generalize (sqrt e) end; intros s; cbn [peval]; field.

Lemma PLM_assoc l m x : (2 <= l <= 12)%nat -> (m <= l)%nat ->
  PLM (N := Rnum) (Z.of_nat l) (Z.of_nat m) x = assoc_legendre l m x.
Proof.
  intros Hl Hm.
  assert (forall s : R, s = sqrt (1 - x ^ 2) -> sqrt ((1 - x) * (1 + x)) = s) as Hs.
  { intros s ->. f_equal. ring. }
  specialize (Hs _ eq_refl).
  do 2 (destruct l as [|l]; [lia|]).
  do 11 (destruct l as [|l]; [clear Hl; do 13 (destruct m as [|m]; [clear Hm; plm_case Hs|try lia])|]).
  lia.
Qed.
