(** The number interface of the model.

    The C++ code computes with [double].  Every numeric definition of the
    model is written against this record of operations; it contains no laws,
    so a theorem quantified over [N : num] assumes nothing about arithmetic
    and holds for IEEE doubles.  Instances: [Rnum] (NumR.v, exact real
    arithmetic) and [SF64] (NumF.v, IEEE-754 binary64). *)
From Coq Require Import ZArith.

Record num : Type := mkNum {
  carrier :> Type;
  nadd : carrier -> carrier -> carrier;
  nsub : carrier -> carrier -> carrier;
  nmul : carrier -> carrier -> carrier;
  ndiv : carrier -> carrier -> carrier;
  nopp : carrier -> carrier;
  nabs : carrier -> carrier;
  nsqrt : carrier -> carrier;
  nltb : carrier -> carrier -> bool;        (* C [<] *)
  nleb : carrier -> carrier -> bool;        (* C [<=] *)
  neqb : carrier -> carrier -> bool;        (* C [==] *)
  nofZ : Z -> carrier;                      (* conversion from int *)
  nlit : Z -> positive -> carrier;          (* decimal literal p/q *)
  ntrunc : carrier -> Z;                    (* cast to int: towards zero *)
  ncbrt : carrier -> carrier;               (* libm *)
  ncos : carrier -> carrier;
  nsin : carrier -> carrier;
  nacos : carrier -> carrier;
  natan2 : carrier -> carrier -> carrier;
  nexp : carrier -> carrier;
  nlog : carrier -> carrier
}.

Arguments nadd {n} _ _. Arguments nsub {n} _ _. Arguments nmul {n} _ _.
Arguments ndiv {n} _ _. Arguments nopp {n} _. Arguments nabs {n} _.
Arguments nsqrt {n} _. Arguments nltb {n} _ _. Arguments nleb {n} _ _.
Arguments neqb {n} _ _. Arguments nofZ {n} _. Arguments nlit {n} _ _.
Arguments ntrunc {n} _. Arguments ncbrt {n} _. Arguments ncos {n} _.
Arguments nsin {n} _. Arguments nacos {n} _. Arguments natan2 {n} _ _.
Arguments nexp {n} _. Arguments nlog {n} _.

Declare Scope num_scope.
Delimit Scope num_scope with num.
Infix "+" := nadd : num_scope.
Infix "-" := nsub : num_scope.
Infix "*" := nmul : num_scope.
Infix "/" := ndiv : num_scope.
Notation "- x" := (nopp x) : num_scope.
Infix "<?" := nltb : num_scope.
Infix "<=?" := nleb : num_scope.
Infix "=?" := neqb : num_scope.

Definition n0 {N : num} : N := nofZ 0.
Definition n1 {N : num} : N := nofZ 1.
Definition n2 {N : num} : N := nofZ 2.
