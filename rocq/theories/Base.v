(** Common vocabulary of the model: results with exceptions as values, list
    update, monadic folds.  Nothing in this file models pyscal itself. *)
From Coq Require Export List ZArith Arith Bool.
Export ListNotations.
Set Implicit Arguments.

(** What a call of the library can end with instead of a value.  [UB] stands
    for C++ undefined behaviour (access outside an array or vector); the other
    constructors are the Python exceptions the code raises. *)
Inductive err : Type :=
| ValueError | TypeError | RuntimeError | IndexError | KeyError
| ZeroDivisionError | IOError | NameError | AttributeError | StopIteration
| NotImplementedError | Diverges | UB.

Inductive res (A : Type) : Type :=
| Ok (a : A)
| Err (e : err).
Arguments Ok {A} a.
Arguments Err {A} e.

Definition bind {A B} (x : res A) (f : A -> res B) : res B :=
  match x with Ok a => f a | Err e => Err e end.

Declare Scope res_scope.
Delimit Scope res_scope with res.
Notation "x <- e ;; k" := (bind e (fun x => k))
  (at level 61, e at next level, right associativity) : res_scope.
Notation "' p <- e ;; k" := (bind e (fun p => k))
  (at level 61, p pattern, e at next level, right associativity) : res_scope.
Open Scope res_scope.

(** Checked read of an array cell. *)
Definition get {A} (l : list A) (i : nat) : res A :=
  match nth_error l i with Some a => Ok a | None => Err UB end.

(** [upd i f l]: apply [f] to the element at index [i]; out of range: no-op
    (callers check the range first where the code could leave it). *)
Fixpoint upd {A} (i : nat) (f : A -> A) (l : list A) : list A :=
  match l, i with
  | [], _ => []
  | a :: l, O => f a :: l
  | a :: l, S i => a :: upd i f l
  end.

(** Checked write of an array cell. *)
Definition put {A} (l : list A) (i : nat) (a : A) : res (list A) :=
  if i <? length l then Ok (upd i (fun _ => a) l) else Err UB.

Fixpoint foldM {S X} (f : S -> X -> res S) (l : list X) (s : S) : res S :=
  match l with
  | [] => Ok s
  | x :: l => s' <- f s x ;; foldM f l s'
  end.

Fixpoint mapM {A B} (f : A -> res B) (l : list A) : res (list B) :=
  match l with
  | [] => Ok []
  | a :: l => b <- f a ;; bs <- mapM f l ;; Ok (b :: bs)
  end.

(** All index pairs i < j < n in the order of the double loops
    [for i: for j = i+1..]. *)
Definition pairs_from (i n : nat) : list (nat * nat) :=
  map (fun j => (i, j)) (seq (S i) (n - S i)).
Definition pairs (n : nat) : list (nat * nat) :=
  flat_map (fun i => pairs_from i n) (seq 0 n).

(** [Z] ranges, Python's [range(lo, hi)]. *)
Definition zrange (lo hi : Z) : list Z :=
  map (fun k => (lo + Z.of_nat k)%Z) (seq 0 (Z.to_nat (hi - lo))).
