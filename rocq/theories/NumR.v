(** Exact real arithmetic as an instance of [num]. *)
From Coq Require Import Reals Lra ZArith.
From Verif Require Import Num.
Open Scope R_scope.

Definition Rltb (x y : R) : bool := if Rlt_dec x y then true else false.
Definition Rleb (x y : R) : bool := if Rle_dec x y then true else false.
Definition Reqb (x y : R) : bool := if Req_EM_T x y then true else false.
Definition Rtrunc (x : R) : Z :=
  if Rle_dec 0 x then Int_part x else (- Int_part (- x))%Z.
Definition Rcbrt (x : R) : R :=
  if Rlt_dec 0 x then Rpower x (/ 3)
  else if Rlt_dec x 0 then - Rpower (- x) (/ 3) else 0.
(** C's atan2 without signed zeros. *)
Definition Ratan2 (y x : R) : R :=
  if Rlt_dec 0 x then atan (y / x)
  else if Rlt_dec x 0 then
    if Rle_dec 0 y then atan (y / x) + PI else atan (y / x) - PI
  else if Rlt_dec 0 y then PI / 2
  else if Rlt_dec y 0 then - (PI / 2) else 0.

Canonical Structure Rnum : num := {|
  carrier := R;
  nadd := Rplus; nsub := Rminus; nmul := Rmult; ndiv := Rdiv;
  nopp := Ropp; nabs := Rabs; nsqrt := sqrt;
  nltb := Rltb; nleb := Rleb; neqb := Reqb;
  nofZ := IZR; nlit := fun p q => IZR p / IZR (Zpos q);
  ntrunc := Rtrunc; ncbrt := Rcbrt;
  ncos := cos; nsin := sin; nacos := acos; natan2 := Ratan2;
  nexp := exp; nlog := ln
|}.

Lemma Rltb_true x y : Rltb x y = true <-> x < y.
Proof. unfold Rltb. destruct (Rlt_dec x y); split; intros; try discriminate; auto; lra. Qed.
Lemma Rltb_false x y : Rltb x y = false <-> y <= x.
Proof. unfold Rltb. destruct (Rlt_dec x y); split; intros; try discriminate; auto; lra. Qed.
Lemma Rleb_true x y : Rleb x y = true <-> x <= y.
Proof. unfold Rleb. destruct (Rle_dec x y); split; intros; try discriminate; auto; lra. Qed.
Lemma Rleb_false x y : Rleb x y = false <-> y < x.
Proof. unfold Rleb. destruct (Rle_dec x y); split; intros; try discriminate; auto; lra. Qed.
Lemma Reqb_true x y : Reqb x y = true <-> x = y.
Proof. unfold Reqb. destruct (Req_EM_T x y); split; intros; try discriminate; auto; lra. Qed.
Lemma Reqb_false x y : Reqb x y = false <-> x <> y.
Proof. unfold Reqb. destruct (Req_EM_T x y); split; intros; try discriminate; auto. contradiction. Qed.

(** Unfold the interface at the real instance. *)
Ltac rnum :=
  cbn [carrier nadd nsub nmul ndiv nopp nabs nsqrt nltb nleb neqb nofZ nlit
       ntrunc ncbrt ncos nsin nacos natan2 nexp nlog Rnum n0 n1 n2] in *;
  unfold n0, n1, n2 in *;
  cbn [carrier nadd nsub nmul ndiv nopp nabs nsqrt nltb nleb neqb nofZ nlit
       ntrunc ncbrt ncos nsin nacos natan2 nexp nlog Rnum] in *.
