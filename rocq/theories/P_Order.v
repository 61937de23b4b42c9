(** The order of the two machines. *)
From Coq Require Import Reals Lra ZArith Lia SpecFloat.
From Verif Require Import Base Num NumR NumF.

(** The machines the theorems are instantiated with. *)
Definition machine (N : num) : Prop := N = Rnum \/ exists L, N = SF64 L.

Definition exp_cmp (m1 : positive) (e1 : Z) (m2 : positive) (e2 : Z) : comparison :=
  match Z.compare e1 e2 with Eq => Pos.compare m1 m2 | c => c end.
Inductive exp_spec (m1 : positive) (e1 : Z) (m2 : positive) (e2 : Z) : comparison -> Prop :=
  | ExpLt : (e1 < e2)%Z \/ e1 = e2 /\ (m1 < m2)%positive -> exp_spec m1 e1 m2 e2 Lt
  | ExpEq : e1 = e2 -> m1 = m2 -> exp_spec m1 e1 m2 e2 Eq
  | ExpGt : (e2 < e1)%Z \/ e1 = e2 /\ (m2 < m1)%positive -> exp_spec m1 e1 m2 e2 Gt.
Lemma exp_cmp_spec m1 e1 m2 e2 : exp_spec m1 e1 m2 e2 (exp_cmp m1 e1 m2 e2).
Proof.
  unfold exp_cmp. destruct (Z.compare_spec e1 e2); [|constructor; lia|constructor; lia].
  destruct (Pos.compare_spec m1 m2); constructor; auto.
Qed.
Lemma compare_finite s1 m1 e1 s2 m2 e2 :
  SFcompare (S754_finite s1 m1 e1) (S754_finite s2 m2 e2) =
  Some (if s1 then if s2 then CompOpp (exp_cmp m1 e1 m2 e2) else Lt else if s2 then Gt else exp_cmp m1 e1 m2 e2).
Proof.
  cbn [SFcompare]. unfold exp_cmp. destruct s1, s2; try reflexivity; destruct (Z.compare e1 e2); reflexivity.
Qed.
Ltac sf_cases x y z :=
  destruct x as [[|]|[|]| |[|] ?mx ?ex], y as [[|]|[|]| |[|] ?my ?ey], z as [[|]|[|]| |[|] ?mz ?ez];
  unfold SFleb, SFltb; rewrite ?compare_finite; cbn [SFcompare]; try discriminate; auto;
  repeat match goal with
  | |- context [exp_cmp ?a ?b ?c ?d] => destruct (exp_cmp_spec a b c d); cbn [CompOpp]
  end; try discriminate; auto; lia.
Lemma sf_le_lt x y z : SFleb x y = true -> SFltb y z = true -> SFltb x z = true.
Proof. sf_cases x y z. Qed.
Lemma sf_lt_le x y z : SFltb x y = true -> SFleb y z = true -> SFltb x z = true.
Proof. sf_cases x y z. Qed.
Lemma sf_le_trans x y z : SFleb x y = true -> SFleb y z = true -> SFleb x z = true.
Proof. sf_cases x y z. Qed.

Lemma machine_le_lt (N : num) (x y z : N) : machine N -> nleb x y = true -> nltb y z = true -> nltb x z = true.
Proof.
  intros [->|[L ->]]; cbn; [|apply sf_le_lt]. unfold Rleb, Rltb.
  destruct (Rle_dec x y), (Rlt_dec y z), (Rlt_dec x z); try discriminate; auto. lra.
Qed.
Lemma machine_lt_le (N : num) (x y z : N) : machine N -> nltb x y = true -> nleb y z = true -> nltb x z = true.
Proof.
  intros [->|[L ->]]; cbn; [|apply sf_lt_le]. unfold Rleb, Rltb.
  destruct (Rle_dec y z), (Rlt_dec x y), (Rlt_dec x z); try discriminate; auto. lra.
Qed.
Lemma machine_le_trans (N : num) (x y z : N) : machine N -> nleb x y = true -> nleb y z = true -> nleb x z = true.
Proof.
  intros [->|[L ->]]; cbn; [|apply sf_le_trans]. unfold Rleb.
  destruct (Rle_dec x y), (Rle_dec y z), (Rle_dec x z); try discriminate; auto. lra.
Qed.
