(** Proofs about loading: the data of a block, and integers as text. *)
From Coq Require Import Reals Ascii String Lia Lra.
From Coq.Floats Require Import SpecFloat.
From Flocq Require Import Core BinarySingleNaN.
From Verif Require Import Base Num NumR NumF Types M_Geometry M_Container M_Analysis M_Text M_Lammps M_Traj.
From Verif Require Import P_Text P_Neighbors P_Lammps P_LammpsSys P_Round P_Traj P_Export S_Lammps S_Traj.
Set Implicit Arguments.
Unset Strict Implicit.
Close Scope R_scope.
Local Open Scope Z_scope.

(** ** Integers as text *)
Lemma parse_dec_int z : parse_dec (show_int z) = Ok (DFin (z <? 0) (Z.abs z) 0).
Proof.
  assert (G : forall neg n, 0 <= n -> parse_dec (sgn neg ++ show_nat n) = Ok (DFin neg n 0)).
  { clear. intros s n Hn. destruct (show_nat_spec n Hn) as (DI & NI & VI). set (I := show_nat n) in *.
    assert (W : forall c, In c (sgn s ++ I) -> is_space c = false /\ c <> "_"%char).
    { intros c Hc. apply in_app_iff in Hc. destruct Hc as [Hc|Hc]; [destruct s; cbn in Hc; [|contradiction]; destruct Hc as [<-|[]]; split; [reflexivity|discriminate]|].
      apply DI in Hc. split; [apply digit_not_space, Hc|]. intros ->. discriminate. }
    unfold parse_dec. rewrite strip_id by (intros c Hc; apply W, Hc). rewrite no_under_id by (intros Hc; apply W in Hc; destruct Hc; congruence).
    assert (S1 : sign_of (sgn s ++ I) = (s, I)).
    { destruct s; [reflexivity|]. cbn [sgn app]. rewrite <- (app_nil_r I). apply sign_digits; assumption. }
    rewrite S1. cbn zeta.
    assert (LO : forall t : text, (match t with c :: _ => is_digit c = false | [] => True end) -> teqb (map lower I) t = false).
    { intros t Ht. apply teqb_false. intros E. destruct I as [|c I']; [congruence|]. cbn [map] in E. rewrite lower_digit in E by (apply DI; left; reflexivity).
      destruct t as [|c' t']; [discriminate|]. injection E as <- _. rewrite (DI c) in Ht by (left; reflexivity). discriminate. }
    rewrite !LO by reflexivity. cbn [orb]. rewrite <- (app_nil_r I), take_digits_spec by auto. rewrite VI.
    destruct (Nat.eqb_spec (0 + List.length I + 0) 0) as [E0|_]; [destruct I; [congruence|cbn in E0; lia]|]. reflexivity. }
  unfold show_int. destruct (Z.ltb_spec z 0) as [L|L].
  - rewrite Z.abs_neq by lia. apply (G true). lia.
  - rewrite Z.abs_eq by lia. apply (G false). lia.
Qed.
Lemma integral_R z : integral R_text (IZR z : Rnum).
Proof.
  split.
  - change (Reqb (IZR z - IZR z) 0 = true). unfold Reqb. destruct (Req_EM_T _ _) as [|NE]; [reflexivity|]. exfalso. apply NE. lra.
  - assert (E : ntrunc (IZR z : Rnum) = z).
    { change (Rtrunc (IZR z) = z). unfold Rtrunc. assert (I : forall k, Int_part (IZR k) = k). { clear. intros k. unfold Int_part. rewrite <- (tech_up (IZR k) (k + 1)); rewrite ?plus_IZR; [lia|lra|lra]. }
      destruct (Rle_dec 0 (IZR z)); [apply I|rewrite <- opp_IZR, I; lia]. }
    rewrite E. unfold parse_float. rewrite parse_dec_int. cbn [bind]. f_equal. cbn [R_text tn_dec Z.leb Z.compare]. rewrite Z.mul_1_r || change (10 ^ 0) with 1. rewrite ?Z.mul_1_r.
    destruct (Z.ltb_spec z 0) as [L|L]; [rewrite Z.abs_neq by lia; rewrite opp_IZR; change ((- - IZR z)%R = IZR z); lra|rewrite Z.abs_eq by lia; reflexivity].
Qed.
Lemma sf_round_exact s p : Zpos p <= 2 ^ 53 ->
  SF2R radix2 (SpecFloat.binary_round prec64 emax64 s p 0) = IZR (cond_Zopp s (Zpos p)) /\ is_finite_SF (SpecFloat.binary_round prec64 emax64 s p 0) = true.
Proof.
  intros Hz. pose proof (@binary_round_correct prec64 emax64 eq_refl eq_refl mode_NE s p 0) as H.
  assert (EB : SpecFloat.binary_round prec64 emax64 s p 0 = BinarySingleNaN.binary_round prec64 emax64 mode_NE s p 0).
  { unfold SpecFloat.binary_round, BinarySingleNaN.binary_round, shl_align_fexp. destruct (shl_align p 0 _) as [mz ez]. symmetry. apply round_aux_NE. }
  rewrite EB. cbv zeta in H. destruct H as [_ H]. unfold F2R in H. cbn [Fnum Fexp bpow] in H. rewrite !Rmult_1_r in H. set (z := cond_Zopp s (Zpos p)) in *.
  assert (Az : Z.abs z = Zpos p) by (destruct s; reflexivity).
  assert (G : generic_format radix2 (SpecFloat.fexp prec64 emax64) (IZR z)).
  { apply (generic_format_FLT radix2 (-1074) 53). destruct (Z.eq_dec (Z.abs z) (2 ^ 53)) as [E|NE].
    - exists (Float radix2 (Z.sgn z) 53).
      + unfold F2R. cbn [Fnum Fexp]. rewrite <- (IZR_Zpower radix2 53) by lia. rewrite <- mult_IZR. f_equal. change (Zpower radix2 53) with (2 ^ 53). rewrite <- E. rewrite Z.mul_comm. symmetry. apply Z.abs_sgn.
      + cbn [Fnum]. change (Zpower radix2 53) with (2 ^ 53). assert (Z.abs (Z.sgn z) <= 1) by (destruct z; cbn; lia). lia.
      + cbn. lia.
    - exists (Float radix2 z 0); [unfold F2R; cbn [Fnum Fexp bpow]; lra|cbn [Fnum]; change (Zpower radix2 53) with (2 ^ 53); lia|cbn; lia]. }
  rewrite round_generic in H by (auto; typeclasses eauto).
  rewrite Rlt_bool_true in H; [destruct H as (H1 & H2 & _); split; [exact H1|exact H2]|].
  change emax64 with 1024. rewrite <- abs_IZR, <- (IZR_Zpower radix2 1024) by lia. apply IZR_lt. change (Zpower radix2 1024) with (2 ^ 1024).
  apply Z.le_lt_trans with (2 ^ 53); [lia|apply Z.pow_lt_mono_r; lia].
Qed.
Lemma sf_ofZ_exact z : Z.abs z <= 2 ^ 53 -> SF2R radix2 (sf_ofZ z) = IZR z /\ is_finite_SF (sf_ofZ z) = true.
Proof.
  intros Hz. unfold sf_ofZ, SpecFloat.binary_normalize. destruct z as [|p|p]; [split; reflexivity| |].
  - apply (@sf_round_exact false p). exact Hz.
  - apply (@sf_round_exact true p). exact Hz.
Qed.
Lemma sf_trunc_int x z : is_finite_SF x = true -> SF2R radix2 x = IZR z -> sf_trunc x = z.
Proof.
  destruct x as [s|s| |s m e]; try discriminate; intros _ H; cbn [SF2R] in H.
  - apply (eq_IZR 0 z) in H. subst z. reflexivity.
  - unfold sf_trunc. rewrite F2R_cond_Zopp in H. 
    assert (P : forall w, (F2R (Float radix2 (Zpos m) e)) = IZR w -> (if Z.leb 0 e then Z.shiftl (Zpos m) e else Z.shiftr (Zpos m) (- e)) = w).
    { intros w Hw. unfold F2R in Hw. cbn [Fnum Fexp] in Hw. destruct (Z.leb_spec 0 e) as [L|L].
      - rewrite <- (IZR_Zpower radix2 e) in Hw by exact L. rewrite <- mult_IZR in Hw. apply eq_IZR in Hw. rewrite Z.shiftl_mul_pow2 by exact L. exact Hw.
      - rewrite Z.shiftr_div_pow2 by lia. assert (E : Zpos m = w * 2 ^ (- e)).
        { apply eq_IZR. rewrite mult_IZR. change (2 ^ (- e)) with (Zpower radix2 (- e)). rewrite IZR_Zpower by lia. rewrite <- Hw. rewrite Rmult_assoc, <- bpow_plus. replace (e + - e) with 0 by lia. cbn [bpow]. lra. }
        rewrite E. apply Z.div_mul. apply Z.pow_nonzero; lia. }
    destruct s; cbn [cond_Ropp] in H.
    + rewrite (P (- z)); [lia|]. rewrite opp_IZR. lra.
    + apply P. exact H.
Qed.
Lemma integral_SF L z : Z.abs z <= 2 ^ 53 -> integral (SF_text L) (nofZ (n := SF64 L) z).
Proof.
  intros Hz. destruct (sf_ofZ_exact Hz) as [E F]. split.
  - change (SFeqb (sf_sub (sf_ofZ z) (sf_ofZ z)) (sf_ofZ 0) = true). destruct (sf_ofZ z) as [s|s| |s m e]; try discriminate; unfold sf_sub, SFsub.
    + destruct s; reflexivity.
    + cbv zeta. rewrite Z.sub_diag. reflexivity.
  - change (parse_float (SF_text L) (show_int (sf_trunc (sf_ofZ z))) = Ok (sf_ofZ z : SF64 L)). rewrite (sf_trunc_int F E).
    unfold parse_float. rewrite parse_dec_int. cbn [bind]. f_equal. change (sf_dec (DFin (z <? 0) (Z.abs z) 0) = sf_ofZ z). unfold sf_ofZ, sf_dec.
    destruct z as [|p|p]; [reflexivity| |]; cbn [Z.abs Z.ltb Z.compare Z.leb]; change (10 ^ 0) with 1; rewrite Z.mul_1_r; reflexivity.
Qed.

(** ** The data of a loaded block *)
Lemma words_sub w s : In w (words s) -> is_word w /\ incl w s.
Proof.
  revert w. induction s as [|c s IH]; intros w H; [destruct H|]. cbn [words] in H.
  destruct (is_space c) eqn:Sc.
  - destruct (IH w H) as [W I]. split; [exact W|]. intros x Hx. right. apply I, Hx.
  - assert (One : is_word [c]). { split; [discriminate|]. intros x [<-|[]]. rewrite blank_space. exact Sc. }
    assert (K : forall w, In w (words s) -> is_word w /\ incl w (c :: s)). { intros w' Hw. destruct (IH w' Hw) as [W I]. split; [exact W|]. intros x Hx. right. apply I, Hx. }
    assert (OneI : incl [c] (c :: s)). { intros x [<-|[]]. left. reflexivity. }
    destruct s as [|d s'].
    + cbn [words] in H. destruct H as [<-|[]]. split; assumption.
    + destruct (is_space d) eqn:Sd.
      * destruct H as [<-|H]; [split; assumption|]. apply K, H.
      * destruct (words (d :: s')) as [|w1 r] eqn:E.
        -- destruct H as [<-|[]]. split; assumption.
        -- destruct H as [<-|H]; [|apply K; right; exact H]. destruct (IH w1 (or_introl eq_refl)) as [[W1 W2] I]. split.
           ++ split; [discriminate|]. intros x [<-|Hx]; [rewrite blank_space; exact Sc|apply W2, Hx].
           ++ intros x [<-|Hx]; [left; reflexivity|right; apply I, Hx].
Qed.
Lemma uncomment_plain s : ~ In "#"%char (uncomment s).
Proof. induction s as [|c s IH]; [intros []|]. cbn [uncomment]. destruct (Ascii.eqb_spec c "#") as [|NE]; [intros []|]. intros [K|K]; [congruence|apply IH, K]. Qed.
Lemma table_plain f r : In r (table f) -> Forall plain r /\ r <> [].
Proof.
  unfold table. intros H. apply filter_In in H. destruct H as [H NE]. split; [|intros ->; discriminate]. apply in_map_iff in H. destruct H as (l & <- & _).
  apply Forall_forall. intros w Hw. destruct (words_sub Hw) as [W I]. split; [exact W|]. intros K. apply (@uncomment_plain l). apply I, K.
Qed.

Section L.
Variable N : num.
Variable T : textnum N.

Lemma mapM_length {A B} (f : A -> res B) : forall l l', mapM f l = Ok l' -> List.length l' = List.length l.
Proof.
  induction l as [|x l IH]; intros l' H; [injection H as <-; reflexivity|]. cbn in H. apply bind_Ok in H. destruct H as (y & _ & H). apply bind_Ok in H. destruct H as (ys & H2 & H).
  injection H as <-. cbn. f_equal. apply IH, H2.
Qed.
Lemma mapM_In {A B} (f : A -> res B) : forall l l' y, mapM f l = Ok l' -> In y l' -> exists x, In x l /\ f x = Ok y.
Proof.
  induction l as [|x l IH]; intros l' y H Hy; [injection H as <-; destruct Hy|]. cbn in H. apply bind_Ok in H. destruct H as (z & Hz & H). apply bind_Ok in H. destruct H as (ys & H2 & H).
  injection H as <-. destruct Hy as [<-|Hy]; [exists x; split; [left; reflexivity|exact Hz]|]. destruct (IH _ _ H2 Hy) as (x' & I & E). exists x'. split; [right; exact I|exact E].
Qed.
Lemma loadtxt_A2 f rows : loadtxt T f = Ok (A2 rows) ->
  exists m, (2 <= m)%nat /\ (2 <= List.length rows)%nat /\ Forall (fun r => List.length r = m) rows /\ List.length rows = List.length (table f).
Proof.
  unfold loadtxt. intros H. apply bind_Ok in H. destruct H as (rows' & H1 & H). destruct (rectangular rows') eqn:R; [|discriminate]. injection H as H.
  assert (NE : Forall (fun r => r <> []) rows').
  { apply Forall_forall. intros r Hr. destruct (mapM_In H1 Hr) as (ws & Hw & E). apply table_plain in Hw. destruct Hw as [_ Hw]. intros ->. apply Hw.
    apply mapM_length in E. destruct ws; [reflexivity|discriminate]. }
  apply mapM_length in H1.
  assert (rows' = rows /\ (2 <= List.length rows')%nat /\ forallb (fun r => Nat.eqb (List.length r) 1) rows' = false) as (-> & L2 & NA).
  { unfold squeeze in H. destruct rows' as [|[|x [|y r]] [|r2 rows']]; try discriminate; cbv beta iota in H.
    - rewrite Forall_forall in NE. exfalso. apply (NE []); [left; reflexivity|reflexivity].
    - destruct (forallb _ (_ :: _)) eqn:F in H; [discriminate|]. injection H as <-. split; [reflexivity|]. split; [cbn; lia|exact F].
    - destruct (forallb _ (_ :: _)) eqn:F in H; [discriminate|]. injection H as <-. split; [reflexivity|]. split; [cbn; lia|exact F]. }
  destruct rows as [|r rows]; [cbn in L2; lia|]. exists (List.length r).
  assert (FA : Forall (fun r' => List.length r' = List.length r) (r :: rows)).
  { constructor; [reflexivity|]. cbn in R. rewrite forallb_forall in R. apply Forall_forall. intros r' Hr'. apply Nat.eqb_eq, R, Hr'. }
  split; [|split; [exact L2|split; [exact FA|exact H1]]].
  inversion NE as [|? ? NE1 _]; subst. destruct r as [|x [|y r]]; [congruence| |cbn; lia]. exfalso.
  rewrite Bool.not_true_iff_false in NA || idtac. assert (Y : forallb (fun r => Nat.eqb (List.length r) 1) ([x] :: rows) = true); [|congruence].
  apply forallb_forall. intros r' Hr'. rewrite Forall_forall in FA. rewrite FA by exact Hr'. reflexivity.
Qed.
Lemma dset_keys {A} (d : dict A) k v : NoDup (map fst d) -> NoDup (map fst (dset d k v)) /\ (forall k', In k' (map fst (dset d k v)) -> k' = k \/ In k' (map fst d)).
Proof.
  induction d as [|[k1 v1] d IH]; intros ND; [cbn; split; [constructor; [intros []|constructor]|intros k' [->|[]]; auto]|].
  cbn [dset]. inversion ND as [|? ? NI ND']; subst. cbn [fst] in NI. destruct (teqb k k1) eqn:E.
  - apply teqb_true in E. subst k1. split; [exact ND|]. intros k' H. right. exact H.
  - destruct (IH ND') as [I1 I2]. split.
    + cbn. constructor; [|exact I1]. intros K. destruct (I2 _ K) as [->|K']; [rewrite teqb_refl in E; discriminate|contradiction].
    + cbn. intros k' [->|K]; [auto|]. destruct (I2 _ K); auto.
Qed.
Lemma dset_vals {A} (P : A -> Prop) (d : dict A) k v : P v -> Forall (fun p => P (snd p)) d -> Forall (fun p => P (snd p)) (dset d k v).
Proof.
  intros Pv H. induction H as [|[k1 v1] d H1 H2 IH]; [constructor; [exact Pv|constructor]|]. cbn [dset]. destruct (teqb k k1); constructor; auto.
Qed.
(** What np.loadtxt gives is good data, if the box has three rows, some ids or
    types are there and other columns. *)
Theorem loaded_good data (dd : block N) rows : block_of T data = Ok dd -> b_box dd = A2 rows -> List.length rows = 3%nat ->
  (exists k, int_name k /\ In k (map fst (b_atoms dd))) -> (exists k, ~ int_name k /\ In k (map fst (b_atoms dd))) ->
  good_data (List.length (table (skipn 9 data))) dd.
Proof.
  intros H EB L3 HI HO. unfold block_of in H. apply bind_Ok in H. destruct H as (box & Hbox & H). apply bind_Ok in H. destruct H as (cols & Hcols & H).
  apply bind_Ok in H. destruct H as (header & Hh & H). apply bind_Ok in H. destruct H as (atoms & Ha & H). injection H as <-. cbn [b_box b_atoms] in *. subst box.
  set (n := List.length (table (skipn 9 data))) in *.
  assert (PH : Forall plain header).
  { unfold load_header in Hh. pose proof (@table_plain (firstn 1 (skipn 8 data))) as TP. destruct (table (firstn 1 (skipn 8 data))) as [|r f]; [injection Hh as <-; constructor|].
    destruct (TP r (or_introl eq_refl)) as [PR _]. 
    assert (E : header = skipn 2 r). { destruct r as [|? [|? r]], f; cbn in Hh; first [discriminate | injection Hh as <-; reflexivity]. }
    subst header. apply Forall_forall. intros w Hw. rewrite Forall_forall in PR. apply PR. rewrite <- (firstn_skipn 2 r). apply in_or_app. right. exact Hw. }
  assert (G : forall l acc d, Forall plain (map snd l) -> foldM (fun d p => c <- column cols (fst p) ;; Ok (dset d (snd p) c)) l acc = Ok d ->
     NoDup (map fst acc) -> Forall plain (map fst acc) -> Forall (fun p : text * list N => column cols 0 = column cols 0 /\ exists j, column cols j = Ok (snd p)) acc ->
     NoDup (map fst d) /\ Forall plain (map fst d) /\ Forall (fun p : text * list N => exists j, column cols j = Ok (snd p)) d).
  { clear. induction l as [|[j k] l IH]; intros acc d PL H ND PA CA; cbn [foldM] in H.
    - injection H as <-. split; [exact ND|]. split; [exact PA|]. eapply Forall_impl; [|exact CA]. intros p [_ Hp]. exact Hp.
    - cbn [fst snd] in H. apply bind_Ok in H. destruct H as (acc' & H1 & H). apply bind_Ok in H1. destruct H1 as (c & Hc & H1). injection H1 as <-.
      inversion PL as [|? ? PK PL']; subst. destruct (dset_keys k c ND) as [D1 D2]. apply (IH _ _ PL' H); [exact D1| |].
      + apply Forall_forall. intros k' Hk'. destruct (D2 _ Hk') as [->|K]; [exact PK|]. rewrite Forall_forall in PA. apply PA, K.
      + apply (@dset_vals _ (fun v => column cols 0 = column cols 0 /\ exists j, column cols j = Ok v)); [split; [reflexivity|exists j; exact Hc]|exact CA]. }
  assert (PH' : Forall plain (map snd (combine (seq 0 (List.length header)) header))).
  { apply Forall_forall. intros w Hw. apply in_map_iff in Hw. destruct Hw as ([i w'] & <- & Hw). apply in_combine_r in Hw. rewrite Forall_forall in PH. apply PH, Hw. }
  destruct (G _ _ _ PH' Ha) as (G1 & G2 & G3); [constructor|constructor|constructor|].
  destruct HI as (ki & Iki & Hki). assert (exists rowsA, cols = A2 rowsA) as [rowsA EA].
  { apply in_map_iff in Hki. destruct Hki as (p & _ & Hp). rewrite Forall_forall in G3. destruct (G3 p Hp) as (j & Hj). destruct cols as [x|l|rowsA]; try discriminate. exists rowsA. reflexivity. }
  subst cols. destruct (loadtxt_A2 Hcols) as (m & M2 & L2 & FM & EL). destruct (loadtxt_A2 Hbox) as (mb & Mb & _ & FB & _).
  constructor.
  - fold n in EL. lia.
  - exists rows, mb. split; [reflexivity|]. split; [exact L3|]. split; [exact Mb|exact FB].
  - split; assumption.
  - eapply Forall_impl; [|exact G3]. intros p (j & Hj). cbn [column] in Hj. apply mapM_length in Hj. rewrite Hj, EL. reflexivity.
  - exists ki. auto.
  - exact HO.
Qed.
End L.
