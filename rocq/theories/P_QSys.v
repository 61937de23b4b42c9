(** calculate_q on whole systems over the reals. *)
From Coq Require Import Reals ZArith List Lia Lra Permutation.
From Verif Require Import Base Num NumR Types M_Geometry M_Container M_Neighbors M_Steinhardt S_Steinhardt
  P_Container P_Neighbors P_QRun P_Addition P_Legendre P_Harmonics P_Steinhardt P_QInv.
Import ListNotations.
Set Implicit Arguments.
Unset Strict Implicit.
Local Open Scope R_scope.

Lemma q_ok_range qs : forallb q_ok qs = true <-> Forall (fun q => 2 <= q <= 12)%Z qs.
Proof.
  rewrite forallb_forall, Forall_forall. unfold q_ok. split; intros H q Hq; specialize (H q Hq).
  - lia.
  - apply andb_true_intro; split; [apply Z.leb_le|apply Z.ltb_lt]; lia.
Qed.

(** The systems the two halves work on. *)
Section Sys.
Variable N : num.
Variable inv : m3 N -> option (m3 N).
Variable raw : Z -> atom N.
Definition after_q (s : sys N) (qs : list Z) : sys N :=
  s <| s_atoms := map (q_all (s_vorused s) (s_atoms s) qs) (s_atoms s) |>.
Definition after_aq (s : sys N) (qs : list Z) : sys N :=
  let l1 := map (q_all (s_vorused s) (s_atoms s) qs) (s_atoms s) in
  s <| s_atoms := map (fun a => aq_all l1 qs (q_all (s_vorused s) (s_atoms s) qs a)) (s_atoms s) |>.
Lemma q_ready_after s qs : Forall (fun q => 2 <= q <= 12)%Z qs -> q_ready s -> q_ready (after_q s qs).
Proof.
  intros HF [Hn Hr]. split; cbn; [now rewrite map_length|]. intros a Ha.
  apply in_map_iff in Ha as (b & <- & Hb). destruct (Hr b Hb) as [H1 H2]. split.
  - now apply q_arrays_all.
  - rewrite (but_q_nbrs (but_q_all _ _ _ b)), map_length. exact H2.
Qed.
Lemma py_q_eq s qs averaged : q_ready s -> Forall (fun q => 2 <= q <= 12)%Z qs ->
  py_calculate_q inv raw s qs averaged false None false =
  Ok (if averaged then after_aq s qs else after_q s qs).
Proof.
  intros Hr HF. unfold py_calculate_q. rewrite (proj2 (q_ok_range qs) HF). cbn [bind].
  rewrite (calculate_q_eq Hr HF). cbn [bind]. rewrite Bool.orb_false_r.
  destruct averaged; auto. pose proof (q_ready_after HF Hr) as Hr'.
  pose proof (calculate_aq_eq Hr' HF) as E. unfold after_q in E. rewrite E. unfold after_aq. cbn.
  f_equal. now rewrite map_map.
Qed.
Lemma counted_map vor l0 qs (l : list (atom N)) a b : but_q a = but_q b ->
  counted (map (q_all vor l0 qs) l) a = counted l b.
Proof.
  intros E. apply counted_same; auto. unfold same_but_q. rewrite map_map. apply map_ext. intros; apply but_q_all.
Qed.
Lemma nb_atoms_map (f : atom N -> atom N) l es : nb_atoms (map f l) es = map f (nb_atoms l es).
Proof.
  unfold nb_atoms. induction es as [|e es IH]; simpl; auto. rewrite map_app, IH, nth_error_map. f_equal.
  now destruct (nth_error l (nb_idx e)).
Qed.
Lemma aq_all_a_q l0 qs (a : atom N) : a_q (aq_all l0 qs a) = a_q a.
Proof. exact (but_aq_f (f := @a_q N) (but_aq_all l0 qs a) (fun _ => eq_refl)). Qed.
Lemma q_all_a_aq vor l0 qs (a : atom N) : a_aq (q_all vor l0 qs a) = a_aq a.
Proof. exact (but_q_f (f := @a_aq N) (but_q_all vor l0 qs a) (fun _ => eq_refl)). Qed.
Lemma aq_all_other l0 qs k : (forall q, In q qs -> Z.to_nat (q - 2) <> k) -> forall a : atom N,
  nth_error (a_aq (aq_all l0 qs a)) k = nth_error (a_aq a) k.
Proof.
  induction qs as [|p qs IH]; intros H a; auto. cbn [aq_all fold_left].
  pose proof (IH (fun q Hq => H q (or_intror Hq)) (aq_new l0 p a)) as E1.
  unfold aq_all in *. rewrite E1. unfold aq_new. cbn. rewrite !nth_error_upd.
  destruct (Nat.eqb_spec k (Z.to_nat (p - 2))) as [->|]; auto.
  exfalso. apply (H p); simpl; auto.
Qed.
End Sys.

Definition Vof (l : list (atom Rnum)) (a : atom Rnum) : wv := of_nbrs (counted l a).

Lemma nth_nb_atoms_In (l : list (atom Rnum)) es b : In b (nb_atoms l es) -> In b l.
Proof.
  unfold nb_atoms. intros H. apply in_flat_map in H as (e & _ & H).
  destruct (nth_error l (nb_idx e)) as [c|] eqn:E; [|destruct H]. destruct H as [<-|[]].
  eapply nth_error_In; eauto.
Qed.

Section Values.
Variable s : sys Rnum.
Variable qs : list Z.
Hypothesis Hr : q_ready s.
Hypothesis HF : Forall (fun q => 2 <= q <= 12)%Z qs.
Hypothesis Hap : apart (s_atoms s).
Let l := s_atoms s.
Let vor := s_vorused s.

Lemma range_of (k : nat) : In (Z.of_nat k) qs -> (2 <= k <= 12)%nat.
Proof. intros H. rewrite Forall_forall in HF. apply HF in H. lia. Qed.

Lemma stored_q a k : In a l -> In (Z.of_nat k) qs ->
  nth_error (a_q (q_all vor l qs a)) (Z.to_nat (Z.of_nat k - 2)) =
  Some (sqrt (gram k (rescV (nfac vor (Vof l a)) (Vof l a)))).
Proof.
  intros Ha Hk. destruct (@q_all_q Rnum vor l qs _ HF Hk a) as [E _]; [now apply Hr|].
  rewrite E. f_equal. apply qval_gram; [now apply range_of|]. intros e He. now apply (Hap Ha).
Qed.
Lemma stored_aq a k : In a l -> In (Z.of_nat k) qs ->
  nth_error (a_aq (aq_all (map (q_all vor l qs) l) qs (q_all vor l qs a))) (Z.to_nat (Z.of_nat k - 2)) =
  Some (sqrt (gram k (avgV vor (Vof l a) (map (Vof l) (nb_atoms l (counted l a)))))).
Proof.
  intros Ha Hk. pose proof (range_of Hk) as Hkr.
  destruct Hr as [_ Hr2].
  assert (q_arrays (q_all vor l qs a)) as Harr by (apply q_arrays_all; auto; now apply Hr2).
  rewrite (@aq_all_q Rnum _ qs _ HF Hk _ Harr). f_equal.
  rewrite (@counted_map Rnum vor l qs l _ a (but_q_all vor l qs a)), nb_atoms_map.
  set (bs := nb_atoms l (counted l a)).
  assert (forall b, In b l -> forall j, (0 <= j <= 2 * Z.of_nat k)%Z ->
     zcomp (q_all vor l qs b) (Z.of_nat k) j = comp vor (Z.of_nat k) (j - Z.of_nat k) (counted l b)) as HC.
  { intros b Hb j Hj. apply zcomp_all; auto. now apply Hr2. }
  assert (forall b, In b bs -> In b l) as Hbs by (intros b; apply nth_nb_atoms_In).
  pose proof (@aqval_gram vor k (q_all vor l qs a) (counted l a)
     (map (fun b => (q_all vor l qs b, counted l b)) bs) Hkr (HC a Ha)) as E.
  rewrite !map_map in E. cbn [fst snd] in E. unfold Vof at 1 2.
  replace (map (Vof l) bs) with (map (fun x => of_nbrs (counted l x)) bs) by reflexivity. apply E.
  - intros b eb Hb. apply in_map_iff in Hb as (c & Ec & Hc). inversion Ec; subst. apply HC; auto.
  - intros e He. now apply (Hap Ha).
  - intros eb Heb. apply in_map_iff in Heb as (c & <- & Hc). intros e He. apply (Hap (Hbs c Hc) He).
Qed.
End Values.

(** Environments in the sense of the specification. *)
Lemma env_seen es E : env es E -> Forall2 seen (of_nbrs es) E.
Proof.
  unfold of_nbrs. induction 1 as [|e t es E [Hw Ha] _ IH]; cbn [map]; constructor; auto. now split.
Qed.
Lemma envs_seen l es Es : envs l es Es ->
  Forall2 (Forall2 seen) (map (Vof l) (nb_atoms l es)) Es.
Proof.
  induction 1 as [|e E es Es (b & Hb & HE) _ IH]; cbn; [constructor|].
  unfold nb_atoms. cbn [flat_map]. rewrite Hb. cbn. constructor; auto. now apply env_seen.
Qed.
Lemma wsum_of es : wsum (of_nbrs es) = wtotal es.
Proof. unfold wsum, wtotal, of_nbrs. rewrite map_map. reflexivity. Qed.
Lemma nfac_false vor V : (vor = true -> wsum V = 1) -> nfac vor V = nfac false V.
Proof. intros H. unfold nfac. destruct vor; auto. rewrite H; auto. now rewrite Rinv_1. Qed.
Lemma avgV_false vor V Vs : (forall U, In U (V :: Vs) -> vor = true -> wsum U = 1) ->
  avgV vor V Vs = avgV false V Vs.
Proof.
  intros H. unfold avgV. f_equal. apply map_ext_in. intros U HU. f_equal. f_equal. apply nfac_false. auto.
Qed.

(** ** Orthogonal matrices *)
Lemma orthogonal_dot m : orthogonal m -> keeps_dot (mvmul m).
Proof.
  intros (H1 & H2 & H3 & H4 & H5 & H6) v w. cbn in *. destruct m as [[a b c] [d e f] [g h i]], v as [x y z], w as [x' y' z'].
  unfold vdot, mvmul. cbn in *. 
  transitivity (x * x' * (a * a + d * d + g * g) + y * y' * (b * b + e * e + h * h) + z * z' * (c * c + f * f + i * i)
    + (x * y' + y * x') * (a * b + d * e + g * h) + (x * z' + z * x') * (a * c + d * f + g * i)
    + (y * z' + z * y') * (b * c + e * f + h * i)); [ring|].
  rewrite H1, H2, H3, H4, H5, H6. ring.
Qed.

(** ** Moved systems *)
Section Moved.
Variables (m : m3 Rnum) (vor : bool) (l l' : list (atom Rnum)).
Hypothesis Hm : orthogonal m.
Variable c : nat -> R.
Hypothesis Hlen : length l' = length l.
Hypothesis Hmv : forall i a a', nth_error l i = Some a -> nth_error l' i = Some a' ->
  moved_atom m (c i) a a'.

Lemma same_cond_moved a a' e e' : a_cond a' = a_cond a -> nb_idx e' = nb_idx e ->
  same_cond l' a' e' = same_cond l a e.
Proof.
  intros Ha He. unfold same_cond. rewrite He.
  destruct (nth_error l (nb_idx e)) as [b|] eqn:E.
  - destruct (nth_error l' (nb_idx e)) as [b'|] eqn:E'.
    + destruct (Hmv E E') as [Hb _]. now rewrite Ha, Hb.
    + apply nth_error_None in E'. assert (nb_idx e < length l)%nat by (apply nth_error_Some; congruence). lia.
  - apply nth_error_None in E. assert (nth_error l' (nb_idx e) = None) as -> by (apply nth_error_None; lia). auto.
Qed.
Lemma counted_moved i a a' : nth_error l i = Some a -> nth_error l' i = Some a' ->
  exists es, Permutation es (counted l' a') /\ Forall2 (moved m (c i)) (counted l a) es.
Proof.
  intros Ha Ha'. destruct (Hmv Ha Ha') as (Hc & _ & _ & es & HP & HF).
  exists (filter (same_cond l' a') es). split.
  - unfold counted. clear -HP. induction HP; simpl; auto.
    + destruct (same_cond l' a' x); auto.
    + destruct (same_cond l' a' x), (same_cond l' a' y); auto. apply perm_swap.
    + etransitivity; eauto.
  - unfold counted. clear HP. induction HF as [|e e' es1 es2 He _ IH]; cbn [filter]; [constructor|].
    rewrite (@same_cond_moved a a' e e' Hc) by apply He. destruct (same_cond l a e); auto.
Qed.
Lemma Vof_moved i a a' : nth_error l i = Some a -> nth_error l' i = Some a' ->
  simV (mvmul m) (c i) (Vof l a) (Vof l' a').
Proof.
  intros Ha Ha'. destruct (counted_moved Ha Ha') as (es & HP & HF).
  exists (of_nbrs es). split; [now apply Permutation_map|]. unfold Vof, of_nbrs. clear HP.
  induction HF as [|e e' es1 es2 (_ & Hw & Hk) _ IH]; cbn [map]; constructor; auto. now split.
Qed.
Hypothesis Hap : apart l.
Hypothesis Hc : forall i a, nth_error l i = Some a ->
  c i = 1 \/ vor = false /\ c i <> 0 /\ wtotal (counted l a) <> 0.
Lemma nz_of a : In a l -> nzV (Vof l a).
Proof. intros Ha p Hp. apply in_map_iff in Hp as (e & <- & He). now apply (Hap Ha). Qed.

Lemma norm_moved n i a a' : nth_error l i = Some a -> nth_error l' i = Some a' ->
  simV (mvmul m) 1 (rescV (nfac vor (Vof l a) / n) (Vof l a)) (rescV (nfac vor (Vof l' a') / n) (Vof l' a')).
Proof.
  intros Ha Ha'. apply (sim_norm (c := c i)); [now apply (Vof_moved Ha)|].
  unfold Vof. rewrite wsum_of. now apply Hc.
Qed.
Lemma nb_moved i a a' : nth_error l i = Some a -> nth_error l' i = Some a' ->
  exists bs, Permutation bs (nb_atoms l' (counted l' a')) /\
    Forall2 (fun b b' => exists j, nth_error l j = Some b /\ nth_error l' j = Some b')
            (nb_atoms l (counted l a)) bs.
Proof.
  intros Ha Ha'. destruct (counted_moved Ha Ha') as (es & HP & HF).
  exists (nb_atoms l' es). split; [now apply Permutation_flat_map|].
  clear HP. unfold nb_atoms. induction HF as [|e e' es1 es2 (Hi & _) _ IH]; cbn [flat_map]; [constructor|].
  apply Forall2_app; auto. rewrite Hi.
  destruct (nth_error l (nb_idx e)) as [b|] eqn:E.
  - destruct (nth_error l' (nb_idx e)) as [b'|] eqn:E'; [eauto 8|].
    apply nth_error_None in E'. assert (nb_idx e < length l)%nat by (apply nth_error_Some; congruence). lia.
  - apply nth_error_None in E. assert (nth_error l' (nb_idx e) = None) as -> by (apply nth_error_None; lia). auto.
Qed.

Lemma gram_moved_avg k i a a' : nth_error l i = Some a -> nth_error l' i = Some a' ->
  gram k (avgV vor (Vof l a) (map (Vof l) (nb_atoms l (counted l a)))) =
  gram k (avgV vor (Vof l' a') (map (Vof l') (nb_atoms l' (counted l' a')))).
Proof.
  intros Ha Ha'. destruct (nb_moved Ha Ha') as (bs & HP & HF).
  apply (gram_sim k (orthogonal_dot Hm)).
  - intros p Hp. unfold avgV in Hp. apply in_concat in Hp as (U' & HU' & Hp).
    apply in_map_iff in HU' as (U & <- & HU). revert p Hp. apply nzV_resc.
    destruct HU as [<-|HU]; [apply nz_of; eapply nth_error_In; eauto|].
    apply in_map_iff in HU as (b & <- & Hb). apply nz_of. eapply nth_nb_atoms_In; eauto.
  - unfold avgV. rewrite !map_length, <- (Permutation_length HP).
    assert (length (nb_atoms l (counted l a)) = length bs) as -> by (clear -HF; induction HF; simpl; auto).
    set (n := INR (S (length bs))). clearbody n.
    apply simV_perm with (concat (map (fun V => rescV (nfac vor V / n) V) (Vof l' a' :: map (Vof l') bs))).
    + apply simV_concat. cbn [map]. constructor; [now apply (norm_moved n Ha)|].
      clear HP. induction HF as [|b b' bs1 bs2 (j & Hj & Hj') _ IH]; cbn [map]; constructor; auto.
      now apply (norm_moved n Hj).
    + apply Permutation_concat, Permutation_map, perm_skip, Permutation_map. exact HP.
Qed.
Lemma gram_moved_q k i a a' : nth_error l i = Some a -> nth_error l' i = Some a' ->
  gram k (rescV (nfac vor (Vof l a)) (Vof l a)) = gram k (rescV (nfac vor (Vof l' a')) (Vof l' a')).
Proof.
  intros Ha Ha'. apply (gram_sim k (orthogonal_dot Hm)).
  - apply nzV_resc, nz_of. eapply nth_error_In; eauto.
  - pose proof (norm_moved 1 Ha Ha') as H. unfold Rdiv in H. rewrite !Rinv_1, !Rmult_1_r in H. exact H.
Qed.
Lemma apart_moved : apart l'.
Proof.
  intros a' e' Ha' He'. apply In_nth_error in Ha' as (i & Ha').
  assert (exists a, nth_error l i = Some a) as (a & Ha).
  { apply nth_error_some. rewrite <- Hlen. apply nth_error_Some. congruence. }
  destruct (counted_moved Ha Ha') as (es & HP & HF).
  apply (Permutation_in _ (Permutation_sym HP)) in He'.
  assert (exists e, In e (counted l a) /\ moved m (c i) e e') as (e & He & (_ & _ & k & Hk & Ev)).
  { clear -HF He'. induction HF as [|x y es1 es2 Hxy _ IH]; [destruct He'|]. destruct He' as [<-|He'].
    - exists x; simpl; auto.
    - destruct (IH He') as (e & H1 & H2). exists e; simpl; auto. }
  assert (nonzero (nb_vec e)) as Hz by (apply (@Hap a e); auto; eapply nth_error_In; eauto).
  pose proof (norm_pos Hz) as Hn. intros (Hx & Hy & Hzz).
  assert (norm (nb_vec e') = 0) as H0. { unfold norm. rewrite Hx, Hy, Hzz. transitivity (sqrt 0); [|apply sqrt_0]. cbn. f_equal. ring. }
  rewrite Ev, norm_scale, norm_dot, (orthogonal_dot Hm), <- norm_dot in H0 by auto. nra.
Qed.
End Moved.

Lemma nth_error_ext' {A} (l l' : list A) : (forall k, nth_error l k = nth_error l' k) -> l = l'.
Proof.
  revert l'. induction l as [|x l IH]; intros [|y l'] H; auto.
  - discriminate (H 0%nat).
  - discriminate (H 0%nat).
  - pose proof (H 0%nat) as E. cbn in E. inversion E; subst. f_equal. apply IH. intros k. exact (H (S k)).
Qed.

(** Moving the neighbours leaves all stored values as they are. *)
Theorem moved_values inv raw s s' qs averaged m c :
  q_ready s -> q_ready s' -> Forall (fun q => 2 <= q <= 12)%Z qs -> s_vorused s' = s_vorused s ->
  orthogonal m -> length (s_atoms s') = length (s_atoms s) -> apart (s_atoms s) ->
  (forall i a a', nth_error (s_atoms s) i = Some a -> nth_error (s_atoms s') i = Some a' ->
     moved_atom m (c i) a a') ->
  (forall i a, nth_error (s_atoms s) i = Some a ->
     c i = 1 \/ s_vorused s = false /\ c i <> 0 /\ wtotal (counted (s_atoms s) a) <> 0) ->
  exists t t', py_calculate_q inv raw s qs averaged false None false = Ok t /\
    py_calculate_q inv raw s' qs averaged false None false = Ok t' /\
    map (@a_q Rnum) (s_atoms t') = map (@a_q Rnum) (s_atoms t) /\
    map (@a_aq Rnum) (s_atoms t') = map (@a_aq Rnum) (s_atoms t).
Proof.
  intros Hr Hr' HF Hv Hm Hlen Hap Hmv Hc. rewrite !py_q_eq by auto.
  do 2 eexists. split; [reflexivity|]. split; [reflexivity|].
  set (l := s_atoms s) in *. set (l' := s_atoms s') in *.
  pose proof (apart_moved Hm Hlen Hmv Hap) as Hap'.
  assert (forall i a a' k, nth_error l i = Some a -> nth_error l' i = Some a' ->
     nth_error (a_q (q_all (s_vorused s') l' qs a')) k = nth_error (a_q (q_all (s_vorused s) l qs a)) k) as Eq.
  { intros i a a' k Ha Ha'. rewrite Hv.
    destruct (in_dec Nat.eq_dec k (map (fun q => Z.to_nat (q - 2)) qs)) as [Hin|Hout].
    - apply in_map_iff in Hin as (q & <- & Hq).
      assert (2 <= q <= 12)%Z as Hq2 by (rewrite Forall_forall in HF; now apply HF).
      rewrite <- (Z2Nat.id q) in Hq |- * by lia.
      rewrite <- Hv at 1. unfold l, l'. rewrite (stored_q Hr' HF Hap') by (auto; eapply nth_error_In; eauto).
      rewrite (stored_q Hr HF Hap) by (auto; eapply nth_error_In; eauto).
      f_equal. f_equal. rewrite Hv. symmetry. eapply gram_moved_q; eauto.
    - assert (forall q, In q qs -> Z.to_nat (q - 2) <> k) as Hne.
      { intros q Hq E. apply Hout. apply in_map_iff; eauto. }
      rewrite !(proj1 (q_all_other _ _ Hne _)). destruct (Hmv i a a' Ha Ha') as (_ & E & _). now rewrite E. }
  assert (forall i a a' k, nth_error l i = Some a -> nth_error l' i = Some a' ->
     nth_error (a_aq (aq_all (map (q_all (s_vorused s') l' qs) l') qs (q_all (s_vorused s') l' qs a'))) k =
     nth_error (a_aq (aq_all (map (q_all (s_vorused s) l qs) l) qs (q_all (s_vorused s) l qs a))) k) as Ea.
  { intros i a a' k Ha Ha'. 
    destruct (in_dec Nat.eq_dec k (map (fun q => Z.to_nat (q - 2)) qs)) as [Hin|Hout].
    - apply in_map_iff in Hin as (q & <- & Hq).
      assert (2 <= q <= 12)%Z as Hq2 by (rewrite Forall_forall in HF; now apply HF).
      rewrite <- (Z2Nat.id q) in Hq |- * by lia.
      unfold l, l'. rewrite (stored_aq Hr' HF Hap') by (auto; eapply nth_error_In; eauto).
      rewrite (stored_aq Hr HF Hap) by (auto; eapply nth_error_In; eauto).
      f_equal. f_equal. rewrite Hv. symmetry. eapply gram_moved_avg; eauto.
    - assert (forall q, In q qs -> Z.to_nat (q - 2) <> k) as Hne.
      { intros q Hq E. apply Hout. apply in_map_iff; eauto. }
      rewrite !(aq_all_other _ Hne _), !q_all_a_aq. destruct (Hmv i a a' Ha Ha') as (_ & _ & E & _). now rewrite E. }
  assert (forall f : atom Rnum -> list R, forall g g',
     (forall i a a', nth_error l i = Some a -> nth_error l' i = Some a' -> f (g' a') = f (g a)) ->
     map f (map g' l') = map f (map g l)) as Hmap.
  { intros f g g' H. apply nth_error_ext'. intros i. rewrite !nth_error_map.
    destruct (nth_error l i) as [a|] eqn:Ha.
    - destruct (nth_error l' i) as [a'|] eqn:Ha'; cbn; [f_equal; eauto|].
      apply nth_error_None in Ha'. assert (i < length l)%nat by (apply nth_error_Some; congruence). lia.
    - apply nth_error_None in Ha. assert (nth_error l' i = None) as -> by (apply nth_error_None; lia). auto. }
  destruct averaged; cbn; split; apply Hmap; intros i a a' Ha Ha'.
  - rewrite !aq_all_a_q. apply nth_error_ext'. intros k. eapply Eq; eauto.
  - apply nth_error_ext'. intros k. eapply Ea; eauto.
  - apply nth_error_ext'. intros k. eapply Eq; eauto.
  - rewrite !q_all_a_aq. destruct (Hmv i a a' Ha Ha') as (_ & _ & E & _). exact E.
Qed.
