(** The flag voronoiused and the weights left by the searches. *)
From Coq Require Import Reals ZArith List Lia Lra.
From Verif Require Import Base Num NumR Types M_Geometry M_Container M_Neighbors M_Steinhardt S_Steinhardt
  S_Neighbors P_Neighbors P_QRun P_Harmonics P_QInv P_QSys P_History.
Import ListNotations.
Set Implicit Arguments.
Unset Strict Implicit.
Close Scope R_scope.

Section Flag.
Variable N : num.
Variable srt : list (datom N) -> list (datom N).
Variable voro : nat -> option (list (nat * N)).
Variable area_pow : N -> N.
Variable inv : m3 N -> option (m3 N).

Lemma bind_Ok {A B} (x : res A) (f : A -> res B) b : bind x f = Ok b -> exists a, x = Ok a /\ f a = Ok b.
Proof. destruct x; cbn; [eauto|discriminate]. Qed.
Lemma reset_flag (s s' : sys N) : reset_all_neighbors s = Ok s' -> s_vorused s' = s_vorused s.
Proof. unfold reset_all_neighbors, each_atom. destruct (_ <=? _)%nat; [|discriminate]. intros [= <-]. reflexivity. Qed.
Lemma temp_flag (s s' : sys N) : get_temp_neighbors s = Ok s' -> s_vorused s' = s_vorused s.
Proof. unfold get_temp_neighbors. intros H. apply bind_Ok in H as (l & _ & H). now injection H as <-. Qed.
Lemma sann_flag (s s' : sys N) t ok : get_all_neighbors_sann srt s t = Ok (s', ok) -> s_vorused s' = false.
Proof.
  unfold get_all_neighbors_sann. cbv zeta. intros H. apply bind_Ok in H as (s1 & E & H). apply temp_flag in E.
  apply bind_Ok in H as ([l b] & _ & H). injection H as <- _. exact E.
Qed.
Lemma retry_flag is t : is <> [] -> forall s s', sann_retry srt is s t = Ok (s', true) -> s_vorused s' = false.
Proof.
  intros _. induction is as [|i is IH]; intros s s' H; cbn [sann_retry] in H; [discriminate|].
  apply bind_Ok in H as (s1 & E1 & H). apply bind_Ok in H as ([s2 ok] & E2 & H). destruct ok.
  - injection H as <-. eapply sann_flag; eauto.
  - eapply IH; eauto.
Qed.
Lemma number_flag (s s' : sys N) t n b ok : get_all_neighbors_bynumber srt s t n b = Ok (s', ok) -> s_vorused s' = false.
Proof.
  unfold get_all_neighbors_bynumber. cbv zeta. intros H. apply bind_Ok in H as (s1 & E & H). apply temp_flag in E.
  apply bind_Ok in H as ([l b'] & _ & H). injection H as <- _. exact E.
Qed.
Lemma adaptive_flag (s s' : sys N) t n p ok : get_all_neighbors_adaptive srt s t n p = Ok (s', ok) -> s_vorused s' = s_vorused s.
Proof.
  unfold get_all_neighbors_adaptive. cbv zeta. intros H. apply bind_Ok in H as (s1 & E & H). apply temp_flag in E.
  apply bind_Ok in H as ([l b'] & _ & H). injection H as <- _. exact E.
Qed.
Lemma normal_flag (s s' : sys N) : get_all_neighbors_normal s = Ok s' -> s_vorused s' = false.
Proof. unfold get_all_neighbors_normal. cbv zeta. intros H. apply bind_Ok in H as (l & _ & H). injection H as <-. reflexivity. Qed.
Lemma cells_flag (s s' : sys N) : get_all_neighbors_cells s = Ok s' -> s_vorused s' = false.
Proof.
  unfold get_all_neighbors_cells. cbv zeta. intros H. apply bind_Ok in H as (ps & _ & H).
  apply bind_Ok in H as (l & _ & H). injection H as <-. reflexivity.
Qed.
Lemma box_set_keeps (s s' : sys N) b : box_set inv s b = Ok s' -> s_vorused s' = s_vorused s /\ s_atoms s' = s_atoms s.
Proof.
  unfold box_set. destruct (nltb _ _).
  - destruct (inv _); [|discriminate]. intros [= <-]. auto.
  - intros [= <-]. auto.
Qed.

(** Searches that make calculate_q divide by the weights, and those that leave
    the choice as it was. *)
Definition normalising (m : meth N) : Prop :=
  match m with
  | MCutoff (CutSann _) | MNumber _ _ _ => True
  | MCutoff (CutVal c) => neqb c n0 = false
  | _ => False
  end.
Definition adaptive_method (m : meth N) : Prop :=
  match m with
  | MCutoff (CutAdaptive _) => True
  | MCutoff (CutVal c) => neqb c n0 = true
  | _ => False
  end.
Theorem flag_after (s s' : sys N) args : find_neighbors srt voro area_pow inv s args = Ok (s', None) ->
  (normalising (fa_method args) -> s_vorused s' = false) /\
  (adaptive_method (fa_method args) -> s_vorused s' = s_vorused s) /\
  (forall mem, fa_method args = MVoronoi mem -> s_vorused s' = true).
Proof.
  unfold find_neighbors. intros H. apply bind_Ok in H as (s0 & E0 & H). apply reset_flag in E0. cbv zeta in H.
  assert (forall x : sys N, found x = Ok (s', None) -> s_vorused s' = s_vorused x) as HF by (intros x [= <-]; reflexivity).
  destruct (fa_method args) as [[| | | |c]|k a|mem|]; cbn [normalising adaptive_method].
  - discriminate.
  - split; [intros _|split; [intros []|discriminate]].
    destruct (nltb _ _); [discriminate|]. apply bind_Ok in H as ([s1 ok] & E1 & H). destruct ok.
    + rewrite (HF _ H). eapply sann_flag; eauto.
    + apply bind_Ok in H as ([s2 ok] & E2 & H). destruct ok; [|discriminate]. rewrite (HF _ H).
      eapply retry_flag; [|exact E2]. discriminate.
  - split; [intros []|split; [intros _|discriminate]].
    destruct (nltb _ _); [discriminate|]. apply bind_Ok in H as ([s1 ok] & E1 & H). destruct ok; [|discriminate].
    rewrite (HF _ H). apply adaptive_flag in E1. rewrite E1. exact E0.
  - discriminate.
  - destruct (neqb c n0) eqn:Ec.
    + split; [discriminate|split; [intros _|discriminate]].
      destruct (nltb _ _); [discriminate|]. apply bind_Ok in H as ([s1 ok] & E1 & H). destruct ok; [|discriminate].
      rewrite (HF _ H). apply adaptive_flag in E1. rewrite E1. exact E0.
    + split; [intros _|split; [discriminate|discriminate]]. apply bind_Ok in H as (s1 & E1 & H). rewrite (HF _ H).
      destruct (Z.ltb 2300 _); [now apply cells_flag in E1|now apply normal_flag in E1].
  - split; [intros _|split; [intros []|discriminate]].
    destruct (nltb _ _); [discriminate|]. apply bind_Ok in H as ([s1 ok] & E1 & H). destruct ok; [|discriminate].
    rewrite (HF _ H). eapply number_flag; eauto.
  - split; [intros []|split; [intros []|intros _ _]].
    apply bind_Ok in H as (s00 & _ & H). apply bind_Ok in H as (s1 & E1 & H). apply bind_Ok in H as (s2 & E2 & H). rewrite (HF _ H).
    apply box_set_keeps in E2 as [-> _]. unfold get_all_neighbors_voronoi in E1. cbv zeta in E1.
    apply bind_Ok in E1 as (l & _ & E1). injection E1 as <-. reflexivity.
  - split; [intros []|split; [intros []|discriminate]].
Qed.
End Flag.

(** Embedding a triclinic cell leaves a consistent system with the same filter. *)
Lemma embed_stored (N : num) inv mem (s s' : sys N) k : embed_triclinic inv mem s = Ok s' ->
  stored s /\ s_filter s = k -> stored s' /\ s_filter s' = k.
Proof.
  unfold embed_triclinic. destruct (_ && _); [|intros [= <-]; auto].
  intros H. apply bind_Ok in H as (l & _ & H). apply bind_Ok in H as ([s1 l1] & E & H). intros [_ Hk].
  assert (s_filter s1 = k) as E1.
  { unfold repeat_cell in E. cbn [bind] in E. apply bind_Ok in E as (s2 & E & E'). injection E' as <- _. cbn.
    unfold box_set in E. destruct (nltb _ _); [destruct (inv _); [|discriminate]|]; injection E as <-; exact Hk. }
  unfold embed_in_cubic_box, box_set in H. destruct (nltb _ _); [destruct (inv _); [|discriminate]|]; injection H as <-; (split; [reflexivity|exact E1]).
Qed.

(** ** Voronoi weights over the reals *)
Local Open Scope R_scope.
Section Voronoi.
Variable voro : nat -> option (list (nat * Rnum)).
Variable area_pow : Rnum -> Rnum.
Definition ap (f : nat * Rnum) : R := area_pow (snd f).
Lemma fold_wsum (fs : list (nat * Rnum)) : forall w : R,
  fold_left (fun w f => nadd w (area_pow (snd f))) fs (w : Rnum) = w + Rsum (map ap fs).
Proof.
  induction fs as [|f fs IH]; intros w; cbn [fold_left map].
  - cbn. ring.
  - rewrite IH, Rsum_cons. unfold ap at 2. rnum. ring.
Qed.
Lemma mapM_inv {A B} (f : A -> res B) l r : mapM f l = Ok r -> Forall2 (fun a b => f a = Ok b) l r.
Proof.
  revert r. induction l as [|a l IH]; intros r H; cbn in H.
  - injection H as <-. constructor.
  - destruct (f a) eqn:E; [|discriminate]. cbn in H. destruct (mapM f l); [|discriminate]. cbn in H. injection H as <-.
    constructor; auto.
Qed.
Lemma voro_slots_weights (s : sys Rnum) ti fs sl : s_filter s = 0%Z -> voro_slots area_pow s ti fs = Ok sl ->
  Rsum (map ap fs) <> 0 ->
  exists es, sl = map Some es /\ wtotal es = 1.
Proof.
  intros Hf H HW. unfold voro_slots in H. apply bind_Ok in H as (a & Ha & H). cbv zeta in H.
  destruct (max_nbrs <? length fs)%nat; [discriminate|].
  set (W := fold_left _ fs _) in H. assert (W = Rsum (map ap fs)) as EW.
  { rewrite <- (Rplus_0_l (Rsum (map ap fs))). exact (fold_wsum fs 0). }
  apply mapM_inv in H.
  assert (forall k ff sl, skipn k fs = ff -> Forall2 (fun k b =>
      (f <- get fs k ;; skip <- voro_skip s a k ;;
       if skip : bool then Ok None
       else c <- get (s_atoms s) (fst f) ;;
            (let '(d, v) := abs_distance_ij s (a_pos a) (a_pos c) in
             Ok (Some (mkNbr (fst f) d (ndiv (area_pow (snd f)) W) v)))) = Ok b)
      (seq k (length ff)) sl ->
      exists es, sl = map Some es /\ wtotal es = Rsum (map ap ff) / W) as G.
  { clear H sl. intros k ff. revert k. induction ff as [|f ff IH]; intros k sl Hsk H; cbn [length seq] in H; inversion H; subst.
    - exists []. split; auto. unfold wtotal. cbn. unfold Rdiv. ring.
    - assert (nth_error fs k = Some f) as Ek.
      { rewrite <- (firstn_skipn k fs), Hsk, nth_error_app2; rewrite firstn_length.
        - assert (k < length fs)%nat by (assert (length (skipn k fs) = S (length ff)) as E by (rewrite Hsk; auto); rewrite skipn_length in E; lia).
          rewrite Nat.min_l by lia. rewrite Nat.sub_diag. reflexivity.
        - lia. }
      match goal with H : _ = Ok y |- _ => rewrite (get_Ok Ek) in H; cbn [bind] in H;
        unfold voro_skip in H; rewrite Hf in H; cbn [Z.eqb orb bind] in H;
        apply bind_Ok in H as (c & _ & H);
        destruct (abs_distance_ij s (a_pos a) (a_pos c)) as [d v]; injection H as <- end.
      destruct (IH (S k) l') as (es & -> & E); auto.
      { clear -Hsk. revert k Hsk. induction fs as [|g fs IHf]; intros [|k] Hs; cbn in *; try discriminate; auto.
        injection Hs as _ <-. reflexivity. }
      exists (mkNbr (fst f) d (ndiv (area_pow (snd f)) W) v :: es). split; auto.
      unfold wtotal in *. cbn [map nb_weight]. rewrite !Rsum_cons, E. unfold ap at 2. rnum. unfold Rdiv. ring. }
  destruct (G 0%nat fs sl eq_refl H) as (es & E1 & E2). exists es. split; auto. rewrite E2, EW. now apply Rinv_r.
Qed.

Lemma foldM_app {S X} (f : S -> X -> res S) l1 l2 : forall s,
  foldM f (l1 ++ l2) s = (s' <- foldM f l1 s ;; foldM f l2 s').
Proof. induction l1 as [|x l1 IH]; intros s; cbn [app foldM bind]; auto. destruct (f s x); cbn [bind]; auto. Qed.

Lemma voro_loop (s : sys Rnum) l0 n : forall l',
  foldM (fun l ti => r <- voro_atom voro area_pow s ti ;;
         match r with
         | None => Ok l
         | Some ns => Ok (upd ti (fun a => a <| a_nbrs := ns |>) l)
         end) (seq 0 n) l0 = Ok l' ->
  forall i a', nth_error l' i = Some a' -> exists a, nth_error l0 i = Some a /\
    ((i < n)%nat -> exists r, voro_atom voro area_pow s i = Ok r /\
       a' = match r with Some ns => a <| a_nbrs := ns |> | None => a end) /\
    ((n <= i)%nat -> a' = a).
Proof.
  induction n as [|n IH]; intros l' H i a' Ha'.
  - cbn in H. injection H as <-. exists a'. split; auto. split; intros; [lia|auto].
  - rewrite seq_S, foldM_app in H. apply bind_Ok in H as (l1 & E1 & H). cbn [foldM] in H. cbn [Nat.add] in H.
    apply bind_Ok in H as (l2 & E2 & H). injection H as <-. apply bind_Ok in E2 as (r & Er & E2).
    assert (l2 = match r with Some ns => upd n (fun a => a <| a_nbrs := ns |>) l1 | None => l1 end) as El.
    { destruct r; now injection E2 as <-. }
    clear E2. subst l2.
    destruct (Nat.eq_dec i n) as [->|Hne].
    + assert (exists a1, nth_error l1 n = Some a1 /\ a' = match r with Some ns => a1 <| a_nbrs := ns |> | None => a1 end) as (a1 & Ha1 & Ea).
      { destruct r as [ns|]; [|eauto]. rewrite nth_error_upd_eq in Ha'. destruct (nth_error l1 n) as [a1|]; [|discriminate].
        cbn in Ha'. apply Some_inj in Ha'. eauto. }
      destruct (IH l1 E1 n a1 Ha1) as (a & Ha & _ & H2). exists a. split; auto. split; [|lia].
      intros _. exists r. split; auto. now rewrite <- (H2 (le_n n)).
    + assert (nth_error l1 i = Some a') as Ha1.
      { destruct r as [ns|]; auto. rewrite nth_error_upd in Ha'. destruct (Nat.eqb_spec i n); [congruence|auto]. }
      destruct (IH l1 E1 i a' Ha1) as (a & Ha & H1 & H2). exists a. split; auto. split; intros; [apply H1|apply H2]; lia.
Qed.

Lemma voro_atom_weights (s : sys Rnum) ti fs r : s_filter s = 0%Z -> voro ti = Some fs ->
  Rsum (map ap fs) <> 0 -> voro_atom voro area_pow s ti = Ok r ->
  exists es, r = Some es /\ wtotal es = 1.
Proof.
  intros Hf Hv HW H. unfold voro_atom in H. rewrite Hv in H. apply bind_Ok in H as (sl & E & H).
  destruct (voro_slots_weights Hf E HW) as (es & -> & Ew). cbv zeta in H.
  assert (filter (fun o : option (nbr Rnum) => match o with Some _ => true | None => false end) (map Some es) = map Some es) as Ef.
  { clear. induction es; cbn; auto. now rewrite IHes. }
  rewrite Ef, firstn_all in H.
  assert (all_some (map Some es) = Some es) as Es.
  { clear. induction es; cbn; auto. unfold all_some in IHes. now rewrite IHes. }
  rewrite Es in H. injection H as <-. eauto.
Qed.

Theorem voro_weights srt inv (s s' : sys Rnum) args mem i a' fs :
  stored s ->
  find_neighbors srt voro area_pow inv s args = Ok (s', None) ->
  fa_method args = MVoronoi mem -> fa_filter args = FNone ->
  nth_error (s_atoms s') i = Some a' -> voro i = Some fs -> Rsum (map ap fs) <> 0 ->
  wtotal (a_nbrs a') = 1.
Proof.
  intros St H Hm Hff Ha' Hv HW. unfold find_neighbors in H. rewrite Hm, Hff in H.
  apply bind_Ok in H as (sr & E0 & H). cbv zeta in H.
  apply bind_Ok in H as (s0 & Em & H). apply bind_Ok in H as (s1 & E1 & H). apply bind_Ok in H as (s2 & E2 & H).
  injection H as <-. cbn in Ha'. apply box_set_keeps in E2 as [_ E2]. rewrite E2 in Ha'.
  unfold get_all_neighbors_voronoi in E1. cbv zeta in E1. apply bind_Ok in E1 as (l & E1 & E3).
  injection E3 as <-. cbn in Ha'.
  assert (stored s0 /\ s_filter s0 = 0%Z) as [St0 Hf0'].
  { refine (embed_stored (k := 0%Z) Em _). unfold reset_all_neighbors in E0. rewrite (each_atom_stored _ St) in E0. injection E0 as <-.
    unfold stored in *. cbn. rewrite map_length. auto. }
  destruct (voro_loop E1 Ha') as (a & Ha & H1 & _).
  assert (i < length (s_atoms s0))%nat as Hi by (apply nth_error_Some; cbn in Ha; congruence).
  cbn in H1. rewrite St0, Nat2Z.id in H1. destruct (H1 Hi) as (r & Er & ->).
  match type of Er with voro_atom _ _ ?x _ = _ => assert (s_filter x = 0%Z) as Hf0 by exact Hf0' end.
  destruct (voro_atom_weights Hf0 Hv HW Er) as (es & -> & E).
  exact E.
Qed.
End Voronoi.

(** After a Voronoi search every atom has condition 0. *)
Lemma voro_cond voro area_pow srt inv (s s' : sys Rnum) args mem a' :
  stored s -> find_neighbors srt voro area_pow inv s args = Ok (s', None) ->
  fa_method args = MVoronoi mem -> s_tri s = false \/ s_ghosts_created s = true ->
  In a' (s_atoms s') -> a_cond a' = 0%Z.
Proof.
  intros St H Hm AI Ha'. unfold find_neighbors in H. rewrite Hm in H.
  apply bind_Ok in H as (s0 & E0 & H). cbv zeta in H.
  assert (AI0 : s_tri s0 && negb (s_ghosts_created s0) = false).
  { unfold reset_all_neighbors in E0. rewrite (each_atom_stored _ St) in E0. injection E0 as <-. cbn.
    destruct AI as [-> | ->]; [reflexivity|apply Bool.andb_false_r]. }
  unfold embed_triclinic in H. cbn [s_tri s_ghosts_created set] in H.
  change (s_tri (s0 <| s_filter := filter_code (fa_filter args) |>)) with (s_tri s0) in H.
  change (s_ghosts_created (s0 <| s_filter := filter_code (fa_filter args) |>)) with (s_ghosts_created s0) in H.
  rewrite AI0 in H. cbn [bind] in H.
  apply bind_Ok in H as (s1 & E1 & H). apply bind_Ok in H as (s2 & E2 & H).
  injection H as <-. cbn in Ha'. apply box_set_keeps in E2 as [_ E2]. rewrite E2 in Ha'.
  unfold get_all_neighbors_voronoi in E1. cbv zeta in E1. apply bind_Ok in E1 as (l & E1 & E3).
  injection E3 as <-. cbn in Ha'. apply In_nth_error in Ha' as (i & Ha').
  destruct (voro_loop E1 Ha') as (a & Ha & H1 & H2). cbn in Ha.
  assert (a_cond a = 0%Z) as Hc.
  { unfold reset_all_neighbors in E0. rewrite (each_atom_stored _ St) in E0. injection E0 as <-.
    cbn in Ha. apply nth_error_In in Ha. apply in_map_iff in Ha as (b & <- & _). reflexivity. }
  destruct (Nat.lt_ge_cases i (Z.to_nat (s_nop s0))) as [Hi|Hi].
  - destruct (H1 Hi) as (r & _ & ->). destruct r; exact Hc.
  - now rewrite (H2 Hi).
Qed.
Lemma counted_same_cond (l : list (atom Rnum)) a : (forall b, In b l -> a_cond b = 0%Z) -> In a l ->
  (forall e, In e (a_nbrs a) -> (nb_idx e < length l)%nat) -> counted l a = a_nbrs a.
Proof.
  intros Hc Ha Hi. unfold counted. revert Hi. generalize (a_nbrs a). induction l0 as [|e es IH]; intros Hi; cbn; auto.
  unfold same_cond at 1. destruct (@nth_error_some _ l (nb_idx e)) as [b Eb]; [apply Hi; simpl; auto|].
  rewrite Eb, (Hc a Ha), (Hc b (nth_error_In _ _ Eb)). cbn. f_equal. apply IH. intros; apply Hi; simpl; auto.
Qed.
