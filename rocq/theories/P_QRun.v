(** What calculate_q and calculate_aq compute, for any arithmetic: the loops
    expressed per atom, without state. *)
From Coq Require Import Lia.
From Verif Require Import Base Num Types M_Geometry M_Container M_Neighbors M_Steinhardt
  S_Steinhardt P_Container P_Neighbors P_Temp.
Set Implicit Arguments.
Unset Strict Implicit.

(** ** Arrays *)
Lemma zget_Ok {A} (l : list A) i a :
  (0 <= i)%Z -> nth_error l (Z.to_nat i) = Some a -> zget l i = Ok a.
Proof.
  intros H E. unfold zget. destruct (Z.ltb_spec i 0); [lia|]. now apply get_Ok.
Qed.
Lemma zget_inv {A} (l : list A) i a : zget l i = Ok a ->
  (0 <= i)%Z /\ nth_error l (Z.to_nat i) = Some a.
Proof.
  unfold zget. destruct (Z.ltb_spec i 0); [discriminate|]. intros E. split; auto. now apply get_inv.
Qed.
Lemma zput_Ok {A} (l : list A) i a :
  (0 <= i < Z.of_nat (length l))%Z -> zput l i a = Ok (upd (Z.to_nat i) (fun _ => a) l).
Proof.
  intros H. unfold zput, put. destruct (Z.ltb_spec i 0); [lia|].
  destruct (Nat.ltb_spec (Z.to_nat i) (length l)); [reflexivity|lia].
Qed.
Lemma nth_error_some {A} (l : list A) i : i < length l -> exists a, nth_error l i = Some a.
Proof.
  intros H. destruct (nth_error l i) eqn:E; eauto. apply nth_error_None in E. lia.
Qed.
Lemma Forall_upd {A} (P : A -> Prop) f l i :
  Forall P l -> (forall a, P a -> P (f a)) -> Forall P (upd i f l).
Proof.
  intros H Hf. revert i. induction H; intros [|i]; simpl; constructor; auto.
Qed.
Lemma put2_Ok {A} (qc : list (list A)) i j v n m :
  length qc = n -> Forall (fun r => length r = m) qc ->
  (0 <= i < Z.of_nat n)%Z -> (0 <= j < Z.of_nat m)%Z ->
  put2 qc i j v = Ok (upd (Z.to_nat i) (upd (Z.to_nat j) (fun _ => v)) qc).
Proof.
  intros Hn Hm Hi Hj. unfold put2.
  destruct (@nth_error_some _ qc (Z.to_nat i)) as [row Er]; [lia|].
  rewrite (zget_Ok (proj1 Hi) Er). cbn [bind].
  assert (length row = m) as Hr.
  { rewrite Forall_forall in Hm. apply Hm. eapply nth_error_In; eauto. }
  rewrite zput_Ok by lia. cbn [bind]. rewrite zput_Ok by lia.
  f_equal. eapply upd_ext; eauto.
Qed.

Lemma foldM_pure {S X} (f : S -> X -> res S) (g : S -> X -> S) (I : S -> Prop) l :
  (forall s x, In x l -> I s -> f s x = Ok (g s x) /\ I (g s x)) ->
  forall s, I s -> foldM f l s = Ok (fold_left g l s) /\ I (fold_left g l s).
Proof.
  induction l as [|x l IH]; intros H s Hs; cbn [foldM fold_left]; [auto|].
  destruct (H s x) as [E Hg]; simpl; auto. rewrite E. cbn [bind]. apply IH; auto.
  intros; apply H; simpl; auto.
Qed.

Section Run.
Variable N : num.
Open Scope num_scope.

(** ** One component *)
Definition qadd (q mi : Z) (acc : N * N * N) (e : nbr N) : N * N * N :=
  let '(re, im, w) := acc in
  let '(phi, theta) := spherical (nb_vec e) in
  let '(yr, yi) := QLM q mi theta phi in
  (re + nb_weight e * yr, im + nb_weight e * yi, w + nb_weight e).
Definition comp (vor : bool) (q mi : Z) (es : list (nbr N)) : N * N :=
  let '(re, im, w) := fold_left (qadd q mi) es (nofZ 0, nofZ 0, nofZ 0) in
  if vor then (re, im) else (re / w, im / w).
Definition sumsq (zs : list (N * N)) : N :=
  fold_left (fun summ z => summ + (fst z * fst z + snd z * snd z)) zs (nofZ 0).
Definition comps (vor : bool) (q : Z) (es : list (nbr N)) : list (N * N) :=
  map (fun mi => comp vor q mi es) (zrange (- q) (q + 1)).
Definition qval (vor : bool) (q : Z) (es : list (nbr N)) : N :=
  nsqrt (four_pi_over N q * sumsq (comps vor q es)).

Lemma foldM_qlm l a q mi es : (forall e, In e es -> nb_idx e < length l) -> forall acc,
  foldM (qlm_step l a q mi) es acc = Ok (fold_left (qadd q mi) (filter (same_cond l a) es) acc).
Proof.
  intros H. induction es as [|e es IH]; intros acc; cbn [foldM filter fold_left]; auto.
  unfold qlm_step at 1, same_cond at 1.
  destruct (@nth_error_some _ l (nb_idx e)) as [b Eb]; [apply H; simpl; auto|].
  rewrite (get_Ok Eb), Eb. cbn [bind].
  assert (forall e', In e' es -> nb_idx e' < length l) as H' by (intros; apply H; simpl; auto).
  destruct (Z.eqb (a_cond a) (a_cond b)); simpl negb; cbv iota; cbn [fold_left].
  - replace (let '(re, im, w) := acc in
             let '(phi, theta) := spherical (nb_vec e) in
             let '(yr, yi) := QLM q mi theta phi in
             Ok (re + nb_weight e * yr, im + nb_weight e * yi, w + nb_weight e))
      with (@Ok (N * N * N) (qadd q mi acc e)); [cbn [bind]; apply IH, H'|].
    unfold qadd. destruct acc as [[re im] w]. destruct (spherical (nb_vec e)) as [phi theta].
    now destruct (QLM q mi theta phi).
  - cbn [bind]. apply IH, H'.
Qed.

Lemma qlm_atom_eq vor l a q mi : (forall e, In e (a_nbrs a) -> nb_idx e < length l) ->
  qlm_atom vor l a q mi = Ok (comp vor q mi (counted l a)).
Proof.
  intros H. unfold qlm_atom. rewrite foldM_qlm by auto. cbn [bind]. unfold comp, counted.
  now destruct (fold_left _ _ _) as [[re im] w].
Qed.

(** ** One q of one atom *)
Definition set_row {A} (vals : list A) (row : list A) : list A :=
  vals ++ skipn (length vals) row.
Definition q_new (vor : bool) (l0 : list (atom N)) (q : Z) (a : atom N) : atom N :=
  let es := counted l0 a in
  a <| a_qc := upd (Z.to_nat (q - 2)) (set_row (comps vor q es)) (a_qc a) |>
    <| a_q := upd (Z.to_nat (q - 2)) (fun _ => qval vor q es) (a_q a) |>.

Definition same_but_q (l l0 : list (atom N)) : Prop := map (@but_q N) l = map (@but_q N) l0.
Lemma same_but_q_nth l l0 i : same_but_q l l0 ->
  option_map (@but_q N) (nth_error l i) = option_map (@but_q N) (nth_error l0 i).
Proof. intros H. rewrite <- !nth_error_map. unfold same_but_q in H. now rewrite H. Qed.
Lemma same_but_q_length l l0 : same_but_q l l0 -> length l = length l0.
Proof. intros H. apply (f_equal (@length _)) in H. now rewrite !map_length in H. Qed.
Lemma but_q_f {A} (f : atom N -> A) (a b : atom N) : but_q a = but_q b ->
  (forall a, f (but_q a) = f a) -> f a = f b.
Proof. intros H Hf. rewrite <- (Hf a), <- (Hf b). now rewrite H. Qed.
Lemma but_q_cond (a b : atom N) : but_q a = but_q b -> a_cond a = a_cond b.
Proof. intros H. now apply (but_q_f (f := @a_cond N) H). Qed.
Lemma but_q_nbrs (a b : atom N) : but_q a = but_q b -> a_nbrs a = a_nbrs b.
Proof. intros H. now apply (but_q_f (f := @a_nbrs N) H). Qed.
Lemma map_upd_id {A B} (g : A -> B) (f : A -> A) l i :
  (forall a, g (f a) = g a) -> map g (upd i f l) = map g l.
Proof. intros H. revert i. induction l; intros [|i]; simpl; f_equal; auto. Qed.
Lemma same_but_q_upd l l0 i f : same_but_q l l0 -> (forall a, but_q (f a) = but_q a) ->
  same_but_q (upd i f l) l0.
Proof. unfold same_but_q. intros H Hf. now rewrite map_upd_id. Qed.

Lemma counted_same l l0 a b : same_but_q l l0 -> but_q a = but_q b -> counted l a = counted l0 b.
Proof.
  intros H Hab. unfold counted. rewrite (but_q_nbrs Hab). apply filter_ext. intros e.
  unfold same_cond. pose proof (same_but_q_nth (nb_idx e) H) as E.
  destruct (nth_error l (nb_idx e)), (nth_error l0 (nb_idx e)); simpl in E; try discriminate; auto.
  apply Some_inj in E. now rewrite (but_q_cond Hab), (but_q_cond E).
Qed.

Definition ready (n : nat) (a : atom N) : Prop :=
  q_arrays a /\ forall e, In e (a_nbrs a) -> nb_idx e < n.
Definition a_ready (l : list (atom N)) : Prop := Forall (ready (length l)) l.

Lemma zrange_snoc lo hi : (lo <= hi)%Z -> zrange lo (hi + 1) = zrange lo hi ++ [hi].
Proof.
  intros H. unfold zrange. replace (Z.to_nat (hi + 1 - lo)) with (Z.to_nat (hi - lo) + 1)%nat by lia.
  rewrite seq_app, map_app. cbn [map seq]. repeat f_equal. lia.
Qed.
Lemma zrange_nil lo hi : (hi <= lo)%Z -> zrange lo hi = [].
Proof. intros H. unfold zrange. replace (Z.to_nat (hi - lo)) with 0 by lia. reflexivity. Qed.

(** Writing the components one after the other writes the row. *)
Lemma upd_set_row {A} (vals row : list A) v : length vals < length row ->
  upd (length vals) (fun _ => v) (set_row vals row) = set_row (vals ++ [v]) row.
Proof.
  unfold set_row. revert row. induction vals as [|x vals IH]; intros row H.
  - destruct row; simpl in *; [lia|reflexivity].
  - destruct row; simpl in *; [lia|]. f_equal. apply IH. lia.
Qed.
Lemma length_set_row {A} (vals row : list A) : length vals <= length row ->
  length (set_row vals row) = length row.
Proof. intros H. unfold set_row. rewrite app_length, skipn_length. lia. Qed.

Lemma length_zr lo hi : length (zrange lo hi) = Z.to_nat (hi - lo).
Proof. apply length_zrange. Qed.

Section OneQ.
Variables (vor : bool) (l0 : list (atom N)) (ti : nat) (q : Z).
Hypothesis Hq : (2 <= q <= 12)%Z.
Variable a0 : atom N.
Let es := counted l0 a0.
Let body := fun (st : list (atom N) * N) mi => let '(l, summ) := st in
        a <- get l ti ;;
        '(re, im) <- qlm_atom vor l a q mi ;;
        qc <- put2 (a_qc a) (q - 2) (mi + q) (re, im) ;;
        Ok (upd ti (fun a => a <| a_qc := qc |>) l, summ + (re * re + im * im)).

Lemma q_loop l : same_but_q l l0 -> a_ready l0 -> nth_error l ti = Some a0 -> q_arrays a0 ->
  forall k, k <= Z.to_nat (2 * q + 1) ->
  let mis := zrange (- q) (- q + Z.of_nat k) in
  foldM body mis (l, nofZ 0) =
  Ok (upd ti (fun _ => a0 <| a_qc := upd (Z.to_nat (q - 2))
                (set_row (map (fun mi => comp vor q mi es) mis)) (a_qc a0) |>) l,
      sumsq (map (fun mi => comp vor q mi es) mis)).
Proof.
  intros Hs Hr Ha Hsh. induction k as [|k IH]; intros Hk; cbv zeta.
  - rewrite zrange_nil by lia. cbn [map foldM]. f_equal. f_equal. symmetry.
    apply (upd_id (a := a0)); auto. replace (upd _ _ (a_qc a0)) with (a_qc a0); [now destruct a0|].
    symmetry. destruct (@nth_error_some _ (a_qc a0) (Z.to_nat (q - 2))) as [r Er].
    { destruct Hsh as (_ & _ & -> & _). lia. }
    apply (upd_id (a := r)); auto.
  - replace (- q + Z.of_nat (S k))%Z with (- q + Z.of_nat k + 1)%Z by lia.
    rewrite zrange_snoc by lia.
    assert (forall xs ys st, foldM body (xs ++ ys) st = (st' <- foldM body xs st ;; foldM body ys st')) as Happ.
    { clear. induction xs as [|x xs IH]; intros ys st; cbn [app foldM]; auto.
      destruct (body st x); cbn [bind]; auto. }
    rewrite Happ, IH by lia. clear IH Happ. cbn [bind foldM]. unfold body at 1.
    set (mis := zrange (- q) (- q + Z.of_nat k)). set (mi := (- q + Z.of_nat k)%Z).
    set (vals := map _ mis). set (a1 := a0 <| a_qc := _ |>).
    assert (nth_error (upd ti (fun _ => a1) l) ti = Some a1) as E1.
    { rewrite nth_error_upd, Nat.eqb_refl, Ha. reflexivity. }
    rewrite (get_Ok E1). cbn [bind].
    assert (exists b, In b l0 /\ but_q b = but_q a0) as (b & Hb & Eb).
    { pose proof (same_but_q_nth ti Hs) as E. rewrite Ha in E.
      destruct (nth_error l0 ti) as [b|] eqn:E'; [|discriminate]. apply Some_inj in E.
      exists b. split; auto. eapply nth_error_In; eauto. }
    assert (but_q a1 = but_q a0) as Ea1 by reflexivity.
    assert (same_but_q (upd ti (fun _ => a1) l) l0) as Hs1.
    { rewrite (@upd_ext _ (fun _ => a1) (fun a => a <| a_qc := a_qc a1 |>) l ti a0 Ha eq_refl).
      apply same_but_q_upd; auto. }
    rewrite qlm_atom_eq.
    2:{ intros e He. rewrite length_upd, (same_but_q_length Hs).
        unfold a_ready in Hr. rewrite Forall_forall in Hr. apply (proj2 (Hr b Hb)).
        rewrite (but_q_nbrs Eb). exact He. }
    replace (counted (upd ti (fun _ => a1) l) a1) with es.
    2:{ unfold es. transitivity (counted l0 a1); [now apply counted_same|symmetry; now apply counted_same]. }
    cbn [bind]. destruct (comp vor q mi es) as [re im] eqn:Ec.
    assert (length vals = k) as Hv by (unfold vals, mis; rewrite map_length, length_zr; lia).
    assert (length (a_qc a1) = 11) as L11.
    { unfold a1. cbn. rewrite length_upd. apply Hsh. }
    assert (Forall (fun r => length r = 25) (a_qc a1)) as L25.
    { unfold a1. cbn. apply Forall_upd; [apply Hsh|]. intros r Er. rewrite length_set_row; auto. rewrite Er. lia. }
    rewrite (put2_Ok (re, im) L11 L25) by (try lia; unfold mi; lia).
    cbn [bind]. f_equal. f_equal.
    + rewrite upd_upd. apply (@upd_ext _ _ _ l ti a0 Ha). unfold a1. cbn.
      rewrite upd_upd.
      match goal with |- _ <| a_qc := ?X |> = _ => change (a0 <| a_qc := X |> = a0 <| a_qc :=
         upd (Z.to_nat (q - 2)) (set_row (map (fun mi => comp vor q mi es) (mis ++ [mi]))) (a_qc a0) |>) end.
      apply (f_equal (fun x => a0 <| a_qc := x |>)). destruct (@nth_error_some _ (a_qc a0) (Z.to_nat (q - 2))) as [r Er].
      { destruct Hsh as (_ & _ & -> & _). lia. }
      assert (length r = 25) as Hrl.
      { destruct Hsh as (_ & _ & _ & F & _). rewrite Forall_forall in F. apply F. eapply nth_error_In; eauto. }
      apply (@upd_ext _ _ _ _ _ r Er).
      replace (Z.to_nat (mi + q)) with (length vals) by (unfold mi; lia).
      rewrite upd_set_row by lia. f_equal. rewrite map_app. cbn [map]. unfold vals. now rewrite Ec.
    + rewrite map_app. cbn [map]. rewrite Ec. unfold sumsq. rewrite fold_left_app. reflexivity.
Qed.
End OneQ.

Lemma q_arrays_new vor l0 q a : (2 <= q <= 12)%Z -> q_arrays a -> q_arrays (q_new vor l0 q a).
Proof.
  intros Hq (H1 & H2 & H3 & H4 & H5 & H6). unfold q_new, q_arrays. cbn.
  rewrite !length_upd. repeat split; auto. apply Forall_upd; auto.
  intros r Hr. rewrite length_set_row; auto. unfold comps. rewrite map_length, length_zr. lia.
Qed.

Lemma q_atom_eq vor l0 ti l q a : (2 <= q <= 12)%Z -> same_but_q l l0 -> a_ready l0 ->
  nth_error l ti = Some a -> q_arrays a ->
  q_atom vor ti l q = Ok (upd ti (q_new vor l0 q) l).
Proof.
  intros Hq Hs Hr Ha Hsh. unfold q_atom.
  pose proof (@q_loop vor l0 ti q Hq a l Hs Hr Ha Hsh (Z.to_nat (2 * q + 1)) (le_n _)) as E.
  cbv zeta in E. replace (- q + Z.of_nat (Z.to_nat (2 * q + 1)))%Z with (q + 1)%Z in E by lia.
  rewrite E. clear E. cbn [bind].
  set (a1 := a <| a_qc := _ |>).
  assert (nth_error (upd ti (fun _ => a1) l) ti = Some a1) as E1.
  { rewrite nth_error_upd, Nat.eqb_refl, Ha. reflexivity. }
  rewrite (get_Ok E1). cbn [bind]. rewrite zput_Ok.
  2:{ unfold a1; cbn. destruct Hsh as (-> & _). lia. }
  cbn [bind]. f_equal. rewrite upd_upd. apply (@upd_ext _ _ _ l ti a Ha). reflexivity.
Qed.

Lemma but_q_new vor l0 q a : but_q (q_new vor l0 q a) = but_q a.
Proof. reflexivity. Qed.

Definition q_all (vor : bool) (l0 : list (atom N)) (qs : list Z) (a : atom N) : atom N :=
  fold_left (fun a q => q_new vor l0 q a) qs a.
Lemma but_q_all vor l0 qs : forall a, but_q (q_all vor l0 qs a) = but_q a.
Proof.
  induction qs as [|q qs IH]; intros a; simpl; auto. now rewrite IH.
Qed.
Lemma q_arrays_all vor l0 qs : forall a, Forall (fun q => 2 <= q <= 12)%Z qs -> q_arrays a ->
  q_arrays (q_all vor l0 qs a).
Proof.
  induction qs as [|q qs IH]; intros a H Ha; simpl; auto. inversion H; subst.
  apply IH; auto. now apply q_arrays_new.
Qed.

Lemma q_atoms_eq vor l0 ti qs : Forall (fun q => 2 <= q <= 12)%Z qs -> a_ready l0 ->
  forall l a, same_but_q l l0 -> nth_error l ti = Some a -> q_arrays a ->
  foldM (q_atom vor ti) qs l = Ok (upd ti (q_all vor l0 qs) l).
Proof.
  intros H Hr. induction H as [|q qs Hq _ IH]; intros l a Hs Ha Hsh; cbn [foldM].
  - f_equal. symmetry. now apply (upd_id (a := a)).
  - rewrite (q_atom_eq vor Hq Hs Hr Ha Hsh). cbn [bind].
    rewrite (IH _ (q_new vor l0 q a)).
    + f_equal. rewrite upd_upd. reflexivity.
    + apply same_but_q_upd; auto.
    + now rewrite nth_error_upd, Nat.eqb_refl, Ha.
    + now apply q_arrays_new.
Qed.

Lemma firstn_S_nth {A} (l : list A) n a : nth_error l n = Some a -> firstn (S n) l = firstn n l ++ [a].
Proof. revert l; induction n; intros [|x l] H; simpl in *; try discriminate; [congruence|]. f_equal. auto. Qed.
Lemma skipn_nth {A} (l : list A) n a : nth_error l n = Some a -> skipn n l = a :: skipn (S n) l.
Proof. revert l; induction n; intros [|x l] H; simpl in *; try discriminate; [congruence|]. auto. Qed.

(** A loop over atoms 0..n-1 that changes one atom at a time. *)
Lemma loop_map_first (f : list (atom N) -> nat -> res (list (atom N))) (G : atom N -> atom N)
    (l0 : list (atom N)) n :
  (forall k, k < n -> f (map_first k G l0) k = Ok (upd k G (map_first k G l0))) ->
  n <= length l0 ->
  foldM f (seq 0 n) l0 = Ok (map_first n G l0).
Proof.
  intros H Hn. induction n as [|n IH].
  - reflexivity.
  - rewrite seq_S. assert (forall xs ys st, foldM f (xs ++ ys) st = (st' <- foldM f xs st ;; foldM f ys st')) as Happ.
    { clear. induction xs as [|x xs IH]; intros ys st; cbn [app foldM]; auto.
      destruct (f st x); cbn [bind]; auto. }
    rewrite Happ, IH by (intros; try apply H; lia). cbn [bind foldM Nat.add].
    rewrite H by lia. cbn [bind]. f_equal.
    destruct (@nth_error_some _ l0 n) as [a Ea]; [lia|].
    unfold map_first. rewrite (firstn_S_nth Ea), (skipn_nth Ea), map_app, <- app_assoc. cbn [map app].
    assert (n = length (map G (firstn n l0))) as Hl by (rewrite map_length, firstn_length; lia).
    rewrite Hl at 1. generalize (map G (firstn n l0)). induction l; simpl; f_equal; auto.
Qed.

Lemma map_first_nth {A} (f : A -> A) n l i : n <= length l -> nth_error (map_first n f l) i =
  if (i <? n)%nat then option_map f (nth_error l i) else nth_error l i.
Proof.
  intros H. unfold map_first.
  assert (length (map f (firstn n l)) = n) as Hl by (rewrite map_length, firstn_length; lia).
  destruct (Nat.ltb_spec i n).
  - rewrite nth_error_app1 by lia. rewrite nth_error_map. f_equal.
    rewrite <- (firstn_skipn n l) at 2. rewrite nth_error_app1; auto. rewrite firstn_length; lia.
  - rewrite nth_error_app2 by lia. rewrite Hl. rewrite <- (firstn_skipn n l) at 2.
    rewrite nth_error_app2; rewrite firstn_length; [|lia]. f_equal. lia.
Qed.
Lemma map_map_first {A B} (g : A -> B) (f : A -> A) n l : (forall a, g (f a) = g a) ->
  map g (map_first n f l) = map g l.
Proof.
  intros H. unfold map_first. rewrite map_app, map_map, (map_ext _ _ H), <- map_app.
  now rewrite firstn_skipn.
Qed.

Theorem calculate_q_eq s qs : q_ready s -> Forall (fun q => 2 <= q <= 12)%Z qs ->
  calculate_q s qs =
  Ok (s <| s_atoms := map (q_all (s_vorused s) (s_atoms s) qs) (s_atoms s) |>).
Proof.
  intros [Hn Hr] Hq. unfold calculate_q. rewrite Hn, Nat2Z.id.
  assert (a_ready (s_atoms s)) as HR.
  { unfold a_ready, ready. apply Forall_forall. intros a Ha. now apply Hr. }
  rewrite (@loop_map_first _ (q_all (s_vorused s) (s_atoms s) qs)); [|..|lia].
  - cbn [bind]. now rewrite map_first_all.
  - intros k Hk. destruct (@nth_error_some _ (s_atoms s) k Hk) as [a Ea].
    apply (@q_atoms_eq _ _ _ _ Hq HR _ a).
    + unfold same_but_q. apply map_map_first. intros; apply but_q_all.
    + rewrite map_first_nth by lia. rewrite Nat.ltb_irrefl. exact Ea.
    + apply Hr. eapply nth_error_In; eauto.
Qed.

(** ** Averaged values *)
Definition zrow (a : atom N) (q : Z) : list (N * N) :=
  match nth_error (a_qc a) (Z.to_nat (q - 2)) with Some r => r | None => [] end.
Definition zcomp (a : atom N) (q mi : Z) : N * N :=
  match nth_error (zrow a q) (Z.to_nat mi) with Some z => z | None => (nofZ 0, nofZ 0) end.
Definition nb_atoms (l : list (atom N)) (es : list (nbr N)) : list (atom N) :=
  flat_map (fun e => match nth_error l (nb_idx e) with Some b => [b] | None => [] end) es.
Definition acomp (q mi : Z) (a : atom N) (bs : list (atom N)) : N * N :=
  let '(re, im) := fold_left (fun z b => (fst z + fst (zcomp b q mi), snd z + snd (zcomp b q mi)))
                             bs (zcomp a q mi) in
  (re / nofZ (Z.of_nat (length bs) + 1), im / nofZ (Z.of_nat (length bs) + 1)).
Definition acomps (q : Z) (a : atom N) (bs : list (atom N)) : list (N * N) :=
  map (fun mi => acomp q mi a bs) (zrange 0 (2 * q + 1)).
Definition aqval (q : Z) (a : atom N) (bs : list (atom N)) : N :=
  nsqrt (four_pi_over N q * sumsq (acomps q a bs)).
Definition aq_new (l0 : list (atom N)) (q : Z) (a : atom N) : atom N :=
  let bs := nb_atoms l0 (counted l0 a) in
  a <| a_aqc := upd (Z.to_nat (q - 2)) (set_row (acomps q a bs)) (a_aqc a) |>
    <| a_aq := upd (Z.to_nat (q - 2)) (fun _ => aqval q a bs) (a_aq a) |>.
Definition aq_all (l0 : list (atom N)) (qs : list Z) (a : atom N) : atom N :=
  fold_left (fun a q => aq_new l0 q a) qs a.

Definition same_but_aq (l l0 : list (atom N)) : Prop := map (@but_aq N) l = map (@but_aq N) l0.
Lemma same_but_aq_nth l l0 i : same_but_aq l l0 ->
  option_map (@but_aq N) (nth_error l i) = option_map (@but_aq N) (nth_error l0 i).
Proof. intros H. rewrite <- !nth_error_map. unfold same_but_aq in H. now rewrite H. Qed.
Lemma same_but_aq_length l l0 : same_but_aq l l0 -> length l = length l0.
Proof. intros H. apply (f_equal (@length _)) in H. now rewrite !map_length in H. Qed.
Lemma but_aq_f {A} (f : atom N -> A) (a b : atom N) : but_aq a = but_aq b ->
  (forall a, f (but_aq a) = f a) -> f a = f b.
Proof. intros H Hf. rewrite <- (Hf a), <- (Hf b). now rewrite H. Qed.
Lemma but_aq_cond (a b : atom N) : but_aq a = but_aq b -> a_cond a = a_cond b.
Proof. intros H. now apply (but_aq_f (f := @a_cond N) H). Qed.
Lemma but_aq_nbrs (a b : atom N) : but_aq a = but_aq b -> a_nbrs a = a_nbrs b.
Proof. intros H. now apply (but_aq_f (f := @a_nbrs N) H). Qed.
Lemma but_aq_qc (a b : atom N) : but_aq a = but_aq b -> a_qc a = a_qc b.
Proof. intros H. now apply (but_aq_f (f := @a_qc N) H). Qed.
Lemma counted_same_aq l l0 a b : same_but_aq l l0 -> but_aq a = but_aq b -> counted l a = counted l0 b.
Proof.
  intros H Hab. unfold counted. rewrite (but_aq_nbrs Hab). apply filter_ext. intros e.
  unfold same_cond. pose proof (same_but_aq_nth (nb_idx e) H) as E.
  destruct (nth_error l (nb_idx e)), (nth_error l0 (nb_idx e)); simpl in E; try discriminate; auto.
  apply Some_inj in E. now rewrite (but_aq_cond Hab), (but_aq_cond E).
Qed.
Lemma zcomp_same (a b : atom N) q mi : a_qc a = a_qc b -> zcomp a q mi = zcomp b q mi.
Proof. intros H. unfold zcomp, zrow. now rewrite H. Qed.

Lemma acomp_same q mi a a' bs bs' : a_qc a = a_qc a' ->
  Forall2 (fun b b' => a_qc b = a_qc b') bs bs' -> acomp q mi a bs = acomp q mi a' bs'.
Proof.
  intros H HF. unfold acomp. rewrite (zcomp_same q mi H).
  assert (length bs = length bs') as -> by (induction HF; simpl; auto).
  replace (fold_left (fun z b => (fst z + fst (zcomp b q mi), snd z + snd (zcomp b q mi))) bs (zcomp a' q mi))
   with (fold_left (fun z b => (fst z + fst (zcomp b q mi), snd z + snd (zcomp b q mi))) bs' (zcomp a' q mi)); [reflexivity|].
  generalize (zcomp a' q mi). induction HF as [|b b' bs bs' E _ IH]; intros z; simpl; auto.
  now rewrite (zcomp_same q mi E), IH.
Qed.
Lemma nb_atoms_same l l0 es : same_but_aq l l0 ->
  Forall2 (fun b b' => a_qc b = a_qc b') (nb_atoms l es) (nb_atoms l0 es).
Proof.
  intros H. unfold nb_atoms. induction es as [|e es IH]; simpl; [constructor|].
  apply Forall2_app; auto. pose proof (same_but_aq_nth (nb_idx e) H) as E.
  destruct (nth_error l (nb_idx e)), (nth_error l0 (nb_idx e)); simpl in E; try discriminate; auto.
  apply Some_inj in E. repeat constructor. now apply but_aq_qc.
Qed.

Lemma foldM_aqlm l a q mi es : (2 <= q <= 12)%Z -> (0 <= mi <= 2 * q)%Z ->
  (forall e, In e es -> nb_idx e < length l) -> (forall b, In b l -> q_arrays b) ->
  forall re im k,
  foldM (aqlm_step l a q mi) es (re, im, k) =
  let bs := nb_atoms l (filter (same_cond l a) es) in
  let z := fold_left (fun z b => (fst z + fst (zcomp b q mi), snd z + snd (zcomp b q mi))) bs (re, im) in
  Ok (fst z, snd z, (k + Z.of_nat (length bs))%Z).
Proof.
  intros Hq Hm H Hsh. induction es as [|e es IH]; intros re im k; cbv zeta; cbn [foldM filter].
  - simpl. repeat f_equal. lia.
  - unfold aqlm_step at 1.
    destruct (@nth_error_some _ l (nb_idx e)) as [b Eb]; [apply H; simpl; auto|].
    assert (same_cond l a e = Z.eqb (a_cond a) (a_cond b)) as -> by (unfold same_cond; now rewrite Eb).
    rewrite (get_Ok Eb). cbn [bind].
    assert (forall e', In e' es -> nb_idx e' < length l) as H' by (intros; apply H; simpl; auto).
    destruct (Z.eqb (a_cond a) (a_cond b)); simpl negb; cbv iota.
    + assert (In b l) as Hb by (eapply nth_error_In; eauto).
      destruct (Hsh b Hb) as (_ & _ & H3 & H4 & _).
      destruct (@nth_error_some _ (a_qc b) (Z.to_nat (q - 2))) as [row Er]; [lia|].
      assert (length row = 25) as Hr by (rewrite Forall_forall in H4; apply H4; eapply nth_error_In; eauto).
      destruct (@nth_error_some _ row (Z.to_nat mi)) as [[x y] Exy]; [lia|].
      assert (zcomp b q mi = (x, y)) as Ez by (unfold zcomp, zrow; now rewrite Er, Exy).
      rewrite (@zget_Ok _ _ (q - 2) row) by (lia || exact Er). cbn [bind].
      rewrite (@zget_Ok _ _ mi (x, y)) by (lia || exact Exy). cbn [bind].
      rewrite IH by auto. cbv zeta. cbn [nb_atoms flat_map]. rewrite Eb.
      cbn [app fold_left length fst snd]. rewrite Ez. cbn [fst snd].
      f_equal. apply f_equal2; [reflexivity|]. fold (nb_atoms l (filter (same_cond l a) es)). lia.
    + cbn [bind]. apply IH; auto.
Qed.

Lemma aqlm_atom_eq l a q mi : (2 <= q <= 12)%Z -> (0 <= mi <= 2 * q)%Z -> q_arrays a ->
  (forall e, In e (a_nbrs a) -> nb_idx e < length l) -> (forall b, In b l -> q_arrays b) ->
  aqlm_atom l a q mi = Ok (acomp q mi a (nb_atoms l (counted l a))).
Proof.
  intros Hq Hm (_ & _ & H3 & H4 & _) H Hsh. unfold aqlm_atom.
  destruct (@nth_error_some _ (a_qc a) (Z.to_nat (q - 2))) as [row Er]; [lia|].
  assert (length row = 25) as Hr by (rewrite Forall_forall in H4; apply H4; eapply nth_error_In; eauto).
  destruct (@nth_error_some _ row (Z.to_nat mi)) as [[x y] Exy]; [lia|].
  assert (zcomp a q mi = (x, y)) as Ez by (unfold zcomp, zrow; now rewrite Er, Exy).
  rewrite (@zget_Ok _ _ (q - 2) row) by (lia || exact Er). cbn [bind].
  rewrite (@zget_Ok _ _ mi (x, y)) by (lia || exact Exy). cbn [bind].
  rewrite foldM_aqlm by auto. cbv zeta. cbn [bind]. unfold acomp, counted. rewrite Ez.
  destruct (fold_left _ _ (x, y)) as [re im]. reflexivity.
Qed.

Section OneAQ.
Variables (l0 : list (atom N)) (ti : nat) (q : Z).
Hypothesis Hq : (2 <= q <= 12)%Z.
Variable a0 : atom N.
Let bs := nb_atoms l0 (counted l0 a0).
Let body := fun (st : list (atom N) * N) mi => let '(l, summ) := st in
        a <- get l ti ;;
        '(re, im) <- aqlm_atom l a q mi ;;
        qc <- put2 (a_aqc a) (q - 2) mi (re, im) ;;
        Ok (upd ti (fun a => a <| a_aqc := qc |>) l, summ + (re * re + im * im)).

Definition arrays_all (l : list (atom N)) := forall b, In b l -> q_arrays b.
Lemma arrays_upd l i f : arrays_all l -> (forall a, q_arrays a -> q_arrays (f a)) -> arrays_all (upd i f l).
Proof.
  intros H Hf b Hb. apply In_nth_error in Hb as [j Hj]. rewrite nth_error_upd in Hj.
  destruct (nth_error l j) as [c|] eqn:E; [|destruct (j =? i)%nat; discriminate].
  assert (q_arrays c) by (apply H; eapply nth_error_In; eauto).
  destruct (j =? i)%nat; simpl in Hj; inversion Hj; subst; auto.
Qed.

Lemma aq_loop l : same_but_aq l l0 -> a_ready l0 -> arrays_all l -> nth_error l ti = Some a0 ->
  forall k, k <= Z.to_nat (2 * q + 1) ->
  let mis := zrange 0 (Z.of_nat k) in
  foldM body mis (l, nofZ 0) =
  Ok (upd ti (fun _ => a0 <| a_aqc := upd (Z.to_nat (q - 2))
                (set_row (map (fun mi => acomp q mi a0 bs) mis)) (a_aqc a0) |>) l,
      sumsq (map (fun mi => acomp q mi a0 bs) mis)).
Proof.
  intros Hs Hr Hall Ha. assert (q_arrays a0) as Hsh by (apply Hall; eapply nth_error_In; eauto).
  induction k as [|k IH]; intros Hk; cbv zeta.
  - rewrite zrange_nil by lia. cbn [map foldM]. f_equal. f_equal. symmetry.
    apply (upd_id (a := a0)); auto. replace (upd _ _ (a_aqc a0)) with (a_aqc a0); [now destruct a0|].
    symmetry. destruct (@nth_error_some _ (a_aqc a0) (Z.to_nat (q - 2))) as [r Er].
    { destruct Hsh as (_ & _ & _ & _ & -> & _). lia. }
    apply (upd_id (a := r)); auto.
  - replace (Z.of_nat (S k))%Z with (Z.of_nat k + 1)%Z by lia.
    rewrite zrange_snoc by lia.
    assert (forall xs ys st, foldM body (xs ++ ys) st = (st' <- foldM body xs st ;; foldM body ys st')) as Happ.
    { clear. induction xs as [|x xs IH]; intros ys st; cbn [app foldM]; auto.
      destruct (body st x); cbn [bind]; auto. }
    rewrite Happ, IH by lia. clear IH Happ. cbn [bind foldM]. unfold body at 1.
    set (mis := zrange 0 (Z.of_nat k)). set (mi := (Z.of_nat k)%Z).
    set (vals := map _ mis). set (a1 := a0 <| a_aqc := _ |>).
    assert (nth_error (upd ti (fun _ => a1) l) ti = Some a1) as E1.
    { rewrite nth_error_upd, Nat.eqb_refl, Ha. reflexivity. }
    rewrite (get_Ok E1). cbn [bind].
    assert (exists b, In b l0 /\ but_aq b = but_aq a0) as (b & Hb & Eb).
    { pose proof (same_but_aq_nth ti Hs) as E. rewrite Ha in E.
      destruct (nth_error l0 ti) as [b|] eqn:E'; [|discriminate]. apply Some_inj in E.
      exists b. split; auto. eapply nth_error_In; eauto. }
    assert (but_aq a1 = but_aq a0) as Ea1 by reflexivity.
    assert (length vals = k) as Hv by (unfold vals, mis; rewrite map_length, length_zr; lia).
    assert (length (a_aqc a1) = 11) as L11.
    { unfold a1. cbn. rewrite length_upd. apply Hsh. }
    assert (Forall (fun r => length r = 25) (a_aqc a1)) as L25.
    { unfold a1. cbn. apply Forall_upd; [apply Hsh|]. intros r Er. rewrite length_set_row; auto. rewrite Er. lia. }
    assert (q_arrays a1) as Hsh1.
    { destruct Hsh as (? & ? & ? & ? & ? & ?). unfold q_arrays. split; [|split; [|split; [|split; [|split]]]]; auto. }
    assert (same_but_aq (upd ti (fun _ => a1) l) l0) as Hs1.
    { rewrite (@upd_ext _ (fun _ => a1) (fun a => a <| a_aqc := a_aqc a1 |>) l ti a0 Ha eq_refl).
      unfold same_but_aq. now rewrite map_upd_id. }
    rewrite aqlm_atom_eq; auto; [|unfold mi; lia| |].
    2:{ intros e He. rewrite length_upd, (same_but_aq_length Hs).
        unfold a_ready in Hr. rewrite Forall_forall in Hr. apply (proj2 (Hr b Hb)).
        rewrite (but_aq_nbrs Eb). exact He. }
    2:{ apply (@arrays_upd l ti (fun _ => a1)); auto. }
    rewrite (@acomp_same q mi a1 a0 _ bs); [|reflexivity|].
    2:{ unfold bs. replace (counted (upd ti (fun _ => a1) l) a1) with (counted l0 a0).
        - now apply nb_atoms_same.
        - transitivity (counted l0 a1); [symmetry; apply counted_same_aq; auto; reflexivity|symmetry; now apply counted_same_aq]. }
    cbn [bind]. destruct (acomp q mi a0 bs) as [re im] eqn:Ec.
    rewrite (put2_Ok (re, im) L11 L25) by (try lia; unfold mi; lia).
    cbn [bind]. f_equal. f_equal.
    + rewrite upd_upd. apply (@upd_ext _ _ _ l ti a0 Ha). unfold a1. cbn.
      rewrite upd_upd.
      match goal with |- _ <| a_aqc := ?X |> = _ => change (a0 <| a_aqc := X |> = a0 <| a_aqc :=
         upd (Z.to_nat (q - 2)) (set_row (map (fun mi => acomp q mi a0 bs) (mis ++ [mi]))) (a_aqc a0) |>) end.
      apply (f_equal (fun x => a0 <| a_aqc := x |>)). destruct (@nth_error_some _ (a_aqc a0) (Z.to_nat (q - 2))) as [r Er].
      { destruct Hsh as (_ & _ & _ & _ & -> & _). lia. }
      assert (length r = 25) as Hrl.
      { destruct Hsh as (_ & _ & _ & _ & _ & F). rewrite Forall_forall in F. apply F. eapply nth_error_In; eauto. }
      apply (@upd_ext _ _ _ _ _ r Er).
      replace (Z.to_nat mi) with (length vals) by (unfold mi; lia).
      rewrite upd_set_row by lia. f_equal. rewrite map_app. cbn [map]. unfold vals. now rewrite Ec.
    + rewrite map_app. cbn [map]. rewrite Ec. unfold sumsq. rewrite fold_left_app. reflexivity.
Qed.
End OneAQ.

Lemma but_aq_new l0 q a : but_aq (aq_new l0 q a) = but_aq a.
Proof. reflexivity. Qed.
Lemma q_arrays_anew l0 q a : (2 <= q <= 12)%Z -> q_arrays a -> q_arrays (aq_new l0 q a).
Proof.
  intros Hq (H1 & H2 & H3 & H4 & H5 & H6). unfold aq_new, q_arrays. cbn.
  rewrite !length_upd. repeat split; auto. apply Forall_upd; auto.
  intros r Hr. rewrite length_set_row; auto. unfold acomps. rewrite map_length, length_zr. lia.
Qed.
Lemma aq_atom_eq l0 ti l q a : (2 <= q <= 12)%Z -> same_but_aq l l0 -> a_ready l0 -> arrays_all l ->
  nth_error l ti = Some a ->
  aq_atom ti l q = Ok (upd ti (aq_new l0 q) l).
Proof.
  intros Hq Hs Hr Hall Ha. unfold aq_atom.
  pose proof (@aq_loop l0 ti q Hq a l Hs Hr Hall Ha (Z.to_nat (2 * q + 1)) (le_n _)) as E.
  cbv zeta in E. replace (Z.of_nat (Z.to_nat (2 * q + 1)))%Z with (2 * q + 1)%Z in E by lia.
  rewrite E. clear E. cbn [bind].
  set (a1 := a <| a_aqc := _ |>).
  assert (nth_error (upd ti (fun _ => a1) l) ti = Some a1) as E1.
  { rewrite nth_error_upd, Nat.eqb_refl, Ha. reflexivity. }
  rewrite (get_Ok E1). cbn [bind]. rewrite zput_Ok.
  2:{ unfold a1; cbn. assert (q_arrays a) as (_ & -> & _) by (apply Hall; eapply nth_error_In; eauto). lia. }
  cbn [bind]. f_equal. rewrite upd_upd. apply (@upd_ext _ _ _ l ti a Ha). reflexivity.
Qed.
Lemma but_aq_all l0 qs : forall a, but_aq (aq_all l0 qs a) = but_aq a.
Proof. induction qs as [|q qs IH]; intros a; simpl; auto. now rewrite IH. Qed.
Lemma q_arrays_aall l0 qs : forall a, Forall (fun q => 2 <= q <= 12)%Z qs -> q_arrays a ->
  q_arrays (aq_all l0 qs a).
Proof.
  induction qs as [|q qs IH]; intros a H Ha; simpl; auto. inversion H; subst.
  apply IH; auto. now apply q_arrays_anew.
Qed.
Lemma aq_atoms_eq l0 ti qs : Forall (fun q => 2 <= q <= 12)%Z qs -> a_ready l0 ->
  forall l a, same_but_aq l l0 -> arrays_all l -> nth_error l ti = Some a ->
  foldM (aq_atom ti) qs l = Ok (upd ti (aq_all l0 qs) l).
Proof.
  intros H Hr. induction H as [|q qs Hq _ IH]; intros l a Hs Hall Ha; cbn [foldM].
  - f_equal. symmetry. now apply (upd_id (a := a)).
  - rewrite (aq_atom_eq Hq Hs Hr Hall Ha). cbn [bind].
    rewrite (IH _ (aq_new l0 q a)).
    + f_equal. rewrite upd_upd. reflexivity.
    + unfold same_but_aq. now rewrite map_upd_id.
    + apply arrays_upd; auto. intros; now apply q_arrays_anew.
    + now rewrite nth_error_upd, Nat.eqb_refl, Ha.
Qed.

Theorem calculate_aq_eq s qs : q_ready s -> Forall (fun q => 2 <= q <= 12)%Z qs ->
  calculate_aq s qs = Ok (s <| s_atoms := map (aq_all (s_atoms s) qs) (s_atoms s) |>).
Proof.
  intros [Hn Hr] Hq. unfold calculate_aq. rewrite Hn, Nat2Z.id.
  assert (a_ready (s_atoms s)) as HR.
  { unfold a_ready, ready. apply Forall_forall. intros a Ha. now apply Hr. }
  rewrite (@loop_map_first _ (aq_all (s_atoms s) qs)); [|..|lia].
  - cbn [bind]. now rewrite map_first_all.
  - intros k Hk. destruct (@nth_error_some _ (s_atoms s) k Hk) as [a Ea].
    apply (@aq_atoms_eq _ _ _ Hq HR _ a).
    + unfold same_but_aq. apply map_map_first. intros; apply but_aq_all.
    + intros b Hb. unfold map_first in Hb. apply in_app_or in Hb as [Hb|Hb].
      * apply in_map_iff in Hb as (c & <- & Hc). apply q_arrays_aall; auto. apply Hr.
        rewrite <- (firstn_skipn k (s_atoms s)). apply in_or_app; auto.
      * apply Hr. rewrite <- (firstn_skipn k (s_atoms s)). apply in_or_app; auto.
    + rewrite map_first_nth by lia. rewrite Nat.ltb_irrefl. exact Ea.
Qed.

(** ** What is stored at the end *)
Lemma nth_error_upd_eq {A} (f : A -> A) (l : list A) i : nth_error (upd i f l) i = option_map f (nth_error l i).
Proof. rewrite nth_error_upd, Nat.eqb_refl. reflexivity. Qed.

Lemma counted_all vor l0 qs a : counted l0 (q_all vor l0 qs a) = counted l0 a.
Proof. apply counted_same; [reflexivity|apply but_q_all]. Qed.

Lemma q_all_q vor l0 qs q : Forall (fun q => 2 <= q <= 12)%Z qs -> In q qs -> forall a, q_arrays a ->
  nth_error (a_q (q_all vor l0 qs a)) (Z.to_nat (q - 2)) = Some (qval vor q (counted l0 a)) /\
  exists row, nth_error (a_qc (q_all vor l0 qs a)) (Z.to_nat (q - 2)) = Some row /\
     firstn (Z.to_nat (2 * q + 1)) row = comps vor q (counted l0 a).
Proof.
  intros HF. pattern qs. revert HF. induction qs as [|p qs IH] using rev_ind; intros HF Hin a Ha; [destruct Hin|].
  apply Forall_app in HF as [HF Hp]. inversion Hp as [|? ? Hp' _]; subst.
  assert (q_all vor l0 (qs ++ [p]) a = q_new vor l0 p (q_all vor l0 qs a)) as E.
  { unfold q_all. now rewrite fold_left_app. }
  assert (q_arrays (q_all vor l0 qs a)) as Ha' by (apply q_arrays_all; auto).
  rewrite E. unfold q_new. rewrite counted_all. cbn.
  destruct (Z.eq_dec q p) as [->|Hne].
  - rewrite !nth_error_upd_eq. destruct Ha' as (H1 & _ & H3 & H4 & _).
    destruct (@nth_error_some _ (a_q (q_all vor l0 qs a)) (Z.to_nat (p - 2))) as [x Ex]; [lia|].
    destruct (@nth_error_some _ (a_qc (q_all vor l0 qs a)) (Z.to_nat (p - 2))) as [r Er]; [lia|].
    rewrite Ex, Er. cbn. split; auto. eexists; split; eauto.
    unfold set_row. assert (length (comps vor p (counted l0 a)) = Z.to_nat (2 * p + 1)) as Hl.
    { unfold comps. rewrite map_length, length_zr. lia. }
    match goal with |- firstn ?n _ = _ => replace n with (length (comps vor p (counted l0 a))) by (rewrite Hl; reflexivity) end.
    rewrite firstn_app, Nat.sub_diag, firstn_all. cbn. now rewrite app_nil_r.
  - rewrite !nth_error_upd.
    assert (2 <= q <= 12)%Z as Hq'.
    { apply in_app_or in Hin as [Hin|[->|[]]]; [|lia]. rewrite Forall_forall in HF. now apply HF. }
    destruct (Nat.eqb_spec (Z.to_nat (q - 2)) (Z.to_nat (p - 2))); [lia|].
    apply IH; auto. apply in_app_or in Hin as [Hin|[->|[]]]; auto. congruence.
Qed.

Lemma q_all_other vor l0 qs k : (forall q, In q qs -> Z.to_nat (q - 2) <> k) -> forall a,
  nth_error (a_q (q_all vor l0 qs a)) k = nth_error (a_q a) k /\
  nth_error (a_qc (q_all vor l0 qs a)) k = nth_error (a_qc a) k.
Proof.
  induction qs as [|p qs IH]; intros H a; auto. cbn [q_all fold_left].
  destruct (IH (fun q Hq => H q (or_intror Hq)) (q_new vor l0 p a)) as [E1 E2].
  unfold q_all in *. rewrite E1, E2. unfold q_new. cbn. rewrite !nth_error_upd.
  destruct (Nat.eqb_spec k (Z.to_nat (p - 2))) as [->|]; auto.
  exfalso. apply (H p); simpl; auto.
Qed.

Lemma zcomp_all vor l0 qs q mi : Forall (fun q => 2 <= q <= 12)%Z qs -> In q qs -> (0 <= mi <= 2 * q)%Z ->
  forall a, q_arrays a -> zcomp (q_all vor l0 qs a) q mi = comp vor q (mi - q) (counted l0 a).
Proof.
  intros HF Hin Hm a Ha. destruct (@q_all_q vor l0 qs q HF Hin a Ha) as (_ & row & Er & Efn).
  assert (2 <= q <= 12)%Z as Hq by (rewrite Forall_forall in HF; now apply HF).
  unfold zcomp, zrow. rewrite Er.
  assert (nth_error (firstn (Z.to_nat (2 * q + 1)) row) (Z.to_nat mi) = nth_error row (Z.to_nat mi)) as Ex.
  { assert (length (firstn (Z.to_nat (2 * q + 1)) row) = Z.to_nat (2 * q + 1)) as Hl.
    { rewrite Efn. unfold comps. rewrite map_length, length_zr. lia. }
    rewrite <- (firstn_skipn (Z.to_nat (2 * q + 1)) row) at 2. rewrite nth_error_app1; auto. lia. }
  rewrite <- Ex, Efn. unfold comps. rewrite nth_error_map. unfold zrange. rewrite nth_error_map.
  assert (nth_error (seq 0 (Z.to_nat (q + 1 - - q))) (Z.to_nat mi) = Some (Z.to_nat mi)) as ->.
  { rewrite nth_error_nth' with (d := 0) by (rewrite seq_length; lia). rewrite seq_nth by lia. reflexivity. }
  cbn. f_equal. lia.
Qed.

Lemma aq_all_q l0 qs q : Forall (fun q => 2 <= q <= 12)%Z qs -> In q qs -> forall a, q_arrays a ->
  let bs := nb_atoms l0 (counted l0 a) in
  nth_error (a_aq (aq_all l0 qs a)) (Z.to_nat (q - 2)) = Some (aqval q a bs).
Proof.
  intros HF. pattern qs. revert HF. induction qs as [|p qs IH] using rev_ind; intros HF Hin a Ha; [destruct Hin|].
  apply Forall_app in HF as [HF Hp]. inversion Hp as [|? ? Hp' _]; subst. cbv zeta.
  assert (aq_all l0 (qs ++ [p]) a = aq_new l0 p (aq_all l0 qs a)) as E.
  { unfold aq_all. now rewrite fold_left_app. }
  assert (q_arrays (aq_all l0 qs a)) as Ha' by (apply q_arrays_aall; auto).
  rewrite E. unfold aq_new. rewrite (@counted_same_aq l0 l0 _ a eq_refl (but_aq_all l0 qs a)). cbn.
  destruct (Z.eq_dec q p) as [->|Hne].
  - rewrite !nth_error_upd_eq. destruct Ha' as (_ & H1 & _).
    destruct (@nth_error_some _ (a_aq (aq_all l0 qs a)) (Z.to_nat (p - 2))) as [x Ex]; [lia|].
    rewrite Ex. cbn. f_equal. unfold aqval. f_equal. f_equal. f_equal. unfold acomps. apply map_ext.
    intros mi. apply acomp_same; [apply but_aq_qc, but_aq_all|].
    generalize (nb_atoms l0 (counted l0 a)). clear. induction l; constructor; auto.
  - rewrite !nth_error_upd.
    assert (2 <= q <= 12)%Z as Hq'.
    { apply in_app_or in Hin as [Hin|[->|[]]]; [|lia]. rewrite Forall_forall in HF. now apply HF. }
    destruct (Nat.eqb_spec (Z.to_nat (q - 2)) (Z.to_nat (p - 2))); [lia|].
    apply IH; auto. apply in_app_or in Hin as [Hin|[->|[]]]; auto. congruence.
Qed.
End Run.
