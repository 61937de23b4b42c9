(** POSCAR files: rounding to k decimals, the lines, the groups. *)
From Coq Require Import Ascii String Reals Lra Lia Sorted Permutation.
From Coq.Floats Require Import SpecFloat.
From Flocq Require Import Core BinarySingleNaN.
From Verif Require Import Base Num NumR NumF Types M_Geometry M_Container M_Steinhardt M_Analysis M_Text M_Lammps M_Formats.
From Verif Require Import S_Analysis S_Lammps S_Formats P_Text P_Neighbors P_Centro P_Analysis P_Lammps P_Round P_Traj.
Set Implicit Arguments.
Unset Strict Implicit.
Close Scope R_scope.
Close Scope Z_scope.

(** ** Decimals *)
Lemma pow10_pos k : (1 <= IZR (10 ^ Z.of_nat k))%R.
Proof. apply IZR_le. assert (0 < 10 ^ Z.of_nat k)%Z; [apply Z.pow_pos_nonneg; lia|lia]. Qed.
Lemma R_decimals k x : 0 < k -> decimals k x (tn_dec R_text (tn_fix R_text k x)).
Proof.
  intros Hk. cbn [R_text tn_fix tn_dec]. destruct (Z.leb_spec 0 (- Z.of_nat k)) as [L|_]; [lia|]. rewrite Z.opp_involutive.
  pose proof (pow10_pos k) as HP. unfold decimals. set (p := IZR (10 ^ Z.of_nat k)) in *.
  pose proof (R_round_near (Rabs x * p)) as H. set (m := R_round (Rabs x * p)) in *. apply Rabs_le_inv in H.
  assert (G : forall y, ((y * p - x * p) <= 1/2)%R -> (-(1/2) <= (y * p - x * p))%R -> (Rabs (y - x) * p <= 1/2)%R).
  { intros y A B. rewrite <- (Rabs_pos_eq p) at 1 by lra. rewrite <- Rabs_mult. apply Rabs_le. rewrite Rmult_minus_distr_r. lra. }
  assert (D : (IZR m / p * p = IZR m)%R) by (field; lra).
  destruct (Rltb x 0) eqn:E.
  - apply Rltb_true in E. rewrite Rabs_left in H by exact E. split; [|exists (- m)%Z; rewrite opp_IZR; unfold Rdiv; ring].
    apply G; rewrite Ropp_mult_distr_l_reverse, D; lra.
  - apply Rltb_false in E. rewrite Rabs_pos_eq in H by exact E. split; [|exists m; reflexivity].
    apply G; rewrite D; lra.
Qed.
Lemma sf_decimals k x : 0 < k -> decimals_F k x (sf_dec (sf_fix k x)).
Proof.
  intros Hk. destruct x as [s|s| |s m e]; try reflexivity. set (x := S754_finite s m e). intros Hb.
  destruct (sf_fix_near k s m e) as (v & Ef & Ev). fold x in Ef, Ev. rewrite Ef. pose proof (pow10_pos k) as HP.
  set (p := IZR (10 ^ Z.of_nat k)) in *.
  assert (Hs : SF2R radix2 x = cond_Ropp s (Rabs (SF2R radix2 x))).
  { unfold x. cbn [SF2R]. rewrite F2R_cond_Zopp, abs_cond_Ropp. rewrite (Rabs_pos_eq (F2R _)); [reflexivity|]. apply F2R_ge_0. discriminate. }
  assert (V : ZnearestE (SF2R radix2 x * p) = cond_Zopp s v).
  { rewrite Hs. destruct s; cbn [cond_Ropp cond_Zopp]; [|symmetry; exact Ev]. rewrite Ropp_mult_distr_l_reverse, Znearest_opp, Ev.
    f_equal. unfold Znearest. destruct (Rcompare _ _); try reflexivity. rewrite Z.even_opp, Z.even_add. destruct (Z.even _); reflexivity. }
  assert (V0 : (0 <= v)%Z).
  { rewrite Ev. assert (H0 : (0 <= Rabs (SF2R radix2 x) * p)%R) by (apply Rmult_le_pos; [apply Rabs_pos|lra]).
    assert (H1 := Znearest_ge_floor (fun t => negb (Z.even t)) (Rabs (SF2R radix2 x) * p)). assert (H2 := Zfloor_lub 0 _ H0). lia. }
  rewrite V. change (round radix2 (FLT_exp (-1074) 53) ZnearestE) with rnd. destruct v as [|q|q]; [| |lia].
  - split; [reflexivity|]. cbn [sf_dec]. rewrite cond_Zopp_0. unfold Rdiv. rewrite Rmult_0_l. unfold rnd. rewrite round_0 by typeclasses eauto. reflexivity.
  - destruct (sf_dec_near s q (Z.of_nat k)) as [H1 H2]; [lia| |].
    + fold p. apply Rle_lt_trans with (bpow radix2 1001); [|apply bpow_lt; lia].
      apply abs_round_le_generic.
      * apply fexp_correct. reflexivity.
      * typeclasses eauto.
      * apply generic_format_bpow. unfold SpecFloat.fexp. apply Z.leb_le. reflexivity.
      * rewrite Ev. assert (Hn := Znearest_half (fun t => negb (Z.even t)) (Rabs (SF2R radix2 x) * p)). cbv beta in Hn.
        set (w := IZR (ZnearestE _)) in *. assert (Hx := Rabs_pos (SF2R radix2 x)). apply Rabs_le_inv in Hn.
        assert (W : (0 <= w)%R). { unfold w. apply IZR_le. rewrite Ev in V0. exact V0. }
        rewrite Rabs_pos_eq by (apply Rmult_le_pos; [exact W|apply Rlt_le, Rinv_0_lt_compat; lra]).
        assert (B1 : (1 <= bpow radix2 1000)%R) by (apply (bpow_le radix2 0); lia).
        change 1001%Z with (1000 + 1)%Z. rewrite bpow_plus_1. change (IZR radix2) with 2%R.
        apply Rmult_le_reg_r with p; [lra|]. replace (w / p * p)%R with w by (field; lra). nra.
    + split; [exact H2|]. rewrite H1. f_equal. fold p. destruct s; cbn [cond_Ropp cond_Zopp]; [|reflexivity].
      change (Zneg q) with (- Zpos q)%Z. rewrite opp_IZR. unfold Rdiv. ring.
Qed.

(** ** Groups *)
Section Groups.
Variable N : num.
Implicit Types l : list (atom N).
Lemma has_type_eq t : (fun a : atom N => Z.eqb (a_type a) t) = has_type t.
Proof. reflexivity. Qed.
Lemma filter_filter {A} (f g : A -> bool) k1 : filter f (filter g k1) = filter (fun a => g a && f a) k1.
Proof. induction k1 as [|a k1 IH]; [reflexivity|]. cbn [filter]. destruct (g a) eqn:E; cbn [filter andb]; [destruct (f a)|]; rewrite IH; reflexivity. Qed.
Lemma filter_ext' {A} (f g : A -> bool) k1 : (forall a, In a k1 -> f a = g a) -> filter f k1 = filter g k1.
Proof. induction k1 as [|a k1 IH]; intros H; [reflexivity|]. cbn [filter]. rewrite (H a (or_introl eq_refl)), IH; [reflexivity|]. intros b Hb. apply H. right. exact Hb. Qed.
Lemma filter_split {A} (f : A -> bool) k1 : Permutation (filter f k1 ++ filter (fun a => negb (f a)) k1) k1.
Proof.
  induction k1 as [|a k1 IH]; [constructor|]. cbn [filter]. destruct (f a); cbn [negb app].
  - constructor. exact IH.
  - eapply perm_trans; [|apply perm_skip; exact IH]. symmetry. apply Permutation_middle.
Qed.
Lemma groups_perm : forall ts l, NoDup ts -> (forall a, In a l -> In (a_type a) ts) ->
  Permutation (concat (atom_groups l ts)) l.
Proof.
  induction ts as [|t ts IH]; intros l ND H.
  - destruct l as [|a l]; [constructor|]. destruct (H a (or_introl eq_refl)).
  - inversion_clear ND as [|? ? N1 N2]. unfold atom_groups. cbn [map concat]. rewrite has_type_eq.
    eapply perm_trans; [|apply (filter_split (has_type t))]. apply Permutation_app_head.
    eapply perm_trans; [|apply IH; [exact N2|]].
    + apply Permutation_refl'. f_equal. unfold atom_groups. apply map_ext_in. intros u Hu. rewrite filter_filter. apply filter_ext'. intros a _.
      unfold has_type. destruct (Z.eqb_spec (a_type a) u) as [E|E]; [|rewrite andb_false_r; reflexivity].
      destruct (Z.eqb_spec (a_type a) t) as [F|F]; [|reflexivity]. exfalso. apply N1. congruence.
    + intros a Ha. apply filter_In in Ha as [Ha E]. specialize (H a Ha). destruct H as [H|H]; [|exact H].
      unfold has_type in E. rewrite H, Z.eqb_refl in E. discriminate.
Qed.
Lemma groups_filter : forall ts l t, NoDup ts -> (forall a, In a l -> In (a_type a) ts) ->
  filter (has_type t) (concat (atom_groups l ts)) = filter (has_type t) l.
Proof.
  intros ts l t ND H.
  assert (G : forall us, NoDup us -> filter (has_type t) (concat (atom_groups l us)) = if existsb (Z.eqb t) us then filter (has_type t) l else []).
  { induction us as [|u us IH]; intros N1; [reflexivity|]. inversion_clear N1 as [|? ? N2 N3]. unfold atom_groups. cbn [map concat existsb].
    rewrite filter_app, has_type_eq. fold (atom_groups l us). rewrite (IH N3), filter_filter. destruct (Z.eqb_spec t u) as [->|E]; cbn [orb].
    - replace (existsb (Z.eqb u) us) with false.
      + rewrite app_nil_r. apply filter_ext'. intros a _. apply andb_diag.
      + symmetry. apply not_true_is_false. intros K. apply existsb_exists in K as (x & Hx & Ex). apply Z.eqb_eq in Ex. subst x. contradiction.
    - replace (filter _ l) with (@nil (atom N)); [reflexivity|]. symmetry. clear - E. induction l as [|a l IH]; [reflexivity|]. cbn [filter]. unfold has_type at 1 2.
      destruct (Z.eqb_spec (a_type a) u); cbn [andb]; [|exact IH]. destruct (Z.eqb_spec (a_type a) t); [congruence|exact IH]. }
  rewrite (G ts ND). destruct (existsb (Z.eqb t) ts) eqn:E; [reflexivity|]. symmetry.
  destruct (filter (has_type t) l) as [|a r] eqn:F; [reflexivity|]. exfalso.
  assert (K : In a (filter (has_type t) l)) by (rewrite F; left; reflexivity). apply filter_In in K as [K1 K2].
  unfold has_type in K2. apply Z.eqb_eq in K2. specialize (H a K1). rewrite K2 in H.
  assert (X : existsb (Z.eqb t) ts = true) by (apply existsb_exists; exists t; split; [exact H|apply Z.eqb_refl]). congruence.
Qed.
Lemma sorted_app {A} (R : A -> A -> Prop) p1 p2 : StronglySorted R p1 -> StronglySorted R p2 -> (forall a b, In a p1 -> In b p2 -> R a b) -> StronglySorted R (p1 ++ p2).
Proof.
  induction p1 as [|a p1 IH]; intros H1 H2 H; [exact H2|]. apply StronglySorted_inv in H1 as [H1 H3]. cbn [app]. constructor.
  - apply IH; auto. intros x y Hx Hy. apply H; [right; exact Hx|exact Hy].
  - apply Forall_app. split; [exact H3|]. apply Forall_forall. intros y Hy. apply H; [left; reflexivity|exact Hy].
Qed.
Lemma groups_sorted : forall ts l, StronglySorted Z.lt ts -> StronglySorted (fun a b : atom N => (a_type a <= a_type b)%Z) (concat (atom_groups l ts)).
Proof.
  induction ts as [|t ts IH]; intros l H; [constructor|]. apply StronglySorted_inv in H as [H1 H2]. unfold atom_groups. cbn [map concat]. apply sorted_app.
  - assert (K : forall a, In a (filter (fun a => Z.eqb (a_type a) t) l) -> a_type a = t) by (intros a Ha; apply filter_In in Ha as [_ Ha]; apply Z.eqb_eq, Ha).
    revert K. generalize (filter (fun a => Z.eqb (a_type a) t) l). intros g. induction g as [|a g IHg]; intros K; constructor.
    + apply IHg. intros b Hb. apply K. right. exact Hb.
    + apply Forall_forall. intros b Hb. rewrite (K a (or_introl eq_refl)), (K b (or_intror Hb)). lia.
  - apply (IH l H1).
  - intros a b Ha Hb. apply filter_In in Ha as [_ Ha]. apply Z.eqb_eq in Ha. apply in_concat in Hb as (g & Hg & Hb).
    apply in_map_iff in Hg as (u & <- & Hu). apply filter_In in Hb as [_ Hb]. apply Z.eqb_eq in Hb.
    rewrite Forall_forall in H2. specialize (H2 u Hu). lia.
Qed.
Lemma sorted_NoDup ts : StronglySorted Z.lt ts -> NoDup ts.
Proof.
  induction ts as [|t ts IH]; intros H; constructor; apply StronglySorted_inv in H as [H1 H2]; [|auto].
  intros K. rewrite Forall_forall in H2. specialize (H2 t K). lia.
Qed.
Lemma filter_types t l : List.length (filter (Z.eqb t) (map (@a_type N) l)) = List.length (filter (has_type t) l).
Proof.
  induction l as [|a l IH]; [reflexivity|]. cbn [map filter]. unfold has_type at 1. rewrite (Z.eqb_sym (a_type a) t). destruct (Z.eqb t (a_type a)); cbn [List.length]; rewrite IH; reflexivity.
Qed.
Lemma unique_groups l (u := np_unique (map (@a_type N) l)) :
  by_type l (concat (atom_groups l (map fst u))) /\ type_counts l (map snd u).
Proof.
  destruct (unique_spec (map (@a_type N) l)) as [H1 H2]. fold u in H1, H2. unfold sorted_keys in H1.
  assert (K : forall t, In t (map fst u) <-> In t (map (@a_type N) l)) by (intros t; apply unique_keys).
  assert (KI : forall a, In a l -> In (a_type a) (map fst u)) by (intros a Ha; apply K, in_map, Ha).
  assert (ND := sorted_NoDup H1). split; [split; [|split]|].
  - apply groups_perm; assumption.
  - apply groups_sorted. exact H1.
  - intros t. apply groups_filter; assumption.
  - exists (map fst u). split; [exact H1|]. split.
    + intros t. rewrite K, in_map_iff. split; intros (a & A & B); exists a; auto.
    + rewrite map_map. apply map_ext_in. intros [t c] Hc. apply H2 in Hc as [-> _]. unfold number_of. cbn [fst snd]. f_equal. apply filter_types.
Qed.
End Groups.

(** ** Lines *)
Section Lines.
Variable N : num.
Variable T : textnum N.
Hypothesis HT : forall x, dec_ok 14 (tn_fix T 14 x).
Variable near : N -> N -> Prop.
Hypothesis HN : forall x, near x (tn_dec T (tn_fix T 14 x)).
Definition spaces (w : text) : Prop := Forall (fun c => c = " "%char) w.
Lemma words_spaces w r : spaces w -> words (w ++ r) = words r.
Proof. intros H. induction H as [|c w -> H IH]; [reflexivity|]. cbn [app]. rewrite words_space by reflexivity. exact IH. Qed.
Lemma f14_word x : word (f14 T x).
Proof. apply parse_show_dec, HT. Qed.
Lemma vec_line_join indent (v : v3 N) : vec_line T indent v = indent ++ join (tx " ") [f14 T (vx v); f14 T (vy v); f14 T (vz v)] ++ [nl].
Proof. unfold vec_line, sp. cbn [join]. rewrite <- !app_assoc. reflexivity. Qed.
Lemma vec_words (v : v3 N) : Forall word [f14 T (vx v); f14 T (vy v); f14 T (vz v)].
Proof. repeat (apply Forall_cons; [apply f14_word|]). constructor. Qed.
Lemma is_line_spaces w l : spaces w -> is_line l -> is_line (w ++ l).
Proof.
  intros H (b & -> & Hb). exists (w ++ b). split; [apply app_assoc|]. intros I. apply in_app_iff in I as [I|I]; [|auto].
  unfold spaces in H. rewrite Forall_forall in H. apply H in I. discriminate.
Qed.
Lemma vec_line_line indent (v : v3 N) : spaces indent -> is_line (vec_line T indent v).
Proof. intros H. rewrite vec_line_join. apply is_line_spaces; [exact H|]. apply clean_join, vec_words. Qed.
Lemma vec_line_reads indent (v : v3 N) : spaces indent -> reads_vector T near v (vec_line T indent v).
Proof.
  intros H. rewrite vec_line_join. unfold reads_vector.
  rewrite words_spaces by exact H. rewrite words_join; [|apply vec_words|discriminate|reflexivity].
  assert (P : forall x, parse_float T (f14 T x) = Ok (tn_dec T (tn_fix T 14 x))).
  { intros x. unfold parse_float, f14, show_float. destruct (parse_show_dec 14 _ (HT x)) as [_ ->]. reflexivity. }
  cbn [words app mapM]. rewrite !P. cbn [bind]. do 3 eexists. split; [reflexivity|]. split; [|split]; apply HN.
Qed.
(** The line of the counts: every number is followed by three blanks. *)
Definition counts_line (cs : list Z) : text := tx "  " ++ concat (map (fun c => show_int c ++ tx "   ") cs) ++ [nl].
Lemma counts_words cs : words (counts_line cs) = map show_int cs.
Proof.
  unfold counts_line. rewrite words_spaces by (repeat constructor). induction cs as [|c cs IH]; [reflexivity|]. cbn [map concat].
  rewrite <- !app_assoc. change (tx "   ") with (" "%char :: tx "  "). cbn [app]. rewrite words_word; [|apply show_int_word|reflexivity].
  f_equal. change (" "%char :: " "%char :: ?r) with (tx "  " ++ r). rewrite words_spaces by (repeat constructor). exact IH.
Qed.
Lemma counts_read cs : mapM parse_int (words (counts_line cs)) = Ok cs.
Proof. rewrite counts_words. induction cs as [|c cs IH]; [reflexivity|]. cbn [map mapM]. rewrite parse_show_int. cbn [bind]. rewrite IH. reflexivity. Qed.
Lemma counts_is_line cs : is_line (counts_line cs).
Proof.
  exists (tx "  " ++ concat (map (fun c => show_int c ++ tx "   ") cs)). split; [unfold counts_line; apply app_assoc|]. intros H.
  apply in_app_iff in H as [H|H]; [cbn in H; intuition discriminate|]. apply in_concat in H as (w & Hw & H). apply in_map_iff in Hw as (c & <- & _).
  apply in_app_iff in H as [H|H]; [|cbn in H; intuition discriminate]. destruct (show_int_word c) as [_ K]. apply K in H. discriminate.
Qed.
Lemma groups_concat {A} (f : A -> text) (ll : list (list A)) :
  concat (map (fun g => concat (map f g)) ll) = concat (map f (concat ll)).
Proof. induction ll as [|l ll IH]; [reflexivity|]. cbn [map concat]. rewrite IH, map_app, concat_app. reflexivity. Qed.
Lemma poscar s comments atoms : get_atoms s = Ok atoms -> ~ In nl comments ->
  exists content b0 b1 b2 counts coords cs out, write_poscar T s comments = Ok content /\
    file_lines content ([comments ++ [nl]; tx "   1.00000000000000" ++ [nl]; b0; b1; b2; counts; tx "Cartesian" ++ [nl]] ++ coords) /\
    reads_vector T near (r0 (box_get s)) b0 /\ reads_vector T near (r1 (box_get s)) b1 /\ reads_vector T near (r2 (box_get s)) b2 /\
    mapM parse_int (words counts) = Ok cs /\ type_counts atoms cs /\
    by_type atoms out /\ Forall2 (fun a l => reads_vector T near (a_pos a) l) out coords.
Proof.
  intros HG HC. destruct (unique_groups atoms) as [U1 U2]. set (u := np_unique (map (@a_type N) atoms)) in *.
  set (out := concat (atom_groups atoms (map fst u))) in *. set (indent := tx "      ").
  assert (SI : spaces indent) by (repeat constructor). assert (S1 : spaces sp) by (repeat constructor).
  eexists _, (vec_line T indent (r0 (box_get s))), (vec_line T indent (r1 (box_get s))), (vec_line T indent (r2 (box_get s))), (counts_line (map snd u)), (map (fun a => vec_line T sp (a_pos a)) out), (map snd u), out.
  split; [unfold write_poscar; rewrite HG; cbn [bind]; reflexivity|]. split; [|split; [apply (vec_line_reads (r0 (box_get s)) SI)|]].
  - split.
    + fold u indent. rewrite concat_app. cbn [concat]. unfold counts_line. rewrite map_map, <- !app_assoc. do 9 f_equal. f_equal. f_equal.
      cbn [app]. f_equal. unfold out. apply groups_concat.
    + eexists _, []. rewrite app_nil_r. split; [reflexivity|]. split; [|left; reflexivity].
      assert (G : Forall is_line ([comments ++ [nl]; tx "   1.00000000000000" ++ [nl]; vec_line T indent (r0 (box_get s)); vec_line T indent (r1 (box_get s));
        vec_line T indent (r2 (box_get s)); counts_line (map snd u); tx "Cartesian" ++ [nl]] ++ map (fun a => vec_line T sp (a_pos a)) out)).
      { apply Forall_app. split.
        - repeat (apply Forall_cons; [first [apply vec_line_line; exact SI|apply counts_is_line|idtac]|]); [..|constructor].
          + exists comments. split; [reflexivity|exact HC].
          + eexists. split; [reflexivity|]. intros I. cbn in I. intuition discriminate.
          + eexists. split; [reflexivity|]. intros I. cbn in I. intuition discriminate.
        - rewrite Forall_map. apply Forall_forall. intros a _. apply vec_line_line, S1. }
      eapply Forall_impl; [|exact G]. intros l. apply one_line_is_line.
  - split; [apply (vec_line_reads (r1 (box_get s)) SI)|]. split; [apply (vec_line_reads (r2 (box_get s)) SI)|]. split; [apply counts_read|]. split; [exact U2|]. split; [exact U1|].
    clear - HT HN S1. induction out as [|a out IH]; constructor; [|exact IH]. apply vec_line_reads, S1.
Qed.
End Lines.
