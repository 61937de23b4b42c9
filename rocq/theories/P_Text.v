(** Lemmas on text: lines, words, numbers written and read back. *)
From Coq Require Import ZArith List Bool Ascii String Lia Reals Lra.
From Verif Require Import Base Num NumR M_Text.
Import ListNotations.
Close Scope R_scope.
Open Scope Z_scope.

Lemma teqb_true a b : teqb a b = true <-> a = b.
Proof. unfold teqb. destruct (list_eq_dec ascii_dec a b); split; congruence. Qed.
Lemma teqb_false a b : teqb a b = false <-> a <> b.
Proof. unfold teqb. destruct (list_eq_dec ascii_dec a b); split; congruence. Qed.
Lemma teqb_refl a : teqb a a = true.
Proof. apply teqb_true. reflexivity. Qed.

(** ** Lines *)
Definition is_line (l : text) : Prop := exists b, l = b ++ [nl] /\ ~ In nl b.
Lemma concat_lines s : concat (lines s) = s.
Proof.
  induction s as [|c s IH]; [reflexivity|]. cbn [lines]. destruct (Ascii.eqb_spec c nl) as [->|E].
  - cbn [concat app]. rewrite IH. reflexivity.
  - destruct (lines s) as [|l r]; cbn [concat app] in *; rewrite <- IH; reflexivity.
Qed.
Lemma lines_line l s : is_line l -> lines (l ++ s) = l :: lines s.
Proof.
  intros (b & -> & H). rewrite <- app_assoc. induction b as [|c b IH]; [reflexivity|].
  cbn [app lines]. destruct (Ascii.eqb_spec c nl) as [->|E]; [destruct H; left; reflexivity|].
  cbn [app] in IH. rewrite IH; [reflexivity|]. intros K. apply H. right. exact K.
Qed.
Lemma lines_concat ls s : Forall is_line ls -> lines (concat ls ++ s) = ls ++ lines s.
Proof.
  induction 1 as [|l ls Hl Hls IH]; [reflexivity|]. cbn [concat app]. rewrite <- app_assoc, lines_line, IH by exact Hl. reflexivity.
Qed.
(** The lines of a file: non-empty, and all but the last end with a newline. *)
Lemma lines_shape s : exists ls t, lines s = ls ++ t /\ Forall is_line ls /\ (t = [] \/ exists l, t = [l] /\ l <> [] /\ ~ In nl l).
Proof.
  induction s as [|c s (ls & t & E & H & K)]; [exists [], []; cbn; auto|]. cbn [lines].
  destruct (Ascii.eqb_spec c nl) as [->|D].
  - exists ([nl] :: ls), t. rewrite E. split; [reflexivity|]. split; [|exact K]. constructor; [|exact H]. exists []. cbn. auto.
  - rewrite E. destruct ls as [|l ls]; cbn [app].
    + destruct K as [->|(l & -> & N & I)].
      * exists [], [[c]]. split; [reflexivity|]. split; [constructor|]. right. exists [c]. cbn. repeat split; [discriminate|]. intros [?|[]]; contradiction.
      * exists [], [c :: l]. split; [reflexivity|]. split; [constructor|]. right. exists (c :: l). cbn. repeat split; [discriminate|]. intros [?|?]; contradiction.
    + inversion H as [|? ? Hl Hls]; subst. exists ((c :: l) :: ls), t. split; [reflexivity|]. split; [|exact K]. constructor; [|exact Hls].
      destruct Hl as (b & -> & Hb). exists (c :: b). cbn. split; [reflexivity|]. intros [?|?]; contradiction.
Qed.
Lemma univ_id s : ~ In cr s -> univ s = s.
Proof.
  induction s as [|c s IH]; [reflexivity|]. intros H. cbn [univ]. destruct (Ascii.eqb_spec c cr) as [->|E]; [destruct H; left; reflexivity|].
  rewrite IH; [reflexivity|]. intros K. apply H. right. exact K.
Qed.
Lemma univ_no_cr_n n s : (List.length s <= n)%nat -> ~ In cr (univ s).
Proof.
  revert s. induction n as [|n IH]; intros [|c s] L; cbn [List.length] in L; try lia; [cbn; tauto..|].
  cbn [univ]. destruct (Ascii.eqb_spec c cr) as [->|E].
  - intros [K|K]; [discriminate|]. destruct s as [|d s']; [destruct K|]. destruct (Ascii.eqb d nl).
    + revert K. apply IH. cbn [List.length] in L. lia.
    + revert K. apply IH. lia.
  - intros [K|K]; [congruence|]. revert K. apply IH. lia.
Qed.
Lemma univ_no_cr s : ~ In cr (univ s).
Proof. apply (univ_no_cr_n (List.length s)). lia. Qed.

(** ** Words *)
Definition word (w : text) : Prop := w <> [] /\ forall c, In c w -> is_space c = false.
Lemma words_space c s : is_space c = true -> words (c :: s) = words s.
Proof. intros H. cbn [words]. rewrite H. reflexivity. Qed.
Lemma words_word w : word w -> forall c s, is_space c = true -> words (w ++ c :: s) = w :: words s.
Proof.
  intros [Hn Hs] c s Hc. induction w as [|d w IH]; [congruence|].
  cbn [app]. destruct w as [|e w].
  - cbn [app words]. rewrite (Hs d) by (left; reflexivity). rewrite Hc. reflexivity.
  - assert (IH' := IH ltac:(discriminate) (fun x Hx => Hs x (or_intror Hx))). clear IH.
    change (words (d :: (e :: w) ++ c :: s)) with
      (if is_space d then words ((e :: w) ++ c :: s) else if is_space e then [d] :: words ((e :: w) ++ c :: s)
       else match words ((e :: w) ++ c :: s) with [] => [[d]] | w' :: r => (d :: w') :: r end).
    rewrite (Hs d), (Hs e), IH' by (cbn; tauto). reflexivity.
Qed.
Lemma words_join ws c s : Forall word ws -> ws <> [] -> is_space c = true -> words (join (tx " ") ws ++ c :: s) = ws ++ words s.
Proof.
  intros H Hn Hc. induction H as [|w ws Hw Hws IH]; [congruence|].
  destruct ws as [|w' ws].
  - cbn [join app]. apply words_word; assumption.
  - change (join (tx " ") (w :: w' :: ws)) with (w ++ tx " " ++ join (tx " ") (w' :: ws)).
    rewrite <- !app_assoc. change (tx " " ++ join (tx " ") (w' :: ws) ++ c :: s) with (" "%char :: (join (tx " ") (w' :: ws) ++ c :: s)).
    rewrite words_word by (auto; reflexivity). rewrite IH by discriminate. reflexivity.
Qed.
Lemma lstrip_id s : (forall c, In c s -> is_space c = false) -> lstrip s = s.
Proof. destruct s as [|c s]; [reflexivity|]. intros H. cbn [lstrip]. rewrite H by (left; reflexivity). reflexivity. Qed.
Lemma strip_id s : (forall c, In c s -> is_space c = false) -> strip s = s.
Proof.
  intros H. unfold strip. rewrite (lstrip_id s) by exact H. rewrite lstrip_id; [apply rev_involutive|].
  intros c K. apply H. apply in_rev. exact K.
Qed.
Lemma lstrip_app_nl s : (forall c, In c s -> is_space c = false) -> s <> [] -> strip (s ++ [nl]) = s.
Proof.
  intros H Hn. unfold strip. destruct s as [|c s]; [congruence|]. cbn [app lstrip]. rewrite (H c) by (left; reflexivity).
  change (c :: s ++ [nl]) with ((c :: s) ++ [nl]). rewrite rev_app_distr. cbn [rev app].
  cbn [lstrip]. change (is_space nl) with true. cbn iota. change (rev s ++ [c]) with (rev (c :: s)).
  rewrite lstrip_id; [apply rev_involutive|]. intros d K. apply H. apply in_rev. exact K.
Qed.
Lemma strip_idem s : strip (strip s) = strip s.
Proof.
  assert (L : forall s, lstrip (lstrip s) = lstrip s).
  { clear. induction s as [|c s IH]; [reflexivity|]. cbn [lstrip]. destruct (is_space c) eqn:E; [exact IH|]. cbn [lstrip]. rewrite E. reflexivity. }
  assert (P : forall s, exists p, s = p ++ lstrip s).
  { clear. induction s as [|c s (p & E)]; [exists []; reflexivity|]. cbn [lstrip]. destruct (is_space c); [exists (c :: p); cbn; f_equal; exact E|exists []; reflexivity]. }
  assert (F : forall s p, lstrip s = s -> lstrip (s ++ p) = s ++ p \/ s = []).
  { clear. intros [|c s] p; [auto|]. cbn [lstrip app]. destruct (is_space c) eqn:E; [|auto]. intros H. exfalso.
    assert (LL : forall s, (List.length (lstrip s) <= List.length s)%nat) by (clear; induction s as [|c s IH]; cbn [lstrip List.length]; [lia|destruct (is_space c); cbn [List.length]; lia]).
    specialize (LL s). rewrite H in LL. cbn [List.length] in LL. lia. }
  unfold strip. set (u := lstrip s). destruct (P (rev u)) as (p & Ep). set (v := lstrip (rev u)) in *.
  assert (Eu : u = rev v ++ rev p) by (rewrite <- rev_app_distr, <- Ep; symmetry; apply rev_involutive).
  destruct (rev v) as [|c w] eqn:Ev.
  - assert (v = []) as -> by (rewrite <- (rev_involutive v), Ev; reflexivity). reflexivity.
  - assert (lstrip (c :: w) = c :: w).
    { assert (K := L s). fold u in K. rewrite Eu in K. cbn [app lstrip] in K. cbn [lstrip]. destruct (is_space c) eqn:E; [|reflexivity].
      exfalso. assert (LL : forall s, (List.length (lstrip s) <= List.length s)%nat) by (clear; induction s as [|d s IH]; cbn [lstrip List.length]; [lia|destruct (is_space d); cbn [List.length]; lia]).
      specialize (LL (w ++ rev p)). rewrite K in LL. cbn [List.length] in LL. lia. }
    rewrite H. rewrite <- Ev, rev_involutive. unfold v. rewrite L. reflexivity.
Qed.

(** ** Digits *)
Definition all_digits (D : text) : Prop := forall c, In c D -> is_digit c = true.
Definition value (a : Z) (D : text) : Z := fold_left (fun a c => match digit c with Some d => 10 * a + d | None => a end) D a.
Lemma ten_cases d : 0 <= d < 10 -> In d [0;1;2;3;4;5;6;7;8;9].
Proof. cbn. lia. Qed.
Lemma digit_digit_char d : 0 <= d < 10 -> digit (digit_char d) = Some d.
Proof. intros H. apply ten_cases in H. cbn [In] in H. repeat destruct H as [<-|H]; try reflexivity. contradiction. Qed.
Lemma is_digit_char d : 0 <= d < 10 -> is_digit (digit_char d) = true.
Proof. intros H. unfold is_digit. rewrite digit_digit_char by exact H. reflexivity. Qed.
Lemma digit_range c d : digit c = Some d -> 0 <= d < 10.
Proof.
  unfold digit. destruct ((48 <=? Z.of_N (N_of_ascii c)) && (Z.of_N (N_of_ascii c) <=? 57)) eqn:E; [|discriminate].
  apply andb_true_iff in E. rewrite !Z.leb_le in E. intros K. injection K as <-. lia.
Qed.
Lemma digit_ascii c : is_digit c = true -> In c ["0"; "1"; "2"; "3"; "4"; "5"; "6"; "7"; "8"; "9"]%char.
Proof.
  destruct c as [[|] [|] [|] [|] [|] [|] [|] [|]]; vm_compute; intros H; try discriminate; tauto.
Qed.
Lemma digit_not_space c : is_digit c = true -> is_space c = false.
Proof. intros H. apply digit_ascii in H. cbn [In] in H. repeat destruct H as [<-|H]; try reflexivity. contradiction. Qed.
Lemma mod10 n : 0 <= n mod 10 < 10.
Proof. apply Z.mod_pos_bound. lia. Qed.
Lemma value_app a D E : value a (D ++ E) = value (value a D) E.
Proof. apply fold_left_app. Qed.
Lemma show_aux_spec fuel : forall n acc, 0 <= n < 10 ^ Z.of_nat fuel -> (0 < fuel)%nat ->
  exists D, show_aux fuel n acc = D ++ acc /\ all_digits D /\ D <> [] /\ value 0 D = n.
Proof.
  induction fuel as [|f IH]; intros n acc Hn Hf; [lia|]. cbn [show_aux].
  destruct (Z.ltb_spec n 10) as [L|L].
  - exists [digit_char (n mod 10)]. pose proof (mod10 n). split; [reflexivity|]. split; [|split; [discriminate|]].
    + intros c [<-|[]]. apply is_digit_char. exact H.
    + cbn [value fold_left]. rewrite digit_digit_char by exact H. rewrite Z.mod_small by lia. lia.
  - destruct f as [|f]; [cbn in Hn; lia|].
    destruct (IH (n / 10) (digit_char (n mod 10) :: acc)) as (D & E & HD & Dn & Dv); [|lia|].
    + split; [apply Z.div_pos; lia|]. apply Z.div_lt_upper_bound; [lia|]. rewrite <- Z.pow_succ_r, <- Nat2Z.inj_succ by lia. lia.
    + exists (D ++ [digit_char (n mod 10)]). pose proof (mod10 n). split; [rewrite E, <- app_assoc; reflexivity|]. split; [|split].
      * intros c Hc. apply in_app_iff in Hc. destruct Hc as [Hc|[<-|[]]]; [apply HD; exact Hc|apply is_digit_char; exact H].
      * destruct D; discriminate.
      * rewrite value_app, Dv. cbn [value fold_left]. rewrite digit_digit_char by exact H. symmetry. apply Z.div_mod. lia.
Qed.
Lemma show_nat_spec n : 0 <= n -> all_digits (show_nat n) /\ show_nat n <> [] /\ value 0 (show_nat n) = n.
Proof.
  intros Hn. unfold show_nat. destruct (show_aux_spec (S (Z.to_nat (Z.log2 n))) n []) as (D & E & H); [|lia|].
  - split; [exact Hn|]. rewrite Nat2Z.inj_succ, Z2Nat.id by apply Z.log2_nonneg.
    destruct (Z.eq_dec n 0) as [->|N]; [reflexivity|]. destruct (Z.log2_spec n) as [_ U]; [lia|].
    eapply Z.lt_le_trans; [exact U|]. apply Z.pow_le_mono_l. pose proof (Z.log2_nonneg n). lia.
  - rewrite app_nil_r in E. rewrite E. exact H.
Qed.
Lemma show_fix_spec k : forall n acc, 0 <= n < 10 ^ Z.of_nat k ->
  exists D, show_fix k n acc = D ++ acc /\ all_digits D /\ List.length D = k /\ forall a, value a D = a * 10 ^ Z.of_nat k + n.
Proof.
  induction k as [|k IH]; intros n acc Hn.
  - exists []. cbn in *. split; [reflexivity|]. split; [intros c []|]. split; [reflexivity|]. intros a. lia.
  - cbn [show_fix]. assert (P : 10 ^ Z.of_nat (S k) = 10 * 10 ^ Z.of_nat k) by (rewrite Nat2Z.inj_succ, Z.pow_succ_r by lia; reflexivity). rewrite P in *.
    destruct (IH (n / 10) (digit_char (n mod 10) :: acc)) as (D & E & HD & Dl & Dv).
    { split; [apply Z.div_pos; lia|]. apply Z.div_lt_upper_bound; lia. }
    exists (D ++ [digit_char (n mod 10)]). pose proof (mod10 n). split; [rewrite E, <- app_assoc; reflexivity|]. split; [|split].
    + intros c Hc. apply in_app_iff in Hc. destruct Hc as [Hc|[<-|[]]]; [apply HD; exact Hc|apply is_digit_char; exact H].
    + rewrite app_length, Dl. cbn. lia.
    + intros a. rewrite value_app, Dv. cbn [value fold_left]. rewrite digit_digit_char by exact H. pose proof (Z.div_mod n 10). lia.
Qed.
Lemma take_digits_spec D : forall a k r, all_digits D -> (match r with c :: _ => is_digit c = false | [] => True end) ->
  take_digits a k (D ++ r) = (value a D, (k + List.length D)%nat, r).
Proof.
  induction D as [|c D IH]; intros a k r HD Hr.
  - cbn. destruct r as [|c r]; [rewrite Nat.add_0_r; reflexivity|]. cbn. unfold is_digit in Hr. destruct (digit c); [discriminate|]. rewrite Nat.add_0_r. reflexivity.
  - cbn [app take_digits value fold_left List.length]. assert (H := HD c (or_introl eq_refl)). unfold is_digit in H. destruct (digit c) as [d|]; [|discriminate].
    rewrite IH; [|intros e He; apply HD; right; exact He|exact Hr]. unfold value. f_equal. f_equal. lia.
Qed.
Lemma no_under_id s : forall b, ~ In "_"%char s -> no_under b s = Some s.
Proof.
  induction s as [|c s IH]; intros b H; [reflexivity|]. cbn [no_under]. destruct (Ascii.eqb_spec c "_") as [->|E]; [destruct H; left; reflexivity|].
  rewrite IH; [reflexivity|]. intros K. apply H. right. exact K.
Qed.
Lemma digits_word D : all_digits D -> D <> [] -> word D.
Proof. intros H N. split; [exact N|]. intros c Hc. apply digit_not_space, H, Hc. Qed.
Lemma digit_not c d : is_digit c = true -> is_digit d = false -> c <> d.
Proof. congruence. Qed.
Lemma sign_digits D : all_digits D -> D <> [] -> forall r, sign_of (D ++ r) = (false, D ++ r).
Proof.
  intros H N r. destruct D as [|c D]; [congruence|]. cbn [app sign_of].
  assert (Hc := H c (or_introl eq_refl)).
  destruct (Ascii.eqb_spec c "-") as [->|_]; [discriminate|]. destruct (Ascii.eqb_spec c "+") as [->|_]; [discriminate|]. reflexivity.
Qed.

(** Integers read back. *)
Lemma show_int_word z : word (show_int z).
Proof.
  unfold show_int. destruct (Z.ltb_spec z 0) as [L|L].
  - destruct (show_nat_spec (- z)) as (D & N & _); [lia|]. split; [discriminate|]. intros c [<-|Hc]; [reflexivity|]. apply digit_not_space, D, Hc.
  - destruct (show_nat_spec z) as (D & N & _); [lia|]. apply digits_word; assumption.
Qed.
Lemma in_digits_not D c : all_digits D -> is_digit c = false -> ~ In c D.
Proof. intros H N K. apply H in K. congruence. Qed.
Lemma parse_show_int z : parse_int (show_int z) = Ok z.
Proof.
  unfold parse_int. rewrite strip_id by apply show_int_word. unfold show_int. destruct (Z.ltb_spec z 0) as [L|L].
  - destruct (show_nat_spec (- z)) as (D & N & V); [lia|]. rewrite no_under_id.
    2:{ intros [K|K]; [discriminate|]. revert K. apply in_digits_not; [exact D|reflexivity]. }
    change (sign_of ("-"%char :: show_nat (- z))) with (true, show_nat (- z)). cbn iota.
    rewrite <- (app_nil_r (show_nat (- z))), take_digits_spec by (auto). rewrite V. destruct (show_nat (- z)) as [|c E]; [congruence|]. cbn [List.length Nat.add]. f_equal. lia.
  - destruct (show_nat_spec z) as (D & N & V); [lia|]. rewrite no_under_id by (apply in_digits_not; [exact D|reflexivity]).
    rewrite <- (app_nil_r (show_nat z)), sign_digits by assumption. rewrite take_digits_spec by auto. rewrite V.
    destruct (show_nat z) as [|c E]; [congruence|]. cbn [List.length Nat.add]. reflexivity.
Qed.

(** Decimals read back. *)
Definition dec_ok (k : nat) (d : decimal) : Prop :=
  match d with DFin _ m e => 0 <= m /\ e = - Z.of_nat k | _ => True end.
Lemma lower_digit c : is_digit c = true -> lower c = c.
Proof. intros H. apply digit_ascii in H. cbn [In] in H. repeat destruct H as [<-|H]; try reflexivity. contradiction. Qed.
Lemma parse_show_dec k d : dec_ok k d -> word (show_dec k d) /\ parse_dec (show_dec k d) = Ok d.
Proof.
  destruct d as [|s|s m e]; cbn [dec_ok].
  - intros _. split; [|reflexivity]. split; [discriminate|]. cbn. intuition (subst; reflexivity).
  - intros _. destruct s; (split; [|reflexivity]); (split; [discriminate|]); cbn; intuition (subst; reflexivity).
  - intros (Hm & ->). cbn [show_dec]. assert (P : 0 < 10 ^ Z.of_nat k) by (apply Z.pow_pos_nonneg; lia).
    destruct (show_nat_spec (m / 10 ^ Z.of_nat k)) as (DI & NI & VI); [apply Z.div_pos; lia|].
    destruct (show_fix_spec k (m mod 10 ^ Z.of_nat k) []) as (F & EF & DF & LF & VF); [apply Z.mod_pos_bound; exact P|].
    rewrite app_nil_r in EF. rewrite EF. set (I := show_nat (m / 10 ^ Z.of_nat k)) in *.
    assert (B : forall c, In c (I ++ "."%char :: F) -> is_space c = false /\ c <> "_"%char).
    { intros c Hc. apply in_app_iff in Hc. destruct Hc as [Hc|[<-|Hc]]; [|split; [reflexivity|discriminate]|].
      - apply DI in Hc. split; [apply digit_not_space, Hc|]. intros ->. discriminate.
      - apply DF in Hc. split; [apply digit_not_space, Hc|]. intros ->. discriminate. }
    assert (W : forall c, In c (sgn s ++ I ++ "."%char :: F) -> is_space c = false /\ c <> "_"%char).
    { intros c Hc. apply in_app_iff in Hc. destruct Hc as [Hc|Hc]; [|apply B, Hc]. destruct s; cbn in Hc; [|contradiction].
      destruct Hc as [<-|[]]. split; [reflexivity|discriminate]. }
    split; [split; [destruct s; [discriminate|destruct I; [congruence|discriminate]]|intros c Hc; apply W, Hc]|].
    unfold parse_dec. rewrite strip_id by (intros c Hc; apply W, Hc). rewrite no_under_id by (intros Hc; apply W in Hc; destruct Hc; congruence).
    assert (S1 : sign_of (sgn s ++ I ++ "."%char :: F) = (s, I ++ "."%char :: F)).
    { destruct s; [reflexivity|]. cbn [sgn app]. apply sign_digits; assumption. }
    rewrite S1. cbn zeta.
    assert (LO : forall t : text, (match t with c :: _ => is_digit c = false | [] => True end) -> teqb (map lower (I ++ "."%char :: F)) t = false).
    { intros t Ht. apply teqb_false. intros E. destruct I as [|c I']; [congruence|]. cbn [app map] in E. rewrite lower_digit in E by (apply DI; left; reflexivity).
      destruct t as [|c' t']; [discriminate|]. injection E as <- _. rewrite (DI c) in Ht by (left; reflexivity). discriminate. }
    rewrite !LO by reflexivity. cbn [orb].
    rewrite take_digits_spec by (auto; reflexivity). rewrite VI. cbn [Ascii.eqb Bool.eqb].
    change (Ascii.eqb "." ".") with true. cbn iota.
    rewrite <- (app_nil_r F), take_digits_spec by auto. rewrite VF.
    destruct (Nat.eqb_spec (0 + List.length I + (0 + List.length F)) 0) as [E0|_].
    { destruct I; [congruence|]. cbn in E0. lia. }
    cbn [parse_exp]. do 2 f_equal; [|lia]. rewrite Z.mul_comm. symmetry. apply Z.div_mod. lia.
Qed.
