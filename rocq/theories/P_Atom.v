(** Proofs about the attributes of an Atom. *)
From Coq Require Import String ZArith List Lia.
From Verif Require Import Base Num Types M_Atom S_Atom.
Import ListNotations.
Set Implicit Arguments.
Unset Strict Implicit.

Lemma accessor_dec (p p' : accessor) : {p = p'} + {p <> p'}.
Proof. decide equality. apply member_dec. Qed.

Lemma find_In {A} (f : A -> bool) l x : find f l = Some x -> In x l /\ f x = true.
Proof. induction l as [|y l IH]; simpl; [discriminate|]. destruct (f y) eqn:E; [intros [= ->]; auto|]. intros H. destruct (IH H). auto. Qed.

Lemma bindings_nodup : NoDup (map snd bindings).
Proof.
  unfold bindings. cbn [map snd]. repeat (constructor; [cbn; intuition discriminate|]). constructor.
Qed.
Lemma lookup_In name p : lookup_attr name = Some p -> In (name, p) bindings.
Proof.
  unfold lookup_attr. destruct (find _ _) as [[n q]|] eqn:E; [|discriminate]. simpl. intros [= ->].
  apply find_In in E as (H & E). apply String.eqb_eq in E. simpl in E. subst. now apply in_rev in H.
Qed.
Lemma NoDup_snd {A B} (l : list (A * B)) a a' b : NoDup (map snd l) -> In (a, b) l -> In (a', b) l -> a = a'.
Proof.
  induction l as [|[x y] l IH]; simpl; [easy|]. intros H H1 H2. inversion H as [|? ? Hn Hr]; subst.
  destruct H1 as [E1|H1], H2 as [E2|H2]; try congruence.
  - injection E1 as -> ->. exfalso. apply Hn. apply in_map_iff. exists (a', b). auto.
  - injection E2 as -> ->. exfalso. apply Hn. apply in_map_iff. exists (a, b). auto.
  - auto.
Qed.
Lemma lookup_inj n n' p : lookup_attr n = Some p -> lookup_attr n' = Some p -> n = n'.
Proof. intros H H'. apply lookup_In in H, H'. exact (NoDup_snd bindings_nodup H H'). Qed.

Section P.
Variable N : num.
Implicit Types (a : catom N) (v : value N).

(** Conversions leave a value of the documented type as it is. *)
Lemma fits_iff z : int_fits z = true <-> (- 2 ^ 31 <= z < 2 ^ 31)%Z.
Proof. unfold int_fits. rewrite Bool.andb_true_iff, Z.leb_le, Z.ltb_lt. change (2 ^ 31)%Z with 2147483648%Z. lia. Qed.
Lemma cast_kind k : forall v, has_kind k v -> cast k v = Ok v.
Proof.
  induction k as [| | | |k IH]; intros [z|b|x|r|l]; simpl; try easy.
  - intros H. apply fits_iff in H. now rewrite H.
  - intros H. assert (E : mapM (cast k) l = Ok l). { induction H as [|v l Hv Hl IHl]; simpl; [easy|]. rewrite (IH _ Hv), IHl. easy. }
    now rewrite E.
Qed.
Lemma to_ints_kind v : has_kind (KList KInt) v -> exists l, v = ints N l /\ to_ints v = Ok l /\ len v = length l.
Proof.
  intros H. pose proof (cast_kind H) as E. unfold to_ints. rewrite E. destruct v as [|?|?|?|l]; try easy. simpl in *. clear E.
  induction H as [|v l Hv Hl IHl]; [exists []; auto|]. destruct IHl as (l' & E1 & E2 & E3). destruct v as [z|?|?|?|?]; try easy.
  exists (z :: l'). simpl. rewrite E2. unfold ints in *. injection E1 as E1. rewrite E1. simpl. repeat split; auto. now rewrite map_length.
Qed.
Lemma to_floats_kind v : has_kind (KList KFloat) v -> exists l, v = floats l /\ to_floats v = Ok l /\ len v = length l.
Proof.
  intros H. pose proof (cast_kind H) as E. unfold to_floats. rewrite E. destruct v as [|?|?|?|l]; try easy. simpl in *. clear E.
  induction H as [|v l Hv Hl IHl]; [exists []; auto|]. destruct IHl as (l' & E1 & E2 & E3). destruct v as [?|?|x|?|?]; try easy.
  exists (x :: l'). simpl. rewrite E2. unfold floats in *. injection E1 as E1. rewrite E1. simpl. repeat split; auto. now rewrite map_length.
Qed.

Lemma blit_ok {A} (arr new : list A) : length new <= length arr ->
  exists w, blit arr new = Ok w /\ length w = length arr /\ firstn (length new) w = new /\ w = new ++ skipn (length new) arr.
Proof.
  intros H. unfold blit. destruct (Nat.leb_spec (length new) (length arr)); [|lia]. eexists. split; [reflexivity|]. repeat split.
  - rewrite app_length, skipn_length. lia.
  - rewrite firstn_app, Nat.sub_diag, firstn_all, firstn_O, app_nil_r. easy.
Qed.
Lemma fill_ok {A} n (new : list A) : length new = n -> fill n new = Ok new.
Proof. intros <-. unfold fill. rewrite Nat.leb_refl, firstn_all. easy. Qed.

(** Values that the accessor takes. *)
Definition takes (p : accessor) (v : value N) : Prop :=
  match p with
  | Rw m => has_kind (member_kind m) v
  | Ro_coordination => False
  | P_pos => has_kind (KList KFloat) v /\ len v = 3
  | P_neighbors | P_facevertices => has_kind (KList KInt) v /\ len v <= 300
  | P_weights | P_faceperimeters => has_kind (KList KFloat) v /\ len v <= 300
  | P_neighdist | P_sij => has_kind (KList KFloat) v
  | P_vectors | P_angles => has_kind (KList (KList KFloat)) v
  | P_allq | P_allaq => has_kind (KList KFloat) v /\ len v = 11
  | P_vorovector => has_kind (KList KInt) v /\ len v = 4
  end.
Lemma admissible_takes name v : admissible (name, v) -> exists p, lookup_attr name = Some p /\ takes p v.
Proof.
  intros (k & sz & H & K & S). cbn [fst snd] in *.
  unfold documented in H. cbn [In] in H.
  repeat (destruct H as [H|H]; [injection H as <- <- <-; eexists; split; [reflexivity|]; cbn [takes member_kind]; unfold upto300 in S; cbv beta in S; (exact K || exact (conj K S))|]).
  destruct H.
Qed.

Definition per_nb (p : accessor) : bool :=
  match p with P_neighdist | P_weights | P_vectors | P_angles | P_sij | P_facevertices | P_faceperimeters => true | _ => false end.
Definition nb_dep (p : accessor) : bool := match p with Ro_coordination => true | _ => per_nb p end.

(** One assignment. *)
Lemma write_spec a p v : sized a -> takes p v ->
  exists a', write a p v = Ok a' /\ sized a' /\
    (per_nb p = false -> read a' p = v) /\
    (forall p', p' <> p -> (p = P_neighbors -> nb_dep p' = false) -> read a' p' = read a p') /\
    (p <> P_neighbors -> c_n a' = c_n a) /\ (p = P_neighbors -> c_n a' = len v).
Proof.
  intros S T. pose proof S as S0.
  destruct S as (S1 & S2 & S3 & S4 & S5 & S6 & S7 & S8 & S9 & S10 & S11 & S12 & S13 & S14).
  destruct p as [m| | | | | | | | | | | | | ]; cbn [write takes per_nb] in *.
  - rewrite (cast_kind T). eexists. split; [reflexivity|]. split; [exact S0|].
    split; [intros _; cbn; destruct (member_dec m m); congruence|].
    split; [|split; [reflexivity|discriminate]].
    intros p' D _. destruct p' as [m'| | | | | | | | | | | | | ]; try reflexivity. cbn. destruct (member_dec m m'); congruence.
  - destruct T.
  - destruct T as (K & L). destruct (to_floats_kind K) as (l & -> & -> & E). rewrite E in L.
    destruct l as [|x [|y [|z [|? ?]]]]; try discriminate L. cbn [bind].
    eexists. split; [reflexivity|]. split; [exact S0|]. split; [reflexivity|]. split; [|split; [reflexivity|discriminate]].
    intros p' D _. destruct p'; try reflexivity. congruence.
  - destruct T as (K & L). destruct (to_ints_kind K) as (l & -> & -> & E). rewrite E in *.
    destruct (@blit_ok Z (repeat nilvalue (length (c_nbrs a))) l) as (nb & B1 & B2 & B3 & _); [rewrite repeat_length; lia|].
    destruct (@blit_ok N (c_weight a) (repeat n1 (length l))) as (w & W1 & W2 & W3 & _); [rewrite repeat_length; lia|].
    cbn [bind]. rewrite B1. cbn [bind]. rewrite W1. cbn [bind]. rewrite repeat_length in B2.
    eexists. split; [reflexivity|]. split; [|split; [|split; [|split; [congruence|reflexivity]]]].
    + repeat split; cbn; rewrite ?repeat_length; congruence || lia.
    + intros _. cbn [read c_n c_nbrs]. cbn. now rewrite B3.
    + intros p' D H. specialize (H eq_refl). destruct p'; try reflexivity; try discriminate H. congruence.
  - rename T into K. destruct (to_floats_kind K) as (l & -> & -> & E). cbn [bind].
    exists a. repeat split; auto; discriminate.
  - destruct T as (K & L). destruct (to_floats_kind K) as (l & -> & -> & E). rewrite E in *. cbn [bind].
    destruct (@blit_ok N (c_weight a) l) as (w & W1 & W2 & W3 & _); [lia|]. rewrite W1. cbn [bind].
    eexists. split; [reflexivity|]. split; [repeat split; cbn; congruence || lia|]. split; [discriminate|].
    split; [|split; [reflexivity|discriminate]]. intros p' D _. destruct p'; try reflexivity. congruence.
  - rewrite (cast_kind T). exists a. repeat split; auto; discriminate.
  - rewrite (cast_kind T). exists a. repeat split; auto; discriminate.
  - destruct T as (K & L). destruct (to_floats_kind K) as (l & -> & -> & E). rewrite E in *. cbn [bind]. rewrite (fill_ok L). cbn [bind].
    eexists. split; [reflexivity|]. split; [repeat split; cbn; congruence || lia|].
    split; [intros _; cbn [read]; rewrite <- L; cbn -[firstn]; now rewrite firstn_all|].
    split; [|split; [reflexivity|discriminate]]. intros p' D _. destruct p'; try reflexivity. congruence.
  - destruct T as (K & L). destruct (to_floats_kind K) as (l & -> & -> & E). rewrite E in *. cbn [bind]. rewrite (fill_ok L). cbn [bind].
    eexists. split; [reflexivity|]. split; [repeat split; cbn; congruence || lia|].
    split; [intros _; cbn [read]; rewrite <- L; cbn -[firstn]; now rewrite firstn_all|].
    split; [|split; [reflexivity|discriminate]]. intros p' D _. destruct p'; try reflexivity. congruence.
  - rename T into K. destruct (to_floats_kind K) as (l & -> & -> & E). cbn [bind].
    exists a. repeat split; auto; discriminate.
  - destruct T as (K & L). destruct (to_ints_kind K) as (l & -> & -> & E). rewrite E in *. cbn [bind].
    destruct (@blit_ok Z (c_facev a) l) as (w & W1 & W2 & W3 & _); [lia|]. rewrite W1. cbn [bind].
    eexists. split; [reflexivity|]. split; [repeat split; cbn; congruence || lia|]. split; [discriminate|].
    split; [|split; [reflexivity|discriminate]]. intros p' D _. destruct p'; try reflexivity. congruence.
  - destruct T as (K & L). destruct (to_floats_kind K) as (l & -> & -> & E). rewrite E in *. cbn [bind].
    destruct (@blit_ok N (c_facep a) l) as (w & W1 & W2 & W3 & _); [lia|]. rewrite W1. cbn [bind].
    eexists. split; [reflexivity|]. split; [repeat split; cbn; congruence || lia|]. split; [discriminate|].
    split; [|split; [reflexivity|discriminate]]. intros p' D _. destruct p'; try reflexivity. congruence.
  - destruct T as (K & L). destruct (to_ints_kind K) as (l & -> & -> & E). rewrite E in L.
    destruct l as [|x [|y [|z [|t [|? ?]]]]]; try discriminate L. cbn [bind].
    eexists. split; [reflexivity|]. split; [exact S0|]. split; [reflexivity|]. split; [|split; [reflexivity|discriminate]].
    intros p' D _. destruct p'; try reflexivity. congruence.
Qed.

Lemma lookup_neighbors : lookup_attr "neighbors" = Some P_neighbors. Proof. reflexivity. Qed.
Lemma per_nb_names name p : lookup_attr name = Some p -> (per_nb p = true <-> In name per_neighbor).
Proof.
  intros H. split.
  - intros P. destruct p; try discriminate P; (match type of H with _ = Some ?q =>
      match q with
      | P_neighdist => rewrite (lookup_inj H (eq_refl : lookup_attr "neighbor_distance" = Some q))
      | P_weights => rewrite (lookup_inj H (eq_refl : lookup_attr "neighbor_weights" = Some q))
      | P_vectors => rewrite (lookup_inj H (eq_refl : lookup_attr "neighbor_vector" = Some q))
      | P_angles => rewrite (lookup_inj H (eq_refl : lookup_attr "local_angles" = Some q))
      | P_sij => rewrite (lookup_inj H (eq_refl : lookup_attr "sij" = Some q))
      | P_facevertices => rewrite (lookup_inj H (eq_refl : lookup_attr "face_vertices" = Some q))
      | P_faceperimeters => rewrite (lookup_inj H (eq_refl : lookup_attr "face_perimeters" = Some q))
      end end); cbn; tauto.
  - cbn. intros E. repeat (destruct E as [<-|E]; [vm_compute in H; injection H as <-; reflexivity|]). destruct E.
Qed.

(** One assignment, by name. *)
Lemma set_spec a name v : sized a -> admissible (name, v) ->
  exists a', setattr a name v = Ok a' /\ sized a' /\
    (~ In name per_neighbor -> getattr a' name = Ok v) /\
    (forall n', n' <> name -> (name = "neighbors"%string -> n' <> "coordination"%string /\ ~ In n' per_neighbor) -> getattr a' n' = getattr a n') /\
    (name <> "neighbors"%string -> c_n a' = c_n a) /\ (name = "neighbors"%string -> c_n a' = len v).
Proof.
  intros S A. destruct (admissible_takes A) as (p & L & T). destruct (write_spec S T) as (a' & W & S' & R & F & C1 & C2).
  exists a'. unfold setattr, getattr. rewrite L. split; [exact W|]. split; [exact S'|]. split; [|split; [|split]].
  - intros NI. f_equal. apply R. destruct (per_nb p) eqn:P; auto. exfalso. apply NI. now apply (per_nb_names L).
  - intros n' D H. destruct (lookup_attr n') as [p'|] eqn:L'; [|reflexivity]. f_equal. apply F.
    + intros ->. apply D. exact (lookup_inj L' L).
    + intros ->. assert (En := lookup_inj L lookup_neighbors). destruct (H En) as (H1 & H2). unfold nb_dep.
      destruct (per_nb p') eqn:P; [exfalso; apply H2; now apply (per_nb_names L')|].
      destruct p'; try reflexivity. exfalso. apply H1. exact (lookup_inj L' (eq_refl : lookup_attr "coordination" = Some Ro_coordination)).
      all: exact P.
  - intros D. apply C1. intros ->. apply D. exact (lookup_inj L lookup_neighbors).
  - intros ->. apply C2. rewrite lookup_neighbors in L. congruence.
Qed.

Lemma last_app (h h' : list (string * value N)) name :
  last_assigned (h ++ h') name = match last_assigned h' name with Some w => Some w | None => last_assigned h name end.
Proof. induction h as [|[n v] h IH]; simpl; [destruct (last_assigned h' name); easy|]. rewrite IH. destruct (last_assigned h' name); easy. Qed.

Lemma assign_spec h : forall a, sized a -> Forall (@admissible N) h ->
  exists a', assign h a = Ok a' /\ sized a' /\
    (forall name, name <> "coordination"%string -> ~ In name per_neighbor -> reads_back (@getattr N) a a' h name) /\
    (last_assigned h "neighbors" = None -> c_n a' = c_n a /\
       forall name, last_assigned h name = None -> getattr a' name = getattr a name) /\
    (forall v, last_assigned h "neighbors" = Some v -> c_n a' = len v).
Proof.
  induction h as [|[n v] h IH]; intros a S A.
  - exists a. split; [reflexivity|]. split; [exact S|]. split; [intros name _ _; reflexivity|].
    split; [intros _; split; [reflexivity|intros; reflexivity]|discriminate].
  - inversion A as [|? ? A1 A2]; subst. destruct (set_spec S A1) as (a1 & E1 & S1 & R1 & F1 & C1 & C1').
    destruct (IH a1 S1 A2) as (a' & E' & S' & R' & K' & C').
    exists a'. split; [unfold assign in *; cbn [foldM fst snd]; rewrite E1; exact E'|]. split; [exact S'|]. split; [|split].
    + intros name D NI. specialize (R' name D NI). unfold reads_back in *. cbn [last_assigned].
      destruct (last_assigned h name) as [w|]; [exact R'|]. rewrite R'. destruct (String.eqb_spec n name) as [->|Dn].
      * now apply R1.
      * apply F1; [congruence|]. auto.
    + cbn [last_assigned]. destruct (last_assigned h "neighbors") eqn:Ln; [discriminate|]. destruct (String.eqb_spec n "neighbors") as [->|Dn]; [discriminate|].
      intros _. destruct (K' eq_refl) as (K1 & K2). split; [rewrite K1; now apply C1|].
      intros name. destruct (last_assigned h name) eqn:Ln'; [discriminate|]. destruct (String.eqb_spec n name) as [->|Dn']; [discriminate|].
      intros _. rewrite (K2 name Ln'). apply F1; congruence.
    + cbn [last_assigned]. intros w. destruct (last_assigned h "neighbors") as [w'|] eqn:Ln; [intros [= <-]; now apply C'|].
      destruct (String.eqb_spec n "neighbors") as [->|Dn]; [|discriminate]. intros [= <-]. destruct (K' eq_refl) as (-> & _). now apply C1'.
Qed.

Lemma ctor_sized raw dict x y z id typ : sized raw -> sized (@ctor N raw dict x y z id typ).
Proof. intros S. unfold sized in *. cbn -[repeat]. rewrite !repeat_length. intuition lia. Qed.

Lemma assign_app h h' a : assign (h ++ h') a = (a1 <- assign h a ;; @assign N h' a1).
Proof.
  revert a. induction h as [|p h IH]; intros a; [reflexivity|]. unfold assign in *. cbn [app foldM].
  destruct (setattr a (fst p) (snd p)); cbn [bind]; [apply IH|reflexivity].
Qed.
End P.
