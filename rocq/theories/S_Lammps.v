(** Specifications for LAMMPS dump files. *)
From Coq Require Import Reals ZArith List Ascii String.
From Coq.Floats Require Import SpecFloat.
From Flocq Require Import Core BinarySingleNaN.
From Verif Require Import Base Num NumR Types M_Text.
Import ListNotations.

(** [y] is [x] rounded to six decimals. *)
Definition six_decimals (x y : R) : Prop := (Rabs (y - x) <= 1 / 2000000)%R /\ exists z : Z, y = (IZR z / 1000000)%R.

(** A word: not empty, no white space. *)
Definition blank (c : ascii) : bool :=
  existsb (Ascii.eqb c) [" "; "009"; "010"; "011"; "012"; "013"; "028"; "029"; "030"; "031"]%char.
Definition is_word (w : text) : Prop := w <> [] /\ forall c, In c w -> blank c = false.
Definition reserved : list text := map list_ascii_of_string ["id"; "type"; "x"; "y"; "z"]%string.
(** Names of custom columns that do not hide each other or the standard ones. *)
Definition good_keys (keys : list text) : Prop :=
  Forall is_word keys /\ NoDup keys /\ forall k, In k keys -> ~ In k reserved.

(** A file of lines: every line ends with the only newline in it. *)
Definition one_line (l : text) : Prop := exists b, l = b ++ ["010"%char] /\ ~ In "010"%char b.
(** The lines of a file: all of them end with a newline, except perhaps the
    last one, which is not empty. *)
Definition file_lines (content : text) (ls : list text) : Prop :=
  content = concat ls /\
  exists init last, ls = init ++ last /\ Forall one_line init /\
    (last = [] \/ exists l, last = [l] /\ l <> [] /\ ~ In "010"%char l).

(** [y] is the double nearest to the number of six decimals that is nearest to
    the double [x]; signed zeros, infinities and nan are kept. *)
Definition six_decimals_F (x y : spec_float) : Prop :=
  match x with
  | S754_finite _ _ _ =>
      (Rabs (SF2R radix2 x) <= bpow radix2 1000)%R ->
      is_finite_SF y = true /\
      SF2R radix2 y = round radix2 (FLT_exp (-1074) 53) ZnearestE (IZR (ZnearestE (SF2R radix2 x * 1000000)) / 1000000)
  | _ => y = x
  end.

(** The same atoms: ids, types and order, positions related by [near], and the
    custom columns [keys] with the texts [texts]. *)
Definition same_atoms {N : num} (near : N -> N -> Prop) (keys : list text) (texts : list (list text))
    (l l' : list (atom N)) (customs : list (list (text * text))) : Prop :=
  List.length l' = List.length l /\ List.length customs = List.length l /\
  forall i a, nth_error l i = Some a ->
    exists b c r, nth_error l' i = Some b /\ nth_error customs i = Some c /\ nth_error texts i = Some r /\
      a_id b = a_id a /\ a_type b = a_type a /\
      near (vx (a_pos a)) (vx (a_pos b)) /\ near (vy (a_pos a)) (vy (a_pos b)) /\ near (vz (a_pos a)) (vz (a_pos b)) /\
      c = combine keys r.

(** The texts of the custom columns: of the values given (converted by
    [astype]), or else those the atoms carry. *)
Definition column_texts {V} (astype : list V -> list text) (of_text : text -> V) (keys : list text)
    (vals : option (list (list V))) (customs : list (list (text * text))) (texts : list (list text)) : Prop :=
  List.length texts = List.length customs /\
  Forall (fun r => Forall is_word r /\ List.length r = List.length keys) texts /\
  (keys = [] \/
   match vals with
   | Some rows => rows <> [] /\ Forall (fun r => List.length r = List.length keys) rows /\ texts = map astype rows
   | None => Forall2 (fun c r => (forall j k t, nth_error keys j = Some k -> nth_error r j = Some t -> dget c k = Some t)
                                 /\ astype (map of_text r) = r) customs texts
   end).

(** Length of a box vector. *)
Definition row_length (v : v3 Rnum) : R := sqrt (vx v * vx v + vy v * vy v + vz v * vz v)%R.
