(** Text as the Python code of the file formats sees it: lines, words, and the
    conversions between numbers and text.  These are the Python built-ins the
    modules in formats/ and trajectory.py call, not code of the repository.
    Characters are ASCII.  Model only. *)
From Coq Require Import ZArith List Bool Ascii String.
From Coq.Floats Require Import SpecFloat.
From Coq Require Import Reals.
From Verif Require Import Base Num NumR NumF NumP.
Import ListNotations.
Close Scope R_scope.
Open Scope Z_scope.

Definition text := list ascii.
Definition tx (s : string) : text := list_ascii_of_string s.
Definition teqb (a b : text) : bool := if list_eq_dec ascii_dec a b then true else false.
Definition nl : ascii := "010"%char.
Definition cr : ascii := "013"%char.

(** str.isspace for ASCII: 9 to 13 and 28 to 32. *)
Definition is_space (c : ascii) : bool :=
  let n := Z.of_N (N_of_ascii c) in
  ((9 <=? n) && (n <=? 13)) || ((28 <=? n) && (n <=? 32)).

(** Iterating over a file: lines with their newline; the last one may lack it. *)
Fixpoint lines (s : text) : list text :=
  match s with
  | [] => []
  | c :: s =>
      if Ascii.eqb c nl then [nl] :: lines s
      else match lines s with [] => [[c]] | l :: r => (c :: l) :: r end
  end.
(** Text mode translates "\r\n" and "\r" into "\n" when reading. *)
Fixpoint univ (s : text) : text :=
  match s with
  | [] => []
  | c :: s' =>
      if Ascii.eqb c cr then
        nl :: match s' with
              | d :: s'' => if Ascii.eqb d nl then univ s'' else univ s'
              | [] => []
              end
      else c :: univ s'
  end.

(** str.split() without arguments; a preceding strip() makes no difference. *)
Fixpoint words (s : text) : list text :=
  match s with
  | [] => []
  | c :: s' =>
      if is_space c then words s'
      else match s' with
           | [] => [[c]]
           | d :: _ =>
               if is_space d then [c] :: words s'
               else match words s' with [] => [[c]] | w :: r => (c :: w) :: r end
           end
  end.
(** str.strip(). *)
Fixpoint lstrip (s : text) : text :=
  match s with [] => [] | c :: s' => if is_space c then lstrip s' else s end.
Definition strip (s : text) : text := rev (lstrip (rev (lstrip s))).
(** sep.join(l). *)
Fixpoint join (sep : text) (l : list text) : text :=
  match l with
  | [] => []
  | [a] => a
  | a :: l => a ++ sep ++ join sep l
  end.
(** s.split(c) for one character. *)
Fixpoint split_at (c : ascii) (s : text) : list text :=
  match s with
  | [] => [[]]
  | d :: s =>
      if Ascii.eqb d c then [] :: split_at c s
      else match split_at c s with [] => [[d]] | w :: r => (d :: w) :: r end
  end.

(** ** Integers *)
Definition digit_char (d : Z) : ascii := ascii_of_N (Z.to_N (48 + d)).
Definition digit (c : ascii) : option Z :=
  let n := Z.of_N (N_of_ascii c) in
  if (48 <=? n) && (n <=? 57) then Some (n - 48) else None.
Definition is_digit (c : ascii) : bool := match digit c with Some _ => true | None => false end.

(** Decimal digits of a non-negative number. *)
Fixpoint show_aux (fuel : nat) (n : Z) (acc : text) : text :=
  match fuel with
  | O => acc
  | S f => let acc := digit_char (n mod 10) :: acc in
           if n <? 10 then acc else show_aux f (n / 10) acc
  end.
Definition show_nat (n : Z) : text := show_aux (S (Z.to_nat (Z.log2 n))) n [].
(** str(z) and "%d" % z. *)
Definition show_int (z : Z) : text := if z <? 0 then "-"%char :: show_nat (- z) else show_nat z.
(** The last [k] digits, with leading zeros. *)
Fixpoint show_fix (k : nat) (n : Z) (acc : text) : text :=
  match k with O => acc | S k => show_fix k (n / 10) (digit_char (n mod 10) :: acc) end.

(** Digit grouping: an underscore is allowed between two digits. *)
Fixpoint no_under (prev : bool) (s : text) : option text :=
  match s with
  | [] => Some []
  | c :: s' =>
      if Ascii.eqb c "_" then
        if prev then match s' with d :: _ => if is_digit d then no_under false s' else None | [] => None end
        else None
      else match no_under (is_digit c) s' with Some r => Some (c :: r) | None => None end
  end.
Definition sign_of (s : text) : bool * text :=
  match s with
  | c :: s' => if Ascii.eqb c "-" then (true, s') else if Ascii.eqb c "+" then (false, s') else (false, s)
  | [] => (false, [])
  end.
Fixpoint take_digits (acc : Z) (k : nat) (s : text) : Z * nat * text :=
  match s with
  | c :: s' => match digit c with Some d => take_digits (10 * acc + d) (S k) s' | None => (acc, k, s) end
  | [] => (acc, k, [])
  end.
(** int(s) for a string. *)
Definition parse_int (s : text) : res Z :=
  match no_under false (strip s) with
  | None => Err ValueError
  | Some s =>
      let '(neg, s) := sign_of s in
      match take_digits 0 0 s with
      | (n, S _, []) => Ok (if neg then - n else n)
      | _ => Err ValueError
      end
  end.

(** ** Floating point numbers *)
(** The decimal [m * 10^e], an infinity or nan. *)
Inductive decimal := DNan | DInf (neg : bool) | DFin (neg : bool) (m : Z) (e : Z).

(** "%.kf" % x once x is rounded to [k] decimals. *)
Definition sgn (neg : bool) : text := if neg then ["-"%char] else [].
Definition show_dec (k : nat) (d : decimal) : text :=
  match d with
  | DNan => tx "nan"
  | DInf neg => sgn neg ++ tx "inf"
  | DFin neg m _ => sgn neg ++ show_nat (m / 10 ^ Z.of_nat k) ++ "."%char :: show_fix k (m mod 10 ^ Z.of_nat k) []
  end.

Definition lower (c : ascii) : ascii :=
  let n := Z.of_N (N_of_ascii c) in
  if (65 <=? n) && (n <=? 90) then ascii_of_N (Z.to_N (n + 32)) else c.
(** The part after the digits: nothing or an exponent. *)
Definition parse_exp (s : text) : option Z :=
  match s with
  | [] => Some 0
  | c :: s =>
      if Ascii.eqb (lower c) "e" then
        let '(neg, s) := sign_of s in
        match take_digits 0 0 s with
        | (n, S _, []) => Some (if neg then - n else n)
        | _ => None
        end
      else None
  end.
(** float(s) for a string, before rounding to a double. *)
Definition parse_dec (s : text) : res decimal :=
  match no_under false (strip s) with
  | None => Err ValueError
  | Some s =>
      let '(neg, s) := sign_of s in
      let low := map lower s in
      if teqb low (tx "inf") || teqb low (tx "infinity") then Ok (DInf neg)
      else if teqb low (tx "nan") then Ok DNan
      else
        let '(ip, ni, r) := take_digits 0 0 s in
        let '(m, nf, r) := match r with
                           | c :: r' => if Ascii.eqb c "." then take_digits ip 0 r' else (ip, O, r)
                           | [] => (ip, O, r)
                           end in
        if Nat.eqb (ni + nf) 0 then Err ValueError
        else match parse_exp r with
             | Some e => Ok (DFin neg m (e - Z.of_nat nf))
             | None => Err ValueError
             end
  end.

(** Number formatting of an arithmetic: rounding to [k] decimals (exact value,
    ties to even, as printf does) and the nearest number to a decimal. *)
Record textnum (N : num) := mkTN { tn_fix : nat -> N -> decimal; tn_dec : decimal -> N }.
Arguments tn_fix {N} _ _ _. Arguments tn_dec {N} _ _.

(** float(s). *)
Definition parse_float {N} (T : textnum N) (s : text) : res N := d <- parse_dec s ;; Ok (tn_dec T d).
(** "%.kf" % x. *)
Definition show_float {N} (T : textnum N) (k : nat) (x : N) : text := show_dec k (tn_fix T k x).

(** Exact reals: no infinities; they read as 0. *)
Definition half_even (q : Z) (c : comparison) : Z :=
  match c with Lt => q | Gt => q + 1 | Eq => if Z.even q then q else q + 1 end.
Definition R_round (y : R) : Z :=
  let q := Int_part y in
  let f := (y - IZR q)%R in
  half_even q (if Rltb f (1/2) then Lt else if Rltb (1/2) f then Gt else Eq).
Definition R_text : textnum Rnum := {|
  tn_fix k x := DFin (Rltb x 0) (R_round (Rabs x * IZR (10 ^ Z.of_nat k))) (- Z.of_nat k);
  tn_dec d := match d with
              | DFin neg m e =>
                  let v := if 0 <=? e then IZR (m * 10 ^ e) else (IZR m / IZR (10 ^ (- e)))%R in
                  if neg then (- v)%R else v
              | _ => 0%R
              end |}.

(** IEEE binary64. *)
Definition sf_fix (k : nat) (x : spec_float) : decimal :=
  match x with
  | S754_nan => DNan
  | S754_infinity s => DInf s
  | S754_zero s => DFin s 0 (- Z.of_nat k)
  | S754_finite s m e =>
      let a := Zpos m * 10 ^ Z.of_nat k in
      let v := if 0 <=? e then a * 2 ^ e
               else let d := 2 ^ (- e) in half_even (a / d) (2 * (a mod d) ?= d) in
      DFin s v (- Z.of_nat k)
  end.
Definition sf_dec (d : decimal) : spec_float :=
  match d with
  | DNan => S754_nan
  | DInf s => S754_infinity s
  | DFin s m e =>
      match m with
      | Zpos p =>
          if 0 <=? e then
            let z := Zpos p * 10 ^ e in
            binary_normalize prec64 emax64 (if s then - z else z) 0 false
          else match 10 ^ (- e) with
               | Zpos q => sf_div (S754_finite s p 0) (S754_finite false q 0)
               | _ => S754_nan
               end
      | _ => S754_zero s
      end
  end.
Definition SF_text (L : libm) : textnum (SF64 L) := {| tn_fix := sf_fix : nat -> SF64 L -> decimal; tn_dec := sf_dec : decimal -> SF64 L |}.
Definition P_text (L : libm) : textnum (PF L) :=
  {| tn_fix := (fun k x => sf_fix k (FloatOps.Prim2SF x)) : nat -> PF L -> decimal;
     tn_dec := (fun d => FloatOps.SF2Prim (sf_dec d)) : decimal -> PF L |}.

(** Python dictionaries with text keys; a key set twice keeps its last value. *)
Definition dict (A : Type) := list (text * A).
Fixpoint dget {A} (d : dict A) (k : text) : option A :=
  match d with [] => None | (k', v) :: d => if teqb k k' then Some v else dget d k end.
Fixpoint dset {A} (d : dict A) (k : text) (v : A) : dict A :=
  match d with
  | [] => [(k, v)]
  | (k', v') :: d => if teqb k k' then (k', v) :: d else (k', v') :: dset d k v
  end.
Fixpoint ddel {A} (d : dict A) (k : text) : dict A :=
  match d with [] => [] | (k', v) :: d => if teqb k k' then d else (k', v) :: ddel d k end.
Definition dmem {A} (d : dict A) (k : text) : bool := match dget d k with Some _ => true | None => false end.
(** d[k] *)
Definition dref {A} (d : dict A) (k : text) : res A :=
  match dget d k with Some v => Ok v | None => Err KeyError end.
