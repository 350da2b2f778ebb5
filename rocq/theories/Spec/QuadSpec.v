(** Texts of numbers of quadruple precision. *)
From Coq Require Import Ascii String Reals.
From Flocq Require Import Core BinarySingleNaN.
From Verif Require Import Base.Outcome Base.ZList Model.Scalars Model.ArrayIO Spec.IOSpec Spec.FloatSpec Spec.FloatIOSpec Spec.ReadSpec.

Notation quad := (flt F128).
Notation qp := (fprec F128).
Notation qe := (femax F128).
(** x is (-1)^neg * y rounded to nearest; an infinity if that is out of range. *)
Definition rounds_to (x : quad) (neg : bool) (y : R) : Prop := nearest_to qp qe x neg y \/ (too_large qp qe y /\ x = B754_infinity neg).
(** Hexadecimal digits. *)
Definition hexits : list (ascii * Z) :=
  [("0", 0); ("1", 1); ("2", 2); ("3", 3); ("4", 4); ("5", 5); ("6", 6); ("7", 7); ("8", 8); ("9", 9);
   ("a", 10); ("b", 11); ("c", 12); ("d", 13); ("e", 14); ("f", 15); ("A", 10); ("B", 11); ("C", 12); ("D", 13); ("E", 14); ("F", 15)]%char.
(** Text of hexadecimal digits with value N. *)
Definition hex_digits (s : text) (ds : list Z) : Prop := Forall2 (fun a d => In (a, d) hexits) s ds.
Definition hex_number (ds : list Z) : Z := fold_left (fun v d => 16 * v + d) ds 0.
Inductive hex_mantissa : text -> Z -> Z -> Prop :=
| hman_int u ds : ds <> [] -> hex_digits u ds -> hex_mantissa u (hex_number ds) 0
| hman_frac u v ds fs : ds ++ fs <> [] -> hex_digits u ds -> hex_digits v fs -> hex_mantissa (u ++ "."%char :: v) (hex_number (ds ++ fs)) (zlen fs).
Inductive hex_exponent : text -> Z -> Prop :=
| hexp_none : hex_exponent [] 0
| hexp_some a s X : In a ["p"; "P"]%char -> integer s X -> hex_exponent (a :: s) X.
(** Text of (-1)^neg * N * 2^E. *)
Definition hex_text (s : text) (neg : bool) (N E : Z) : Prop :=
  exists sg x u w k X, s = sg ++ "0"%char :: x :: u ++ w /\ In x ["x"; "X"]%char /\ sign sg neg /\ hex_mantissa u N k /\ hex_exponent w X /\ E = X - 4 * k.
(** A word in any case. *)
Definition cases : list (ascii * ascii) := [("i", "I"); ("n", "N"); ("f", "F"); ("t", "T"); ("y", "Y"); ("a", "A")]%char.
Definition spelt (w s : text) : Prop := Forall2 (fun b a => a = b \/ In (b, a) cases) w s.
Definition name_chars : list ascii := list_ascii_of_string "0123456789abcdefghijklmnopqrstuvwxyzABCDEFGHIJKLMNOPQRSTUVWXYZ_".
Inductive special : text -> bool -> quad -> Prop :=
| sp_inf s neg w : In w [["i"; "n"; "f"]; ["i"; "n"; "f"; "i"; "n"; "i"; "t"; "y"]]%char -> spelt w s -> special s neg (B754_infinity neg)
| sp_nan s neg : spelt ["n"; "a"; "n"]%char s -> special s neg B754_nan
| sp_nan_name s neg u : spelt ["n"; "a"; "n"]%char s -> Forall (fun a => In a name_chars) u -> special (s ++ "("%char :: u ++ [")"%char]) neg B754_nan.
(** Text of a number, and the number. *)
Inductive numeral_of : text -> quad -> Prop :=
| nm_dec s neg D E x : decimal_text s neg D E -> rounds_to x neg (IZR D * ten_to E) -> numeral_of s x
| nm_hex s neg N E x : hex_text s neg N E -> rounds_to x neg (IZR N * bpow radix2 E) -> numeral_of s x
| nm_special sg s neg x : sign sg neg -> special s neg x -> numeral_of (sg ++ s) x.
(** Numbers separated by white space. *)
Inductive qwords : text -> list quad -> Prop :=
| qwords_nil g : gap g -> qwords g []
| qwords_cons g s x r xs : gap g -> numeral_of s x -> qwords r xs -> (match r with [] => True | a :: _ => In a spaces end) -> qwords (g ++ s ++ r) (x :: xs).
(** What a line gives; a line that is not one of numbers is refused, except if the checks are silent. *)
Definition quad_line (c : cfg) (s : text) (l : line quad) : Prop :=
  (lempty l = true <-> s = []) /\ (forall xs, qwords s xs -> ltoks l = xs /\ leof l = true) /\
  (loud c = true -> ~ In "000"%char s -> (forall xs, ~ qwords s xs) -> leof l = false).
(** A sequence of characters without white space and null characters which is no number. *)
Definition malformed (t : text) : Prop := t <> [] /\ Forall (fun a => ~ In a spaces /\ a <> "000"%char) t /\ forall x, ~ numeral_of t x.
(** Numbers whose text has at most 127 characters: in scientific format with at most 118 digits after the point, in fixed format if the digits before
    the point, the p digits after it, the sign and the point are not more.  (Infinities and NaN have four.) *)
Definition fits (sci : bool) (p : nat) (x : quad) : Prop :=
  if sci then (p <= 118)%nat
  else is_finite x = true -> exists k, 1 <= k /\ k + Z.of_nat p + 2 <= 127 /\ (Rabs (B2R x) + / 2 * ten_to (- Z.of_nat p) < ten_to k)%R.
(** Numbers printed with all the digits needed. *)
Definition kept (sci : bool) (p : nat) (x : quad) : Prop := is_finite x = true -> enough_digits qp qe sci p x.
