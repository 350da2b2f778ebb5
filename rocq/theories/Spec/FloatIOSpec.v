(** Decimal text of floating-point numbers and what it stands for. *)
From Coq Require Import Ascii Reals.
From Flocq Require Import Core BinarySingleNaN.
From Verif Require Import Base.Outcome Base.ZList Model.ArrayIO Spec.IOSpec Spec.FloatSpec.

(** Digits with an optional point: the number D of all digits and the number k of digits after the point. *)
Inductive mantissa : text -> Z -> Z -> Prop :=
| man_int ds : ds <> [] -> Forall (fun d => 0 <= d < 10) ds -> mantissa (map numeral ds) (number ds) 0
| man_frac ds fs : ds ++ fs <> [] -> Forall (fun d => 0 <= d < 10) (ds ++ fs) ->
    mantissa (map numeral ds ++ "."%char :: map numeral fs) (number (ds ++ fs)) (zlen fs).
(** Optional exponent part. *)
Inductive exponent : text -> Z -> Prop :=
| exp_none : exponent [] 0
| exp_some a s X : In a ["e"; "E"]%char -> integer s X -> exponent (a :: s) X.
(** Optional sign. *)
Definition sign (s : text) (neg : bool) : Prop := (s = [] /\ neg = false) \/ (s = ["+"%char] /\ neg = false) \/ (s = ["-"%char] /\ neg = true).
(** Text of the decimal number (-1)^neg * D * 10^E. *)
Definition decimal_text (s : text) (neg : bool) (D E : Z) : Prop :=
  exists sg u w k X, s = sg ++ u ++ w /\ sign sg neg /\ mantissa u D k /\ exponent w X /\ E = X - k.
(** 10^E, E of any sign. *)
Definition ten_to (E : Z) : R := powerRZ 10 E.
Definition signed_by (neg : bool) (y : R) : R := if neg then (- y)%R else y.

Section F.
Context (prec emax : Z).
Notation flt := (binary_float prec emax).
(** x is the number nearest to (-1)^neg * y (ties to even), with the sign kept when the result is zero. *)
Definition nearest_to (x : flt) (neg : bool) (y : R) : Prop :=
  is_finite x = true /\ B2R x = signed_by neg (near prec emax y) /\ Bsign x = neg.
(** The nearest number with an unbounded exponent is out of range. *)
Definition too_large (y : R) : Prop := (bpow radix2 emax <= near prec emax y)%R.
(** Numbers for which p digits after the point are enough: in scientific format p + 1 significant digits if 2^prec < 10^p, in
    fixed format exact multiples of 10^-p. *)
Definition enough_digits (sci : bool) (p : nat) (x : flt) : Prop :=
  if sci then 2 ^ prec < 10 ^ Z.of_nat p else exists z : Z, B2R x = (IZR z * ten_to (- Z.of_nat p))%R.
(** D * 10^E is |x| rounded to a multiple of 10^E, ties to even. *)
Definition rounded_at (x : flt) (D E : Z) : Prop :=
  (Rabs (IZR D * ten_to E - Rabs (B2R x)) <= / 2 * ten_to E)%R /\
  ((Rabs (IZR D * ten_to E - Rabs (B2R x)) = / 2 * ten_to E)%R -> Z.even D = true).
(** Numbers separated by white space, each read to the nearest number. *)
Inductive fwords : text -> list flt -> Prop :=
| fwords_nil g : gap g -> fwords g []
| fwords_cons g s neg D E x r xs : gap g -> decimal_text s neg D E -> nearest_to x neg (IZR D * ten_to E) -> fwords r xs ->
    (match r with [] => True | a :: _ => In a spaces end) -> fwords (g ++ s ++ r) (x :: xs).
End F.
(** Characters that do not belong to decimal numbers. *)
Definition fforeign (a : ascii) : Prop := ~ In a (numerals ++ spaces ++ signs ++ ["."; "e"; "E"]%char).
