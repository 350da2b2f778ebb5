(** The text of floating-point literals. *)
From Coq Require Import Ascii Reals.
From Flocq Require Import Core BinarySingleNaN.
From Verif Require Import Base.Outcome Base.ZList Model.ArrayIO Spec.IOSpec Spec.FloatSpec Spec.FloatIOSpec.

(** A decimal literal (no sign) with value D * 10^E. *)
Definition literal_text (s : text) (D E : Z) : Prop :=
  exists u w k X, s = u ++ w /\ mantissa u D k /\ exponent w X /\ E = X - k.
(** A literal that starts like an octal one: 0, then a digit up to 7. *)
Definition leading_zero (s : text) : Prop := exists d r, 0 <= d <= 7 /\ s = "0"%char :: numeral d :: r.
(** v has no number of the format strictly between itself and y. *)
Definition faithful (prec emax : Z) (v : binary_float prec emax) (y : R) : Prop :=
  is_finite v = true /\ forall a : binary_float prec emax, is_finite a = true ->
    ((B2R a <= y -> B2R a <= B2R v) /\ (y <= B2R a -> B2R v <= B2R a))%R.
