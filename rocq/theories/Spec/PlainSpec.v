(** The operations of a floating-point type as arguments of the plain reductions, and whole numbers among them. *)
From Coq Require Import ZArith Reals.
From Flocq Require Import Core BinarySingleNaN.
From Verif Require Import Base.Outcome Model.StableOps Model.FloatModel Spec.FloatSpec.

Section SPEC.
Context (prec emax : Z) {Hp : Prec_gt_0 prec} {He : Prec_lt_emax prec emax}.
Notation flt := (binary_float prec emax).
Definition add_f (x y : flt) : outcome flt := Ok (Bplus mode_NE x y).
Definition sub_f (x y : flt) : outcome flt := Ok (Bminus mode_NE x y).
Definition mul_f (x y : flt) : outcome flt := Ok (Bmult mode_NE x y).
Definition div_f (x y : flt) : outcome flt := Ok (Bdiv mode_NE x y).
Definition cast_f (z : Z) : outcome flt := Ok (binary_normalize prec emax Hp He mode_NE z 0 false).
(** A finite value without a fractional part. *)
Definition whole (x : flt) : Prop := is_finite x = true /\ exists z : Z, B2R x = IZR z.
(** Half the smallest positive number: the largest error of a product or quotient in the underflow range. *)
Definition tiny : R := bpow radix2 (2 - emax - prec).
End SPEC.
