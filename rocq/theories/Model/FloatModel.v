(** IEEE 754 binary floating point (Flocq): float is prec = 24, emax = 128; double 53, 1024; the x87 long double
    64, 16384; __float128 113, 16384.  All operations round to nearest, ties to even; the single NaN of
    Flocq.IEEE754.BinarySingleNaN stands for all NaNs (sign and payload of NaNs are not modelled). *)
From Coq Require Import ZArith Reals.
From Flocq Require Import Core BinarySingleNaN.
From Verif Require Import Base.Outcome Model.StableOps.

Section FLT.
Context (prec emax : Z) {Hp : Prec_gt_0 prec} {He : Prec_lt_emax prec emax}.
Notation flt := (binary_float prec emax).

(** strict_val.hpp: + - * / unary minus and comparisons of the built-in type; std::fma; conversion from an integer
    rounds to nearest. *)
Definition fnum : num flt :=
  mknum (Bplus mode_NE) (Bminus mode_NE) (Bmult mode_NE) (Bdiv mode_NE) (Bfma mode_NE) (@Bopp prec emax)
        (@Bltb prec emax) (@Bleb prec emax) (@Beqb prec emax) (B754_zero false) (Bone (prec_gt_0_ := Hp) (prec_lt_emax_ := He))
        (fun z => binary_normalize prec emax Hp He mode_NE z 0 false).
(** strict_math.hpp, sqrts. *)
Definition fsqrt : flt -> flt := Bsqrt mode_NE.
End FLT.
