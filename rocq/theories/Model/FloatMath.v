(** Scalar functions on floating-point numbers: StrictCommon/strict_math.hpp and StrictCommon/strict_val_ops.hpp.  abss, mins, maxs and invs are
    [nabs], [nmins], [nmaxs], [ninvs] of StableOps, sqrts is [fsqrt] of FloatModel. *)
From Coq Require Import ZArith.
From Flocq Require Import Core BinarySingleNaN.
From Verif Require Import Base.Outcome Model.ScalarOps Model.StableOps Model.FloatModel.

Section FLT.
Context (prec emax : Z) {Hp : Prec_gt_0 prec} {He : Prec_lt_emax prec emax}.
Notation flt := (binary_float prec emax).
Notation F := (fnum prec emax).

(** strict_math.hpp 19-22: signs; the difference of two bools is an int, converted. *)
Definition fsigns (x : flt) : flt := nofZ F (Z.b2z (nlt F (nzero F) x) - Z.b2z (nlt F x (nzero F))).
(** strict_math.hpp 176-202: floors, ceils; std::floor and std::ceil are exact (IEEE 754 roundToIntegral). *)
Definition ffloors (x : flt) : flt := Bnearbyint mode_DN x.
Definition fceils (x : flt) : flt := Bnearbyint mode_UP x.
(** strict_math.hpp 206-248: isinfs, isnans, isfinites. *)
Definition fisinfs (x : flt) : bool := match x with B754_infinity _ => true | _ => false end.
Definition fisnans (x : flt) : bool := is_nan x.
Definition fisfinites (x : flt) : bool := is_finite x.
(** strict_math.hpp 254-263: squares, cubes. *)
Definition fsquares (x : flt) : flt := nmul F x x.
Definition fcubes (x : flt) : flt := nmul F (nmul F x x) x.
(** strict_val_ops.hpp 45-60: clamps.  std::clamp requires the three values to be comparable ([alg.clamp]: no NaN) and high not below low. *)
Definition fclamps (c : cfg) (x low high : flt) : outcome flt :=
  check_debug c (Ok (nle F low high)) ;;;
  check_debug c (Ok (negb (fisnans x))) ;;; check_debug c (Ok (negb (fisnans low))) ;;; check_debug c (Ok (negb (fisnans high))) ;;;
  if fisnans x || fisnans low || fisnans high || nlt F high low then UB
  else Ok (if nlt F x low then low else if nlt F high x then high else x).
(** strict_val_ops.hpp 93-116: in_open, in_closed. *)
Definition fin_open (c : cfg) (x low high : flt) : outcome bool :=
  check_debug c (Ok (nle F low high)) ;;; Ok (ngt F x low && nlt F x high).
Definition fin_closed (c : cfg) (x low high : flt) : outcome bool :=
  check_debug c (Ok (nle F low high)) ;;; Ok (nge F x low && nle F x high).
(** strict_val_ops.hpp 69-84: fast_pows_int. *)
Definition ffast_pows (x : flt) (p : Z) : outcome flt := r <- fast_pows_int (nmul F) (none_ F) (ninvs F) x p ;; Ok (fst r).
End FLT.
