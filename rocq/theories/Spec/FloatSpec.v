(** What is claimed about sums and products in floating point.  Flocq's operations (mode_NE: to nearest, ties to even) and
    real numbers only. *)
From Coq Require Import ZArith Reals List.
From Flocq Require Import Core BinarySingleNaN.
From Verif Require Import Base.Outcome Spec.ReduceSpec Spec.NormSpec.
Import ListNotations.
Local Open Scope Z_scope.

Section SPEC.
Context (prec emax : Z) {Hp : Prec_gt_0 prec} {He : Prec_lt_emax prec emax}.
Notation flt := (binary_float prec emax).

(** The unit roundoff 2^-prec. *)
Definition uro : R := bpow radix2 (- prec).
(** Nearest floating-point number, as a real. *)
Definition near (x : R) : R := round radix2 (FLT_exp (3 - emax - prec) prec) ZnearestE x.
(** The largest finite number. *)
Definition fmax : R := (bpow radix2 emax - bpow radix2 (emax - prec))%R.

Definition fadd : flt -> flt -> flt := Bplus mode_NE.
Definition fmul : flt -> flt -> flt := Bmult mode_NE.
Definition fzero : flt := B754_zero false.
(** The plain sum s + x0 + x1 + ..., rounding after every addition. *)
Definition fsum (s : flt) (l : list flt) : flt := fold_left fadd l s.
(** All running sums are finite numbers. *)
Definition sums_finite (s : flt) (l : list flt) : Prop := forall k, is_finite (fsum s (firstn k l)) = true.
(** es are the errors of the additions of the plain sum. *)
Fixpoint add_errors (s : flt) (l es : list flt) : Prop :=
  match l, es with
  | [], [] => True
  | x :: l', e :: es' =>
      is_finite e = true /\ (B2R (fadd s x) + B2R e = B2R s + B2R x)%R /\ add_errors (fadd s x) l' es'
  | _, _ => False
  end.
(** es are the errors of the products. *)
Fixpoint mul_errors (l k es : list flt) : Prop :=
  match l, k, es with
  | [], [], [] => True
  | x :: l', y :: k', e :: es' =>
      is_finite e = true /\ (B2R (fmul x y) + B2R e = B2R x * B2R y)%R /\ mul_errors l' k' es'
  | _, _, _ => False
  end.
(** The product x * y is zero or so large that its rounding error is not below the subnormal numbers. *)
Definition no_underflow (x y : flt) : Prop :=
  (B2R x * B2R y = 0 \/ bpow radix2 (2 - emax + prec) <= Rabs (B2R x * B2R y))%R.
Fixpoint no_underflows (l k : list flt) : Prop :=
  match l, k with
  | x :: l', y :: k' => no_underflow x y /\ no_underflows l' k'
  | _, _ => True
  end.
Definition reals (l : list flt) : list R := map (@B2R prec emax) l.
End SPEC.

(** Doubles: m * 2^e, rounded. *)
Definition double := binary_float 53 1024.
#[export] Instance prec53 : Prec_gt_0 53 := eq_refl.
#[export] Instance emax1024 : Prec_lt_emax 53 1024 := eq_refl.
Definition dbl (m e : Z) : double := binary_normalize 53 1024 prec53 emax1024 mode_NE m e false.
Definition dnan : double := B754_nan.
Definition dinf (s : bool) : double := B754_infinity s.

Section PRODUCT.
Context (prec emax : Z) {Hp : Prec_gt_0 prec} {He : Prec_lt_emax prec emax}.
Notation flt := (binary_float prec emax).
(** The plain product p * x0 * x1 * ..., rounding after every multiplication. *)
Definition fprod (p : flt) (l : list flt) : flt := fold_left (fmul prec emax) l p.
(** es are the errors of the multiplications of the plain product. *)
Fixpoint step_errors (p : flt) (l es : list flt) : Prop :=
  match l, es with
  | [], [] => True
  | x :: l', e :: es' =>
      is_finite e = true /\ (B2R (fmul prec emax p x) + B2R e = B2R p * B2R x)%R /\ step_errors (fmul prec emax p x) l' es'
  | _, _ => False
  end.
Fixpoint steps_no_underflow (p : flt) (l : list flt) : Prop :=
  match l with
  | [] => True
  | x :: l' => no_underflow prec emax p x /\ steps_no_underflow (fmul prec emax p x) l'
  end.
Definition rprod (l : list R) : R := total Rmult 1%R l.
(** The sum over the steps of the error times the product of all later elements. *)
Fixpoint carried (es l : list flt) : R :=
  match es, l with
  | e :: es', _ :: l' => (B2R e * rprod (reals prec emax l') + carried es' l')%R
  | _, _ => 0%R
  end.
(** Rounded corrections, last one first: each error times the rounded product of the later elements. *)
Fixpoint corrections (t : flt) (ea : list (flt * flt)) : list flt :=
  match ea with
  | [] => []
  | (e, a) :: r => fmul prec emax t e :: corrections (fmul prec emax t a) r
  end.
End PRODUCT.
