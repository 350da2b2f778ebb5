(** User-defined literals: StrictCommon/strict_literals.hpp.
    The integer literals and _sf, _sd, _sl are consteval: they are evaluated by the compiler, and a program in which the
    evaluation fails a check or is undefined does not compile.  STRICT_STACKTRACE is not defined (with it, a failed check that
    NDEBUG silences is still rejected).  long double is the x87 format: 64 digits, exponents up to 16384. *)
From Coq Require Import Ascii.
From Flocq Require Import Core BinarySingleNaN.
From Verif Require Import Base.Outcome Base.ZList Model.IntModel Model.ArrayIO Model.FloatIO Model.Random.

Inductive compiled (A : Type) := Value (v : A) | Rejected.
Arguments Value {A} v. Arguments Rejected {A}.
(** consteval ([dcl.consteval], [expr.const]). *)
Definition at_compile {A} (o : outcome A) : compiled A := match o with Ok v => Value v | _ => Rejected end.
(** The argument of an integer literal, an unsigned long long: larger literals are ill-formed. *)
Definition ull (n : Z) : outcome Z := if n <=? tmax U64 then Ok n else UB.
(** strict_literals.hpp 16-19 (_si), 22-25 (_sl): the check, then a static_cast; 71-78 (_SI, _SL) the same. *)
Definition lit_signed (c : cfg) (t : ity) (n : Z) : compiled Z :=
  at_compile (x <- ull n ;; check_debug c (Ok (x <=? tmax t)) ;;; Ok (icast t x)).
Definition lit_si (c : cfg) (n : Z) : compiled Z := lit_signed c I32 n.
Definition lit_sl (c : cfg) (n : Z) : compiled Z := lit_signed c I64 n.
(** strict_literals.hpp 28-30 (_sui), 33-35 (_sul): a static_cast; 81-88 (_SUI, _SUL) the same. *)
Definition lit_unsigned (t : ity) (n : Z) : compiled Z := at_compile (x <- ull n ;; Ok (icast t x)).
Definition lit_sui (n : Z) : compiled Z := lit_unsigned U32 n.
Definition lit_sul (n : Z) : compiled Z := lit_unsigned U64 n.

#[export] Instance prec64 : Prec_gt_0 64 := eq_refl.
#[export] Instance emaxld : Prec_lt_emax 64 16384 := eq_refl.
#[export] Instance prec24 : Prec_gt_0 24 := eq_refl.
#[export] Instance emax128 : Prec_lt_emax 24 128 := eq_refl.
(** The argument of a floating-point literal D * 10^E: the nearest long double; out of range is ill-formed. *)
Definition ldarg (D E : Z) : outcome (binary_float 64 16384) :=
  match dec_float 64 16384 false D E with Some x => Ok x | None => UB end.
(** strict_literals.hpp 38-40 (_sf), 43-45 (_sd), 48-50 (_sl): a static_cast to the format; undefined if out of range
    ([conv.double]).  91-103 (_SF, _SD, _SL) the same. *)
Definition lit_real (p e : Z) {Hp : Prec_gt_0 p} {He : Prec_lt_emax p e} (D E : Z) : compiled (binary_float p e) :=
  at_compile (x <- ldarg D E ;; let y := convert p e x in if is_finite y then Ok y else UB).
Definition lit_sf (D E : Z) : compiled (binary_float 24 128) := lit_real 24 128 D E.
Definition lit_sd (D E : Z) : compiled (binary_float 53 1024) := @lit_real 53 1024 eq_refl eq_refl D E.
Definition lit_sld (D E : Z) : compiled (binary_float 64 16384) := at_compile (ldarg D E).

Section Q.
Context (prec emax : Z) {Hp : Prec_gt_0 prec} {He : Prec_lt_emax prec emax}.
(** strtoflt128 on the text of a literal that starts with a digit or a point (hexadecimal not modelled): the longest
    prefix that is a decimal number; out of range gives infinity.  Nothing converted gives 0. *)
Definition strto_end (st : fscan) : binary_float prec emax :=
  match fconv prec emax st with
  | Some v => v
  | None => match st with FNum _ true _ _ _ | FX _ _ _ _ _ => B754_infinity false | _ => B754_zero false end
  end.
Fixpoint strto (st : fscan) (s : text) : binary_float prec emax :=
  match s with
  | a :: s' => match fnext st a with Some st' => strto st' s' | None => strto_end st end
  | [] => strto_end st
  end.
(** strict_literals.hpp 61-62: binary and octal literals. *)
Definition octal (s : text) : bool :=
  match s with
  | a :: b :: _ => Ascii.eqb a "0" && (Ascii.eqb b "b" || Ascii.eqb b "B" || match digit_of b with Some d => d <=? 7 | None => false end)
  | _ => false
  end.
(** strict_literals.hpp 55-67 (_sq), 108-111 (_SQ): evaluated at run time, from the characters of the literal. *)
Definition lit_sq (c : cfg) (s : text) : outcome (binary_float prec emax) :=
  check_always c (negb (octal s)) ;;; Ok (strto (FNum false false 0 0 false) s).
End Q.
