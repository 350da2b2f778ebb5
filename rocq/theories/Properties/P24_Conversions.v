(** Property C70: explicit conversions between built-in types. *)
From Coq Require Import ZArith Reals Lra Lia Bool List.
From Flocq Require Import Core BinarySingleNaN.
From Verif Require Import Base.Outcome Base.ZList Model.IntModel Model.Index Model.Array1D Model.Expr Model.Scalars.
From Verif Require Import Spec.IntSpec Spec.ExprSpec Spec.FloatSpec Spec.Configs Spec.ScalarSpec.
Import ListNotations.
From Verif Require Import Proofs.ExprProofs Proofs.FloatProd Proofs.ConvProofs.
Local Open Scope Z_scope.

(** ** C70: every conversion gives a value of the target type or is undefined; no conversion is ever checked *)
Theorem C70_total : forall b v, valid v -> (exists w, cast b v = Ok w /\ tyof w = b /\ valid w) \/ cast b v = UB.
Proof. exact cast_cases. Qed.
Print Assumptions C70_total.
(** Converting an integer that fits keeps it. *)
Theorem C70_int_fits : forall t u z, fits (signed t) (bits t) z -> cast (TI t) (VI u z) = Ok (VI t z).
Proof. exact cast_int_fits. Qed.
Print Assumptions C70_int_fits.
(** Any other integer is reduced modulo 2^bits, silently. *)
Theorem C70_int_modulo : forall t u z, exists k,
  cast (TI t) (VI u z) = Ok (VI t (z + k * 2 ^ bits t)) /\ fits (signed t) (bits t) (z + k * 2 ^ bits t).
Proof. exact cast_int_int. Qed.
Print Assumptions C70_int_modulo.
Example C70_int_case : cast (TI I32) (VI I64 (2 ^ 32 + 5)) = Ok (VI I32 5) /\ cast (TI U32) (VI I32 (-1)) = Ok (VI U32 (2 ^ 32 - 1)) /\ cast (TI I32) (VI U64 7) = Ok (VI I32 7).
Proof. repeat split. Qed.
(** To a type of at least the same width and back. *)
Theorem C70_int_widening : forall t u z, valid (VI t z) -> bits t <= bits u ->
  exists w, cast (TI u) (VI t z) = Ok w /\ cast (TI t) w = Ok (VI t z).
Proof. exact int_widening. Qed.
Print Assumptions C70_int_widening.
Example C70_int_widening_case : valid (VI I32 (-5)) /\ bits I32 <= bits U64 /\ cast (TI U64) (VI I32 (-5)) = Ok (VI U64 (2 ^ 64 - 5)).
Proof. cbv [valid fits signed bits]. repeat split; lia. Qed.

(** An integer becomes the nearest floating-point number: always finite, relative error at most the unit roundoff, exact if and only if
    representable, in particular up to 2^precision. *)
Theorem C70_int_to_float : forall f t z, valid (VI t z) -> exists x, cast (TF f) (VI t z) = Ok (VF f x) /\ is_finite x = true /\
  B2R x = near (fprec f) (femax f) (IZR z) /\ (Rabs (B2R x - IZR z) <= uro (fprec f) * Rabs (IZR z))%R /\
  (B2R x = IZR z <-> format f (IZR z)) /\ (Z.abs z <= 2 ^ fprec f -> B2R x = IZR z).
Proof. exact int_to_float. Qed.
Print Assumptions C70_int_to_float.
Theorem C70_int_to_float_monotone : forall f t u z z' x x', valid (VI t z) -> valid (VI u z') -> z <= z' ->
  cast (TF f) (VI t z) = Ok (VF f x) -> cast (TF f) (VI u z') = Ok (VF f x') -> (B2R x <= B2R x')%R.
Proof. exact int_to_float_mono. Qed.
Print Assumptions C70_int_to_float_monotone.
(** A finite floating-point number is truncated if the integer part fits. *)
Theorem C70_float_to_int : forall f t (x : flt f) n,
  cast (TI t) (VF f x) = Ok (VI t n) <-> is_finite x = true /\ n = Ztrunc (B2R x) /\ fits (signed t) (bits t) n.
Proof. exact float_to_int. Qed.
Print Assumptions C70_float_to_int.
(** NaN, infinities and numbers out of range: undefined, in debug builds too. *)
Theorem C70_float_to_int_undefined : forall f t (x : flt f),
  ~ (is_finite x = true /\ fits (signed t) (bits t) (Ztrunc (B2R x))) -> cast (TI t) (VF f x) = UB.
Proof. exact float_to_int_undefined. Qed.
Print Assumptions C70_float_to_int_undefined.
Example C70_float_to_int_case : cast (TI I32) (VF F64 (dbl (-7) (-1))) = Ok (VI I32 (-3)) /\ cast (TI U32) (VF F64 (dbl (-1) (-1))) = Ok (VI U32 0) /\
  cast (TI I32) (VF F64 (dbl 1 31)) = UB /\ cast (TI I64) (VF F64 dnan) = UB /\ cast (TI I64) (VF F64 (dinf false)) = UB.
Proof. vm_compute. repeat split. Qed.
(** Between floating-point types: the nearest number of the target type; undefined if that would not be finite; exact if and only if
    representable. *)
Theorem C70_float_to_float : forall f g (x : flt f), is_finite x = true ->
  (Rabs (near (fprec g) (femax g) (B2R x)) < bpow radix2 (femax g))%R ->
  exists y, cast (TF g) (VF f x) = Ok (VF g y) /\ is_finite y = true /\ B2R y = near (fprec g) (femax g) (B2R x) /\ Bsign y = Bsign x /\
            (B2R y = B2R x <-> format g (B2R x)).
Proof. exact float_to_float. Qed.
Print Assumptions C70_float_to_float.
Theorem C70_float_to_float_overflow : forall f g (x : flt f), is_finite x = true ->
  (bpow radix2 (femax g) <= Rabs (near (fprec g) (femax g) (B2R x)))%R -> cast (TF g) (VF f x) = UB.
Proof. exact float_to_float_overflow. Qed.
Print Assumptions C70_float_to_float_overflow.
(** Infinities, NaN and signed zeros are kept. *)
Theorem C70_float_special : forall f g s,
  cast (TF g) (VF f (B754_infinity s)) = Ok (VF g (B754_infinity s)) /\ cast (TF g) (VF f B754_nan) = Ok (VF g B754_nan) /\
  cast (TF g) (VF f (B754_zero s)) = Ok (VF g (B754_zero s)).
Proof. exact float_to_float_special. Qed.
Print Assumptions C70_float_special.
Example C70_float_case : (x <- cast (TF F32) (VF F64 (dbl 1 127)) ;; cast TB x) = Ok (VB true) /\ cast (TF F32) (VF F64 (dbl 1 128)) = UB /\
  (x <- cast (TF F32) (VF F64 (dbl (2 ^ 24 + 1) 0)) ;; cast (TI I32) x) = Ok (VI I32 (2 ^ 24)).
Proof. vm_compute. repeat split. Qed.
(** To a wider floating-point type and back: the same number, infinity or NaN. *)
Theorem C70_float_widening : forall f g (x : flt f), fprec f <= fprec g -> femax f <= femax g ->
  exists y, cast (TF g) (VF f x) = Ok (VF g y) /\ is_finite y = is_finite x /\ B2R y = B2R x /\ cast (TF f) (VF g y) = Ok (VF f x).
Proof. exact float_widening. Qed.
Print Assumptions C70_float_widening.
Example C70_float_widening_case : fprec F32 <= fprec F64 /\ femax F32 <= femax F64 /\ fprec F64 <= fprec F80 /\ femax F64 <= femax F80 /\ fprec F80 <= fprec F128 /\ femax F80 <= femax F128.
Proof. cbn. lia. Qed.
(** An integer to a floating-point type and back: unchanged if representable, in particular if the type has enough digits: int and
    unsigned through double, all through long double and quad. *)
Theorem C70_int_round_trip : forall f t z, valid (VI t z) -> format f (IZR z) ->
  exists w, cast (TF f) (VI t z) = Ok w /\ cast (TI t) w = Ok (VI t z).
Proof. exact int_round_trip. Qed.
Print Assumptions C70_int_round_trip.
Theorem C70_int_round_trip_bits : forall f t z, valid (VI t z) -> bits t <= fprec f ->
  exists w, cast (TF f) (VI t z) = Ok w /\ cast (TI t) w = Ok (VI t z).
Proof. exact int_round_trip_bits. Qed.
Print Assumptions C70_int_round_trip_bits.
Example C70_round_trip_case : bits I32 <= fprec F64 /\ bits U32 <= fprec F64 /\ bits I64 <= fprec F80 /\ bits U64 <= fprec F80 /\ valid (VI I64 (- 2 ^ 63)) /\ ~ bits I64 <= fprec F64.
Proof. cbv [valid fits signed bits fprec]. lia. Qed.
(** Not so for long through double: 2^53 + 1 is changed, and LONG_MAX becomes 2^63, whose conversion back is undefined. *)
Theorem C70_long_double_refuted : exists z, valid (VI I64 z) /\
  (w <- cast (TF F64) (VI I64 z) ;; cast (TI I64) w) <> Ok (VI I64 z) /\ (w <- cast (TF F64) (VI I64 z) ;; cast (TI I64) w) <> UB.
Proof. exists (2 ^ 53 + 1). split; [cbv [valid fits signed bits]; lia|]. vm_compute. split; discriminate. Qed.
Print Assumptions C70_long_double_refuted.
Theorem C70_long_max_refuted : exists z, valid (VI I64 z) /\ (w <- cast (TF F64) (VI I64 z) ;; cast (TI I64) w) = UB.
Proof. exists (2 ^ 63 - 1). split; [cbv [valid fits signed bits]; lia|reflexivity]. Qed.
Print Assumptions C70_long_max_refuted.
(** Converting in two steps is not converting in one: a long to double to float rounds twice. *)
Theorem C70_double_rounding_refuted : exists z a b, valid (VI I64 z) /\
  (w <- cast (TF F32) (VI I64 z) ;; cast (TI I64) w) = Ok a /\ (v <- cast (TF F64) (VI I64 z) ;; w <- cast (TF F32) v ;; cast (TI I64) w) = Ok b /\ a <> b.
Proof.
  exists (2 ^ 60 + 2 ^ 36 + 1), (VI I64 (2 ^ 60 + 2 ^ 37)), (VI I64 (2 ^ 60)). split; [cbv [valid fits signed bits]; lia|]. vm_compute. repeat split. discriminate.
Qed.
Print Assumptions C70_double_rounding_refuted.

(** ** Bool, constants, tags, arrays *)
Theorem C70_from_bool : forall x t f, cast (TI t) (VB x) = Ok (VI t (if x then 1 else 0)) /\
  exists y, cast (TF f) (VB x) = Ok (VF f y) /\ is_finite y = true /\ B2R y = (if x then 1 else 0)%R.
Proof. exact from_bool. Qed.
Print Assumptions C70_from_bool.
(** false exactly for zero; NaN is true. *)
Theorem C70_to_bool : forall t z f (x : flt f), cast TB (VI t z) = Ok (VB (negb (z =? 0))) /\
  (exists b, cast TB (VF f x) = Ok (VB b) /\ (b = false <-> is_finite x = true /\ B2R x = 0%R)).
Proof. exact to_bool. Qed.
Print Assumptions C70_to_bool.
Example C70_to_bool_case : cast TB (VF F64 dnan) = Ok (VB true) /\ cast TB (VF F64 (B754_zero true)) = Ok (VB false) /\ cast TB (VF F64 (dbl 1 (-1074))) = Ok (VB true) /\ cast TB (VI I64 (2 ^ 32)) = Ok (VB true).
Proof. vm_compute. repeat split. Qed.
(** Zero, One, NegOne, Thousand, Million and Billion are exact in every type that has them. *)
Theorem C70_constants : forall b z,
  match b with TB => z = 0 \/ z = 1 | TI t => (0 <= z \/ signed t = true) /\ -1 <= z <= 10 ^ 9 | TF _ => In z [0; 1; -1; 10 ^ 3; 10 ^ 6; 10 ^ 9] end ->
  exists v, constant b z = Ok v /\ tyof v = b /\ finite v /\ real v = IZR z.
Proof. exact constants. Qed.
Print Assumptions C70_constants.
Example C70_constants_case : In (10 ^ 9) [0; 1; -1; 10 ^ 3; 10 ^ 6; 10 ^ 9] /\ (x <- constant (TF F32) (10 ^ 9) ;; cast (TI I32) x) = Ok (VI I32 (10 ^ 9)).
Proof. vm_compute. tauto. Qed.
(** Size, Count, Pos, First, Endmost, Index, Rows, Cols and ImplicitNonNegInt keep a non-negative int or long; Stride and ImplicitInt any.
    A negative one is reported exactly in checked builds; otherwise kept.  No other type is accepted. *)
Theorem C70_tag : forall c n t z, valid (VI t z) -> signed t = true -> (n = true -> 0 <= z) -> tag c n (VI t z) = Some (Ok z).
Proof. exact tag_ok. Qed.
Print Assumptions C70_tag.
Theorem C70_tag_negative : forall c t z, valid (VI t z) -> signed t = true -> z < 0 ->
  tag c true (VI t z) = Some (if checked c then Fail (report c) else Ok z).
Proof. exact tag_negative. Qed.
Print Assumptions C70_tag_negative.
Theorem C70_tag_rejects : forall c n v, (forall t z, v = VI t z -> signed t = false) -> tag c n v = None.
Proof. exact tag_rejects. Qed.
Print Assumptions C70_tag_rejects.
Example C70_tag_case : tag c_dbg true (VI I32 (-1)) = Some (Fail Throw) /\ tag c_off true (VI I32 (-1)) = Some (Ok (-1)) /\ tag c_dbg false (VI I64 (-1)) = Some (Ok (-1)) /\ tag c_dbg true (VI U32 5) = None /\ valid (VI I32 (-1)).
Proof. cbv [valid fits signed bits]. repeat split; lia. Qed.
(** array_cast converts every element, each only when it is read. *)
Theorem C70_array_cast : forall b (A : src1 value) l, yields A l -> yields (array_cast b A) (map (fun v => bind v (cast b)) l).
Proof. exact (fun b => un_ok (cast b)). Qed.
Print Assumptions C70_array_cast.
Example C70_array_cast_case : yields (src_of_list [VI I64 5; VI I64 (-7)]) (map Ok [VI I64 5; VI I64 (-7)]) /\
  map (fun v => bind v (cast (TI U32))) (map Ok [VI I64 5; VI I64 (-7)]) = map Ok [VI U32 5; VI U32 (2 ^ 32 - 7)].
Proof. split; [apply (yields_list [VI I64 5; VI I64 (-7)]); vm_compute; congruence|reflexivity]. Qed.
