(** Integer instances of Strict<T> (StrictCommon/strict_val.hpp). *)
From Verif Require Import Base.Outcome.

(** The integer types admitted by the concept Integer (StrictCommon/strict_traits.hpp lines 30-35):
    int, long int, unsigned int, unsigned long int, with LP64 widths. *)
Inductive ity := I32 | I64 | U32 | U64.

Definition signed (t : ity) : bool := match t with I32 | I64 => true | U32 | U64 => false end.
Definition bits (t : ity) : Z := match t with I32 | U32 => 32 | I64 | U64 => 64 end.
Definition tmin (t : ity) : Z :=
  match t with I32 => -2147483648 | I64 => -9223372036854775808 | U32 | U64 => 0 end.
Definition tmax (t : ity) : Z :=
  match t with
  | I32 => 2147483647 | I64 => 9223372036854775807
  | U32 => 4294967295 | U64 => 18446744073709551615
  end.
Definition tmod (t : ity) : Z := match t with I32 | U32 => 4294967296 | I64 | U64 => 18446744073709551616 end.
Definition inr (t : ity) (z : Z) : bool := (tmin t <=? z) && (z <=? tmax t).

(** Reduction of z to the representable value congruent to it modulo 2^bits. *)
Definition wrap (t : ity) (z : Z) : Z :=
  let r := z mod tmod t in if r <=? tmax t then r else r - tmod t.

(** The C++ rule for + - * on int, long, unsigned, unsigned long (no promotion changes these types):
    unsigned wraps, signed overflow is undefined. *)
Definition arith (t : ity) (z : Z) : outcome Z :=
  if signed t then (if inr t z then Ok z else UB) else Ok (z mod tmod t).

(** strict_val.hpp 382-385, operator+; also += 161-164 (same value computation). *)
Definition iadd (t : ity) (x y : Z) : outcome Z := arith t (x + y).
(** strict_val.hpp 388-391, operator-; also -= 166-169. *)
Definition isub (t : ity) (x y : Z) : outcome Z := arith t (x - y).
(** strict_val.hpp 394-397, operator*; also *= 171-174. *)
Definition imul (t : ity) (x y : Z) : outcome Z := arith t (x * y).
(** strict_val.hpp 128-132, unary minus (static_assert excludes unsigned types; the model only uses signed ones). *)
Definition ineg (t : ity) (x : Z) : outcome Z := arith t (- x).
(** strict_val.hpp 139-159, ++ and --. *)
Definition iincr (t : ity) (x : Z) : outcome Z := arith t (x + 1).
Definition idecr (t : ity) (x : Z) : outcome Z := arith t (x - 1).

(** strict_val.hpp 400-406 operator/ and 176-183 operator/=: the zero check is a debug check;
    the hardware division traps / is undefined for 0 and for MIN / -1. *)
Definition idiv (c : cfg) (t : ity) (x y : Z) : outcome Z :=
  check_debug c (Ok (negb (y =? 0))) ;;;
  if y =? 0 then UB else if inr t (Z.quot x y) then Ok (Z.quot x y) else UB.
(** strict_val.hpp 409-413 operator% and 185-190 operator%=. *)
Definition imod (c : cfg) (t : ity) (x y : Z) : outcome Z :=
  check_debug c (Ok (negb (y =? 0))) ;;;
  if y =? 0 then UB else if inr t (Z.quot x y) then Ok (Z.rem x y) else UB.

(** strict_val.hpp 416-423 operator<< and 192-200 operator<<=: two debug checks for signed types;
    C++20 [expr.shift]: undefined iff the amount is negative or >= width, otherwise the value congruent to x*2^y. *)
Definition ishl (c : cfg) (t : ity) (x y : Z) : outcome Z :=
  (if signed t then check_debug c (Ok (-1 <? x)) ;;; check_debug c (Ok (-1 <? y)) else Ok tt) ;;;
  if (y <? 0) || (bits t <=? y) then UB else Ok (wrap t (x * 2 ^ y)).
(** strict_val.hpp 426-433 operator>> and 202-210 operator>>=: arithmetic shift. *)
Definition ishr (c : cfg) (t : ity) (x y : Z) : outcome Z :=
  (if signed t then check_debug c (Ok (-1 <? x)) ;;; check_debug c (Ok (-1 <? y)) else Ok tt) ;;;
  if (y <? 0) || (bits t <=? y) then UB else Ok (x / 2 ^ y).

(** strict_val.hpp 134-137 operator~, 436-451 operator& | ^ on the two's complement representation. *)
Definition inot (t : ity) (x : Z) : Z := wrap t (Z.lnot x).
Definition iand (t : ity) (x y : Z) : Z := Z.land x y.
Definition ior (t : ity) (x y : Z) : Z := Z.lor x y.
Definition ixor (t : ity) (x y : Z) : Z := Z.lxor x y.

(** strict_val.hpp 309-360, static_cast between integer types (strict_cast, builtin_cast, si(), sl(), sui(), sul()):
    C++20 modular conversion. *)
Definition icast (t : ity) (x : Z) : Z := wrap t x.
