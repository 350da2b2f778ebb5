(** Properties C01-C08: integer scalars. *)
From Verif Require Import Base.Outcome Model.IntModel Model.ScalarOps Spec.IntSpec Spec.ScalarSem.
From Verif Require Import Spec.Configs Proofs.IntProofs Proofs.ScalarProofs.


(** ** C01 *)
(** One operation: exact when representable; otherwise wraps (unsigned) or is undefined (signed); never reported. *)
Theorem C01_single_operation : forall t x y,
  Forall (fun '(res, z) =>
      (fits (signed t) (bits t) z -> res = Ok z) /\
      (~ fits (signed t) (bits t) z -> signed t = true -> res = UB) /\
      (~ fits (signed t) (bits t) z -> signed t = false -> res = Ok (z mod 2 ^ bits t)))
    [(iadd t x y, x + y); (isub t x y, x - y); (imul t x y, x * y);
     (ineg t x, - x); (iincr t x, x + 1); (idecr t x, x - 1)].
Proof. intros t x y. repeat constructor; apply arith_spec. Qed.
Print Assumptions C01_single_operation.

(** Whole expressions of a signed type: the exact value when all intermediate values fit, undefined otherwise. *)
Theorem C01_signed_expression : forall t e,
  signed t = true -> lits_fit (signed t) (bits t) e ->
  (all_fit (signed t) (bits t) e /\ ieval t e = Ok (mval e)) \/
  (~ all_fit (signed t) (bits t) e /\ ieval t e = UB).
Proof. exact ieval_signed. Qed.
Print Assumptions C01_signed_expression.

(** Whole expressions of an unsigned type: the exact value modulo 2^w. *)
Theorem C01_unsigned_expression : forall t e,
  signed t = false -> lits_fit (signed t) (bits t) e -> ieval t e = Ok (mval e mod 2 ^ bits t).
Proof. exact ieval_unsigned. Qed.
Print Assumptions C01_unsigned_expression.

(** Integer casts keep representable values and are modular otherwise. *)
Theorem C01_casts : forall t x,
  fits (signed t) (bits t) (icast t x) /\ (exists k, icast t x = x + k * 2 ^ bits t) /\
  (fits (signed t) (bits t) x -> icast t x = x).
Proof. exact (fun t x => conj (proj1 (icast_spec t x)) (conj (proj2 (icast_spec t x)) (icast_id t x))). Qed.
Print Assumptions C01_casts.

Example C01_case : ieval I32 (Sub (Mul (Lit 65536) (Lit 32768)) (Lit 1)) = UB
  /\ mval (Sub (Mul (Lit 65536) (Lit 32768)) (Lit 1)) = tmax I32
  /\ lits_fit true 32 (Sub (Mul (Lit 65536) (Lit 32768)) (Lit 1))
  /\ ieval U32 (Sub (Lit 3) (Lit 5)) = Ok 4294967294
  /\ ieval I64 (Mul (Add (Lit 3) (Lit 4)) (Lit (-6))) = Ok (-42).
Proof. repeat split; try reflexivity; vm_compute; intuition congruence. Qed.

(** ** C02 *)
Theorem C02_division_identity : forall c t x y,
  fits (signed t) (bits t) x -> fits (signed t) (bits t) y -> y <> 0 -> ~ trap t x y ->
  exists q r, idiv c t x y = Ok q /\ imod c t x y = Ok r /\
    x = q * y + r /\ Z.abs r < Z.abs y /\ 0 <= r * x /\ fits (signed t) (bits t) q /\ fits (signed t) (bits t) r.
Proof. exact idiv_imod_ok. Qed.
Print Assumptions C02_division_identity.

Theorem C02_zero_reported : forall c t x,
  checked c = true -> idiv c t x 0 = Fail (report c) /\ imod c t x 0 = Fail (report c).
Proof. exact idiv_zero. Qed.
Print Assumptions C02_zero_reported.

Theorem C02_zero_unchecked : forall c t x,
  checked c = false -> idiv c t x 0 = UB /\ imod c t x 0 = UB.
Proof. exact idiv_zero_unchecked. Qed.
Print Assumptions C02_zero_unchecked.

(** MIN / -1 is undefined in every configuration. *)
Theorem C02_trap_never_reported : forall c t x y, trap t x y -> idiv c t x y = UB /\ imod c t x y = UB.
Proof. exact idiv_trap. Qed.
Print Assumptions C02_trap_never_reported.

Example C02_case : idiv c_dbg I32 (-7) 2 = Ok (-3) /\ imod c_dbg I32 (-7) 2 = Ok (-1)
  /\ ~ trap I32 (-7) 2 /\ trap I64 (-9223372036854775808) (-1) /\ idiv c_dbg U64 7 0 = Fail Throw.
Proof. unfold trap. repeat split; try reflexivity; intuition congruence. Qed.

(** ** C03 *)
Theorem C03_shift_left : forall c t x y,
  fits (signed t) (bits t) x -> 0 <= x -> 0 <= y < bits t ->
  exists r k, ishl c t x y = Ok r /\ fits (signed t) (bits t) r /\ r = x * 2 ^ y + k * 2 ^ bits t.
Proof. exact ishl_ok. Qed.
Print Assumptions C03_shift_left.

Theorem C03_shift_left_exact : forall c t x y,
  0 <= x -> 0 <= y < bits t -> fits (signed t) (bits t) (x * 2 ^ y) -> ishl c t x y = Ok (x * 2 ^ y).
Proof. exact ishl_exact. Qed.
Print Assumptions C03_shift_left_exact.

Theorem C03_shift_right : forall c t x y,
  0 <= x -> 0 <= y < bits t -> ishr c t x y = Ok (x / 2 ^ y).
Proof. exact ishr_ok. Qed.
Print Assumptions C03_shift_right.

Theorem C03_negative_reported : forall c t x y,
  signed t = true -> checked c = true -> x < 0 \/ y < 0 ->
  ishl c t x y = Fail (report c) /\ ishr c t x y = Fail (report c).
Proof. exact shift_neg. Qed.
Print Assumptions C03_negative_reported.

Theorem C03_wide_shift_never_reported : forall c t x y,
  0 <= x -> bits t <= y -> ishl c t x y = UB /\ ishr c t x y = UB.
Proof. exact shift_wide. Qed.
Print Assumptions C03_wide_shift_never_reported.

Example C03_case : ishl c_dbg I32 3 30 = Ok (-1073741824) /\ ishl c_dbg I32 1 4 = Ok 16
  /\ ishr c_dbg I64 1000 3 = Ok 125 /\ ishl c_dbg I32 1 32 = UB /\ ishr c_dbg I64 (-1) 1 = Fail Throw.
Proof. repeat split; reflexivity. Qed.

(** ** C04 *)
Theorem C04_integer_power : forall c t x pw,
  fits (signed t) (bits t) x -> fits (signed t) (bits t) pw -> 0 <= pw ->
  (fits (signed t) (bits t) (x ^ pw) -> pows c t x pw = Ok (x ^ pw)) /\
  (~ fits (signed t) (bits t) (x ^ pw) -> signed t = true -> pows c t x pw = UB) /\
  (~ fits (signed t) (bits t) (x ^ pw) -> signed t = false -> pows c t x pw = Ok (x ^ pw mod 2 ^ bits t)).
Proof. exact pows_spec. Qed.
Print Assumptions C04_integer_power.

Theorem C04_negative_exponent : forall c t x pw,
  checked c = true -> pw < 0 -> pows c t x pw = Fail (report c).
Proof. exact pows_negative. Qed.
Print Assumptions C04_negative_exponent.

(** (-8)^21 = LONG_MIN is the extreme case: representable, and computed. *)
Example C04_case : pows c_dbg I64 (-8) 21 = Ok LONG_MIN /\ pows c_dbg I64 8 21 = UB
  /\ pows c_dbg U32 3 21 = Ok (3 ^ 21 mod 2 ^ 32).
Proof. repeat split; reflexivity. Qed.

(** ** C05 *)
Theorem C05_factorial_exact : forall c n, 0 <= n <= 20 -> factorial c n = Ok (fact (Z.to_nat n)).
Proof. exact factorial_ok. Qed.
Print Assumptions C05_factorial_exact.
Theorem C05_factorial_overflow : forall c n, 21 <= n <= LONG_MAX -> factorial c n = UB.
Proof. exact factorial_ub. Qed.
Print Assumptions C05_factorial_overflow.
Theorem C05_factorial_negative : forall c n, checked c = true -> n < 0 -> factorial c n = Fail (report c).
Proof. exact factorial_neg. Qed.
Print Assumptions C05_factorial_negative.
Example C05_case : factorial c_dbg 20 = Ok 2432902008176640000.
Proof. reflexivity. Qed.

(** ** C06 *)
Theorem C06_binomial_exact : forall c n k,
  0 <= k <= n -> n < LONG_MAX -> k * choose (Z.to_nat n) (Z.to_nat k) <= LONG_MAX ->
  binom_coeff c n k = Ok (choose (Z.to_nat n) (Z.to_nat k)).
Proof. exact binom_ok. Qed.
Print Assumptions C06_binomial_exact.
Theorem C06_binomial_overflow : forall c n k,
  0 <= k <= n -> n < LONG_MAX -> k * choose (Z.to_nat n) (Z.to_nat k) > LONG_MAX -> binom_coeff c n k = UB.
Proof. exact binom_ub. Qed.
Print Assumptions C06_binomial_overflow.
Theorem C06_binomial_max : forall c k, 0 <= k <= LONG_MAX -> binom_coeff c LONG_MAX k = UB.
Proof. exact binom_max. Qed.
Print Assumptions C06_binomial_max.
Theorem C06_binomial_invalid : forall c n k,
  LONG_MIN <= n <= LONG_MAX -> checked c = true -> k < 0 \/ n < k -> binom_coeff c n k = Fail (report c).
Proof. exact binom_invalid. Qed.
Print Assumptions C06_binomial_invalid.
(** The natural claim "exact whenever C(n,k) fits" is false. *)
Theorem C06_exact_when_it_fits_refuted : exists c n k,
  0 <= k <= n /\ choose (Z.to_nat n) (Z.to_nat k) = 465428353255261088 /\
  choose (Z.to_nat n) (Z.to_nat k) <= LONG_MAX /\ binom_coeff c n k = UB.
Proof.
  exists c_dbg, 62, 31. change (Z.to_nat 62) with 62%nat. change (Z.to_nat 31) with 31%nat.
  rewrite choose_62_31. repeat split; vm_compute; congruence.
Qed.
Print Assumptions C06_exact_when_it_fits_refuted.
Example C06_case : binom_coeff c_dbg 10 3 = Ok 120 /\ binom_coeff c_dbg 52 5 = Ok 2598960.
Proof. split; reflexivity. Qed.

(** ** C07 *)
Theorem C07_clamps_nearest : forall c x low high,
  low <= high -> exists r, clamps c x low high = Ok r /\ low <= r <= high /\
    (forall y, low <= y <= high -> Z.abs (x - r) <= Z.abs (x - y)).
Proof. exact clamps_ok. Qed.
Print Assumptions C07_clamps_nearest.
Theorem C07_clamps_invalid : forall c x low high,
  checked c = true -> high < low -> clamps c x low high = Fail (report c).
Proof. exact clamps_fail. Qed.
Print Assumptions C07_clamps_invalid.
Theorem C07_in_open : forall c x low high,
  low <= high -> exists b, in_open c x low high = Ok b /\ (b = true <-> low < x < high).
Proof. exact in_open_ok. Qed.
Print Assumptions C07_in_open.
Theorem C07_in_closed : forall c x low high,
  low <= high -> exists b, in_closed c x low high = Ok b /\ (b = true <-> low <= x <= high).
Proof. exact in_closed_ok. Qed.
Print Assumptions C07_in_closed.
Theorem C07_ranges_invalid : forall c x low high,
  checked c = true -> high < low ->
  in_open c x low high = Fail (report c) /\ in_closed c x low high = Fail (report c).
Proof. exact in_range_fail. Qed.
Print Assumptions C07_ranges_invalid.
Theorem C07_mins_maxs : forall x y, mins x y = Z.min x y /\ maxs x y = Z.max x y.
Proof. exact (fun x y => conj (mins_min x y) (maxs_max x y)). Qed.
Print Assumptions C07_mins_maxs.
Theorem C07_abss : forall t x,
  fits (signed t) (bits t) x -> x <> - 2 ^ (bits t - 1) -> abss t x = Ok (Z.abs x).
Proof. exact abss_ok. Qed.
Print Assumptions C07_abss.
Theorem C07_abss_min : forall t, signed t = true -> abss t (- 2 ^ (bits t - 1)) = UB.
Proof. exact abss_min. Qed.
Print Assumptions C07_abss_min.
Theorem C07_signs : forall x,
  signs x * Z.abs x = x /\ (signs x = 1 <-> 0 < x) /\ (signs x = -1 <-> x < 0) /\ (signs x = 0 <-> x = 0).
Proof. exact signs_abs. Qed.
Print Assumptions C07_signs.
Example C07_case : clamps c_dbg 17 (-3) 5 = Ok 5 /\ clamps c_dbg 4 5 3 = Fail Throw /\ abss I32 (-9) = Ok 9.
Proof. repeat split; reflexivity. Qed.

(** ** C08 *)
Theorem C08_fast_power : forall (M : Type) (mul : M -> M -> M) (one : M) (inv : M -> M),
  (forall a b c, mul a (mul b c) = mul (mul a b) c) -> (forall a, mul one a = a) -> (forall a, mul a one = a) ->
  forall x p, LONG_MIN < p <= LONG_MAX ->
  exists k, fast_pows_int mul one inv x p =
    Ok (if 0 <=? p then mpow mul one x (Z.to_nat p) else inv (mpow mul one x (Z.to_nat (- p))), k) /\
    0 <= k <= 2 * Z.log2 (Z.abs p) + 1.
Proof. exact @fast_pows_int_ok. Qed.
Print Assumptions C08_fast_power.
Theorem C08_fast_power_min : forall (M : Type) (mul : M -> M -> M) (one : M) (inv : M -> M) x,
  fast_pows_int mul one inv x LONG_MIN = UB.
Proof. exact @fast_pows_int_min. Qed.
Print Assumptions C08_fast_power_min.
(** 3^13 in the monoid of integers: 13 = 1101b, 4 bits, 3 set: 3 + 3 multiplications. *)
Example C08_case : fast_pows_int Z.mul 1 (fun z => z) 3 13 = Ok (1594323, 6) /\ Z.log2 13 = 3.
Proof. split; reflexivity. Qed.
