(** Property C71: what compiles, and what it computes. *)
From Coq Require Import ZArith Reals Lra Lia Bool List.
From Flocq Require Import Core BinarySingleNaN.
From Verif Require Import Base.Outcome Base.ZList Model.IntModel Model.Scalars.
From Verif Require Import Spec.IntSpec Spec.FloatSpec Spec.Configs Spec.ScalarSpec.
Import ListNotations.
From Verif Require Import Proofs.ConvProofs Proofs.TypingProofs.
Local Open Scope Z_scope.

(** A program with an int, a double and a bool variable: b && (double(i / 2) < x) ? i % 7 : -i. *)
Definition ex_G : list vty := [Str (TI I32); Str (TF F64); Str TB].
Definition ex_r : list value := [VI I32 9; VF F64 (dbl 17 (-1)); VB true].
Definition ex_e : exp :=
  XIf (XBin OLand (XVar 2) (XBin OLt (XWhole F64 (XBin ODiv (XVar 0) (XDeduce (XRaw (VI I32 2))))) (XVar 1)))
      (XBin OMod (XVar 0) (XMake (TI I32) (XRaw (VI I32 7)))) (XUn UMinus (XVar 0)).

(** ** C71: soundness *)
(** A program that compiles never applies an operation to an operand of another type (eval is not None: no implicit conversion of a
    Strict value); its result has its type and is in range; it fails only by a check that is switched on. *)
Theorem C71_soundness : forall c G r e t, matches G r -> consts_valid e -> typ G e = Some t ->
  exists o, eval c G r e = Some o /\
    match o with Ok v => tyof v = base t /\ valid v | Fail f => f = report c /\ checked c = true | UB => True end.
Proof. exact (fun c G r e t M HC HT => soundness c G r e M HC t HT). Qed.
Print Assumptions C71_soundness.
Example C71_case : matches ex_G ex_r /\ consts_valid ex_e /\ typ ex_G ex_e = Some (Str (TI I32)) /\ eval c_dbg ex_G ex_r ex_e = Some (Ok (VI I32 2)).
Proof. split; [repeat constructor; cbv [fits signed bits]; lia|]. split; [cbv [consts_valid ex_e valid fits signed bits]; intuition lia|]. vm_compute. split; reflexivity. Qed.
(** What a checked build computes every build computes; builds without checks all compute the same. *)
Theorem C71_config : forall c c' G r e v, (checked c = true \/ checked c' = false) -> eval c G r e = Some (Ok v) -> eval c' G r e = Some (Ok v).
Proof. exact config_ok. Qed.
Print Assumptions C71_config.
(** Deleting Strict from the program gives the same result by the rules of C++ (integer promotion, usual arithmetic conversions); only a
    bool may be computed as an int (from ^). *)
Theorem C71_erasure : forall c G r e t v, matches G r -> consts_valid e -> typ G e = Some t -> eval c G r e = Some (Ok v) ->
  exists w, cpp r (erase e) = Ok w /\ cast (base t) w = Ok v /\ (base t <> TB -> w = v).
Proof. exact erasure_ok. Qed.
Print Assumptions C71_erasure.
Example C71_erasure_case : cpp ex_r (erase ex_e) = Ok (VI I32 2) /\ cpp [] (erase (XBin OXor (XDeduce (XRaw (VB true))) (XDeduce (XRaw (VB false))))) = Ok (VI I32 1).
Proof. vm_compute. split; reflexivity. Qed.
(** Without && and ||, and without checks, it is undefined exactly when the built-in program is. *)
Theorem C71_erasure_undefined : forall c G r e t, checked c = false -> matches G r -> consts_valid e -> typ G e = Some t -> no_logic e ->
  (eval c G r e = Some UB <-> cpp r (erase e) = UB).
Proof. exact erasure_same. Qed.
Print Assumptions C71_erasure_undefined.
Example C71_erasure_undefined_case : let e := XBin ODiv (XVar 0) (XDeduce (XRaw (VI I32 0))) in no_logic e /\ typ ex_G e = Some (Str (TI I32)) /\ cpp ex_r (erase e) = UB /\ eval c_off ex_G ex_r e = Some UB.
Proof. cbn [no_logic]. split; [repeat split; discriminate|]. vm_compute. repeat split. Qed.
(** && of two StrictBool evaluates its second operand always: i != 0 && 10 / i > 1 fails for i = 0 in a checked build and is undefined in
    the others, where the built-in program is false.  Through .val() it is false. *)
Theorem C71_short_circuit_refuted : exists G r e,
  matches G r /\ consts_valid e /\ typ G e = Some (Str TB) /\ cpp r (erase e) = Ok (VB false) /\
  forall c, eval c G r e = Some (if checked c then Fail (report c) else UB).
Proof.
  set (i0 := XDeduce (XRaw (VI I32 0))). set (ten := XDeduce (XRaw (VI I32 10))). set (one := XDeduce (XRaw (VI I32 1))).
  exists [Str (TI I32)], [VI I32 0], (XBin OLand (XBin ONe (XVar 0) i0) (XBin OGt (XBin ODiv ten (XVar 0)) one)).
  split; [repeat constructor; cbv [fits signed bits]; lia|]. split; [cbv [consts_valid i0 ten one valid fits signed bits]; intuition lia|].
  split; [reflexivity|]. split; [reflexivity|]. intros c. destruct (int_division_zero c I32 10) as (D & _).
  cbn [eval builtin_logic typ nth_error i0 ten one bindo]. change (apply2 c ONe (VI I32 0) (VI I32 0)) with (Some (@Ok value (VB false))). cbn [bindo base tyof option_map op_result bty_eqb ity_eqb].
  rewrite D. destruct (checked c); reflexivity.
Qed.
Print Assumptions C71_short_circuit_refuted.
Example C71_short_circuit_val : forall c, let G := [Str (TI I32)] in let r := [VI I32 0] in
  let ne := XBin ONe (XVar 0) (XDeduce (XRaw (VI I32 0))) in let gt := XBin OGt (XBin ODiv (XDeduce (XRaw (VI I32 10))) (XVar 0)) (XDeduce (XRaw (VI I32 1))) in
  typ G (XBin OLand (XVal ne) gt) = Some (Raw TB) /\ eval c G r (XBin OLand (XVal ne) gt) = Some (Ok (VB false)).
Proof. intros c. split; reflexivity. Qed.

(** ** What does not compile *)
(** Operands Strict<a> and Strict<b>, a different from b. *)
Theorem C71_mixed_rejected : forall G o e1 e2 a b, typ G e1 = Some (Str a) -> typ G e2 = Some (Str b) -> a <> b -> typ G (XBin o e1 e2) = None.
Proof. exact mixed_rejected. Qed.
Print Assumptions C71_mixed_rejected.
(** A Strict value and a built-in value, except a StrictBool in && and ||. *)
Theorem C71_raw_rejected : forall G o e1 e2 a b, typ G e1 = Some (Str a) -> typ G e2 = Some (Raw b) -> (a <> TB \/ (o <> OLand /\ o <> OLor)) ->
  typ G (XBin o e1 e2) = None /\ typ G (XBin o e2 e1) = None.
Proof. exact raw_rejected. Qed.
Print Assumptions C71_raw_rejected.
(** Strict<b>{e} and static_cast<b>(e) from another type. *)
Theorem C71_conversion_rejected : forall G e t b, typ G e = Some t -> base t <> b -> typ G (XMake b e) = None /\ typ G (XExact b e) = None.
Proof. exact conversion_rejected. Qed.
Print Assumptions C71_conversion_rejected.
(** A Strict number as a condition. *)
Theorem C71_condition_rejected : forall G e e1 e2 b, typ G e = Some (Str b) -> b <> TB -> typ G (XIf e e1 e2) = None.
Proof. exact condition_rejected. Qed.
Print Assumptions C71_condition_rejected.
(** Arithmetic on StrictBool; % << >> & | on floating types; && and || on numbers; minus of an unsigned number. *)
Theorem C71_operator_rejected : forall G e1 e2 b, typ G e1 = Some (Str b) -> typ G e2 = Some (Str b) ->
  (b = TB -> forall o, In o [OAdd; OSub; OMul; ODiv; OMod; OShl; OShr; OAnd; OOr] -> typ G (XBin o e1 e2) = None) /\
  (is_int b = false -> forall o, In o [OMod; OShl; OShr; OAnd; OOr] -> typ G (XBin o e1 e2) = None) /\
  (b <> TB -> forall o, In o [OLand; OLor] -> typ G (XBin o e1 e2) = None) /\
  (forall t, b = TI t -> signed t = false -> typ G (XUn UMinus e1) = None).
Proof. exact operator_rejected. Qed.
Print Assumptions C71_operator_rejected.
(** What the rejected programs would compute: -1 < 1u is false, 2^53 + 1 == double(2^53) is true. *)
Example C71_rejected_case : typ [Str (TI I32); Str (TI U32)] (XBin OLt (XVar 0) (XVar 1)) = None /\
  cpp_bin OLt (VI I32 (-1)) (VI U32 1) = Ok (VB false) /\ cpp_bin OEq (VI I64 (2 ^ 53 + 1)) (VF F64 (dbl 1 53)) = Ok (VB true).
Proof. vm_compute. repeat split. Qed.
(** Not every conversion is rejected: a built-in number next to a StrictBool in && is converted to bool. *)
Theorem C71_logic_converts_refuted : exists G e, typ G e = Some (Raw TB) /\ e = XBin OLand (XVar 0) (XRaw (VI I32 5)) /\
  forall c, eval c G [VB true] e = Some (Ok (VB true)).
Proof. exists [Str TB]. eexists. split; [|split; [reflexivity|]]; [reflexivity|]. intros c. reflexivity. Qed.
Print Assumptions C71_logic_converts_refuted.

(** ** The operators *)
(** Comparisons of two values of one type compare the numbers. *)
Theorem C71_comparing : forall c o v w, comparison o -> tyof v = tyof w -> finite v -> finite w ->
  exists b, apply2 c o v w = Some (Ok (VB b)) /\ (b = true <-> compares o (real v) (real w)).
Proof. exact comparing. Qed.
Print Assumptions C71_comparing.
Theorem C71_int_arith : forall c o t x y, In o [OAdd; OSub; OMul] ->
  (fits (signed t) (bits t) (zmath o x y) -> apply2 c o (VI t x) (VI t y) = Some (Ok (VI t (zmath o x y)))) /\
  (~ fits (signed t) (bits t) (zmath o x y) -> signed t = true -> apply2 c o (VI t x) (VI t y) = Some UB) /\
  (signed t = false -> apply2 c o (VI t x) (VI t y) = Some (Ok (VI t (zmath o x y mod 2 ^ bits t)))).
Proof. exact int_arith. Qed.
Print Assumptions C71_int_arith.
Theorem C71_int_division : forall c t x y, valid (VI t x) -> valid (VI t y) -> y <> 0 -> ~ (signed t = true /\ x = - 2 ^ (bits t - 1) /\ y = -1) ->
  exists q r, apply2 c ODiv (VI t x) (VI t y) = Some (Ok (VI t q)) /\ apply2 c OMod (VI t x) (VI t y) = Some (Ok (VI t r)) /\
    x = q * y + r /\ Z.abs r < Z.abs y /\ 0 <= r * x.
Proof. exact int_division. Qed.
Print Assumptions C71_int_division.
Theorem C71_int_division_zero : forall c t x,
  apply2 c ODiv (VI t x) (VI t 0) = Some (if checked c then Fail (report c) else UB) /\ apply2 c OMod (VI t x) (VI t 0) = Some (if checked c then Fail (report c) else UB).
Proof. exact int_division_zero. Qed.
Print Assumptions C71_int_division_zero.
Theorem C71_int_shift : forall c t x y, valid (VI t x) -> 0 <= x -> 0 <= y < bits t ->
  apply2 c OShr (VI t x) (VI t y) = Some (Ok (VI t (x / 2 ^ y))) /\
  exists r k, apply2 c OShl (VI t x) (VI t y) = Some (Ok (VI t r)) /\ fits (signed t) (bits t) r /\ r = x * 2 ^ y + k * 2 ^ bits t.
Proof. exact int_shift. Qed.
Print Assumptions C71_int_shift.
(** & | ^ ~ act on the bits of the two's complement representation; ~x is -x - 1, or 2^bits - 1 - x if unsigned. *)
Theorem C71_bitwise : forall c t x y, fits (signed t) (bits t) x -> fits (signed t) (bits t) y ->
  exists a o e n, apply2 c OAnd (VI t x) (VI t y) = Some (Ok (VI t a)) /\ apply2 c OOr (VI t x) (VI t y) = Some (Ok (VI t o)) /\
    apply2 c OXor (VI t x) (VI t y) = Some (Ok (VI t e)) /\ apply1 UCompl (VI t x) = Some (Ok (VI t n)) /\
    fits (signed t) (bits t) a /\ fits (signed t) (bits t) o /\ fits (signed t) (bits t) e /\ fits (signed t) (bits t) n /\
    (forall i, 0 <= i < bits t -> let X := Z.testbit x i in let Y := Z.testbit y i in
       Z.testbit a i = X && Y /\ Z.testbit o i = X || Y /\ Z.testbit e i = xorb X Y /\ Z.testbit n i = negb X) /\
    n = (if signed t then - x - 1 else 2 ^ bits t - 1 - x).
Proof. exact bitwise. Qed.
Print Assumptions C71_bitwise.
(** Floating-point arithmetic rounds the exact result once. *)
Theorem C71_float_arith : forall c o f (x y : flt f), In o [OAdd; OSub; OMul; ODiv] -> is_finite x = true -> is_finite y = true -> (o = ODiv -> B2R y <> 0%R) ->
  (Rabs (near (fprec f) (femax f) (rmath o (B2R x) (B2R y))) < bpow radix2 (femax f))%R ->
  exists z, apply2 c o (VF f x) (VF f y) = Some (Ok (VF f z)) /\ is_finite z = true /\ B2R z = near (fprec f) (femax f) (rmath o (B2R x) (B2R y)).
Proof. exact float_arith. Qed.
Print Assumptions C71_float_arith.
Theorem C71_negation : forall t z f (x : flt f), signed t = true ->
  (fits (signed t) (bits t) (- z) -> apply1 UMinus (VI t z) = Some (Ok (VI t (- z)))) /\
  (~ fits (signed t) (bits t) (- z) -> apply1 UMinus (VI t z) = Some UB) /\
  exists y, apply1 UMinus (VF f x) = Some (Ok (VF f y)) /\ B2R y = (- B2R x)%R /\ is_finite y = is_finite x.
Proof. exact negation. Qed.
Print Assumptions C71_negation.
Theorem C71_bool_ops : forall c x y, apply2 c OXor (VB x) (VB y) = Some (Ok (VB (xorb x y))) /\ apply2 c OLand (VB x) (VB y) = Some (Ok (VB (x && y))) /\
  apply2 c OLor (VB x) (VB y) = Some (Ok (VB (x || y))) /\ apply1 UNot (VB x) = Some (Ok (VB (negb x))).
Proof. exact bool_ops. Qed.
Print Assumptions C71_bool_ops.
Example C71_operators_case : apply2 c_dbg OSub (VI U32 3) (VI U32 5) = Some (Ok (VI U32 (2 ^ 32 - 2))) /\ apply2 c_dbg OMul (VI I32 (2 ^ 16)) (VI I32 (2 ^ 15)) = Some UB /\
  apply2 c_dbg ODiv (VI I32 (-7)) (VI I32 2) = Some (Ok (VI I32 (-3))) /\ apply2 c_dbg OMod (VI I32 (-7)) (VI I32 2) = Some (Ok (VI I32 (-1))) /\
  apply2 c_dbg OShl (VI I32 3) (VI I32 31) = Some (Ok (VI I32 (- 2 ^ 31))) /\ apply2 c_dbg OXor (VI I32 (-1)) (VI I32 5) = Some (Ok (VI I32 (-6))) /\
  apply1 UCompl (VI U32 0) = Some (Ok (VI U32 (2 ^ 32 - 1))) /\ apply1 UMinus (VI I32 (- 2 ^ 31)) = Some UB /\ apply2 c_dbg OLe (VF F64 (dbl 3 0)) (VF F64 (dbl 7 (-1))) = Some (Ok (VB true)).
Proof. vm_compute. repeat split. Qed.
