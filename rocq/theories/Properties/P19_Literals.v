(** Property C65: user-defined literals. *)
From Coq Require Import ZArith Reals Lra Ascii String.
From Flocq Require Import Core BinarySingleNaN.
From Verif Require Import Base.Outcome Base.ZList Model.IntModel Model.ArrayIO Model.FloatIO Model.Literals.
From Verif Require Import Spec.IntSpec Spec.IOSpec Spec.FloatSpec Spec.FloatIOSpec Spec.LiteralSpec Spec.Configs.
From Verif Require Import Proofs.FloatIOProofs Proofs.RandomProofs Proofs.LiteralProofs.
Local Open Scope Z_scope.

Definition ltxt (s : string) : text := list_ascii_of_string s.

(** ** C65: integers *)
(** A literal that its type can represent has its value, in every build. *)
Theorem C65_integers : forall c n, 0 <= n ->
  (n < 2 ^ 31 -> lit_si c n = Value n) /\ (n < 2 ^ 63 -> lit_sl c n = Value n) /\
  (n < 2 ^ 32 -> lit_sui n = Value n) /\ (n < 2 ^ 64 -> lit_sul n = Value n).
Proof. exact integers. Qed.
Print Assumptions C65_integers.
Example C65_integers_case : lit_si c_dbg 2147483647 = Value 2147483647 /\ lit_sul 18446744073709551615 = Value 18446744073709551615.
Proof. split; vm_compute; reflexivity. Qed.
(** A signed literal that is too large does not compile in a checked build. *)
Theorem C65_rejected : forall c n, checked c = true ->
  (2 ^ 31 <= n -> lit_si c n = Rejected) /\ (2 ^ 63 <= n -> lit_sl c n = Rejected).
Proof. exact signed_large. Qed.
Print Assumptions C65_rejected.
Example C65_rejected_case : lit_si c_abort 2147483648 = Rejected /\ lit_sl c_dbg 9223372036854775808 = Rejected /\ checked c_abort = true.
Proof. repeat split; vm_compute; reflexivity. Qed.
(** Literals beyond 64 bits never compile. *)
Theorem C65_beyond : forall c n, 2 ^ 64 <= n -> lit_si c n = Rejected /\ lit_sl c n = Rejected /\ lit_sui n = Rejected /\ lit_sul n = Rejected.
Proof. exact beyond. Qed.
Print Assumptions C65_beyond.
Example C65_beyond_case : lit_sul (2 ^ 64) = Rejected.
Proof. vm_compute. reflexivity. Qed.
(** Without checks it becomes another number of the type, congruent to it. *)
Theorem C65_unchecked : forall c n, checked c = false -> 0 <= n < 2 ^ 64 ->
  (exists v k, lit_si c n = Value v /\ fits true 32 v /\ v = n + k * 2 ^ 32) /\ (exists v k, lit_sl c n = Value v /\ fits true 64 v /\ v = n + k * 2 ^ 64).
Proof. exact signed_unchecked. Qed.
Print Assumptions C65_unchecked.
Example C65_unchecked_case : lit_si c_off 2147483648 = Value (-2147483648) /\ lit_sl c_off 18446744073709551615 = Value (-1) /\ checked c_off = false /\ checked c_silent = false.
Proof. repeat split; vm_compute; reflexivity. Qed.
(** _sui never checks: its value is the literal modulo 2^32, so "a literal that compiles has the value written" is false for it
    in every build. *)
Theorem C65_sui : forall n, 0 <= n < 2 ^ 64 -> lit_sui n = Value (n mod 2 ^ 32).
Proof. exact sui_mod. Qed.
Print Assumptions C65_sui.
Theorem C65_sui_refuted : exists n v, lit_sui n = Value v /\ v <> n.
Proof. exists 4294967296, 0. split; [vm_compute; reflexivity|lia]. Qed.
Print Assumptions C65_sui_refuted.

(** ** C65: floating point *)
(** _sf and _sd: the literal is rounded to long double, then to the type.  No number of the type lies strictly between the
    result and the literal, and a literal that is a number of the type is that number. *)
Theorem C65_real : forall D E, 0 <= D ->
  (~ too_large 24 128 (near 64 16384 (IZR D * ten_to E)) ->
     exists v, lit_sf D E = Value v /\ is_finite v = true /\ B2R v = near 24 128 (near 64 16384 (IZR D * ten_to E)) /\ Bsign v = false) /\
  (~ too_large 53 1024 (near 64 16384 (IZR D * ten_to E)) ->
     exists v, lit_sd D E = Value v /\ is_finite v = true /\ B2R v = near 53 1024 (near 64 16384 (IZR D * ten_to E)) /\ Bsign v = false).
Proof. exact reals_value. Qed.
Print Assumptions C65_real.
Theorem C65_real_rejected : forall D E, 0 <= D ->
  (too_large 24 128 (near 64 16384 (IZR D * ten_to E)) -> lit_sf D E = Rejected) /\
  (too_large 53 1024 (near 64 16384 (IZR D * ten_to E)) -> lit_sd D E = Rejected).
Proof. exact reals_rejected. Qed.
Print Assumptions C65_real_rejected.
Theorem C65_real_faithful : forall D E, 0 <= D ->
  (forall v, lit_sf D E = Value v -> faithful 24 128 v (IZR D * ten_to E)) /\ (forall v, lit_sd D E = Value v -> faithful 53 1024 v (IZR D * ten_to E)).
Proof. exact reals_faithful. Qed.
Print Assumptions C65_real_faithful.
Theorem C65_real_exact : forall D E, 0 <= D ->
  (forall a, is_finite a = true -> Bsign a = false -> B2R a = (IZR D * ten_to E)%R -> lit_sf D E = Value a) /\
  (forall a, is_finite a = true -> Bsign a = false -> B2R a = (IZR D * ten_to E)%R -> lit_sd D E = Value a).
Proof. exact reals_exact. Qed.
Print Assumptions C65_real_exact.
(** 0.1_sd is the double nearest to 0.1; 1e400_sd does not compile; 2.5_sd is 2.5. *)
Example C65_real_case : sf_lit (lit_sd 1 (-1)) = SpecFloat.S754_finite false 7205759403792794 (-56) /\ sf_lit (lit_sf 1 (-1)) = SpecFloat.S754_finite false 13421773 (-27) /\
  match lit_sd 1 400 with Rejected => True | _ => False end /\ match lit_sf 1 39 with Rejected => True | _ => False end /\
  sf_lit (lit_sd 25 (-1)) = B2SF (dbl 5 (-1)) /\ B2R (dbl 5 (-1)) = (IZR 25 * ten_to (-1))%R.
Proof.
  split; [vm_compute; reflexivity|]. split; [vm_compute; reflexivity|]. split; [vm_compute; exact I|]. split; [vm_compute; exact I|]. split; [vm_compute; reflexivity|].
  change (B2R (dbl 5 (-1))) with (F2R (Float radix2 5629499534213120 (-51))). unfold F2R, ten_to, powerRZ. change (Pos.to_nat 1) with 1%nat. rewrite pow_1. cbn. lra.
Qed.
(** But not always the nearest number: _sd of 1 + 2^-53 + 2^-70 is 1, while reading the same text gives 1 + 2^-52. *)
Theorem C65_real_nearest_refuted : exists D E v x, 0 <= D /\ lit_sd D E = Value v /\ nearest_to 53 1024 x false (IZR D * ten_to E) /\ (B2R v < B2R x)%R.
Proof. exact double_rounding. Qed.
Print Assumptions C65_real_nearest_refuted.
(** long double: nearest. *)
Theorem C65_long_double : forall D E, 0 <= D ->
  (~ too_large 64 16384 (IZR D * ten_to E) -> exists v, lit_sld D E = Value v /\ nearest_to 64 16384 v false (IZR D * ten_to E)) /\
  (too_large 64 16384 (IZR D * ten_to E) -> lit_sld D E = Rejected).
Proof. intros D E HD. split; [now apply long_double_nearest|now apply long_double_rejected]. Qed.
Print Assumptions C65_long_double.
Example C65_long_double_case : sf_lit (lit_sld 1 (-1)) = SpecFloat.S754_finite false 14757395258967641293 (-67) /\ too_large 64 16384 (IZR 1 * ten_to 5000).
Proof.
  split; [vm_compute; reflexivity|]. unfold too_large, near. rewrite ten_to_bpow, Rmult_1_l. apply round_ge_generic; auto with typeclass_instances.
  - apply generic_format_bpow. vm_compute. discriminate.
  - rewrite <- (IZR_Zpower radix2), <- (IZR_Zpower radix10) by lia. apply IZR_le. vm_compute. discriminate.
Qed.

(** ** C65: quadruple precision (any format) *)
Theorem C65_quad : forall prec emax {Hp : Prec_gt_0 prec} {He : Prec_lt_emax prec emax} c s D E, literal_text s D E -> ~ leading_zero s ->
  (~ too_large prec emax (IZR D * ten_to E) -> exists x, lit_sq prec emax c s = Ok x /\ nearest_to prec emax x false (IZR D * ten_to E)) /\
  (too_large prec emax (IZR D * ten_to E) -> lit_sq prec emax c s = Ok (B754_infinity false)).
Proof. intros prec emax Hp He c s D E H HZ. split; [now apply quad_nearest|now apply (quad_large prec emax c s D E)]. Qed.
Print Assumptions C65_quad.
Lemma literal_1000 : literal_text (ltxt "0.1e3") 1 2.
Proof.
  exists (ltxt "0.1"), (ltxt "e3"), 1, 3. split; [reflexivity|]. split; [|split; [|reflexivity]].
  - apply (man_frac [0] [1]); [discriminate|]. repeat constructor; lia.
  - constructor; [now left|]. left. exists [3]. split; [discriminate|]. split; [repeat constructor; lia|]. split; reflexivity.
Qed.
Example C65_quad_case : literal_text (ltxt "0.1e3") 1 2 /\ ~ leading_zero (ltxt "0.1e3") /\
  match lit_sq 113 16384 c_dbg (ltxt "0.1e3") with Ok x => B2SF x | _ => SpecFloat.S754_nan end = SpecFloat.S754_finite false (100 * 2 ^ 106) (-106).
Proof.
  split; [exact literal_1000|]. split; [|vm_compute; reflexivity]. intros (d & r & Hd & H). injection H as H _.
  assert (d = 0 \/ d = 1 \/ d = 2 \/ d = 3 \/ d = 4 \/ d = 5 \/ d = 6 \/ d = 7) as X by lia. intuition (subst d; discriminate).
Qed.
(** A literal that starts with 0 and a digit up to 7 is reported. *)
Theorem C65_quad_octal : forall prec emax {Hp : Prec_gt_0 prec} {He : Prec_lt_emax prec emax} c s, loud c = true -> leading_zero s -> lit_sq prec emax c s = Fail (report c).
Proof. intros. now apply quad_octal. Qed.
Print Assumptions C65_quad_octal.
(** That includes decimal literals such as 01.5, valid in C++: "every decimal literal has its value" is false. *)
Theorem C65_quad_decimal_refuted : forall c, loud c = true -> exists s D E, literal_text s D E /\ ~ too_large 113 16384 (IZR D * ten_to E) /\ lit_sq 113 16384 c s = Fail (report c).
Proof. exact quad_decimal_refuted. Qed.
Print Assumptions C65_quad_decimal_refuted.
(** Everything after a digit separator is dropped: 1'000 is 1. *)
Theorem C65_quad_separator_refuted : forall prec emax {Hp : Prec_gt_0 prec} {He : Prec_lt_emax prec emax} c s D E r,
  literal_text s D E -> lit_sq prec emax c (s ++ "'"%char :: r) = lit_sq prec emax c s.
Proof. intros prec emax Hp He c s D E r H. exact (quad_separator prec emax c s D E r H). Qed.
Print Assumptions C65_quad_separator_refuted.
Example C65_quad_octal_case : leading_zero (ltxt "0755") /\ lit_sq 113 16384 c_abort (ltxt "0755") = Fail Abort /\
  match lit_sq 113 16384 c_dbg (ltxt "1'000") with Ok x => Beqb x (qd 1 0) | _ => false end = true.
Proof. split; [exists 7, (ltxt "55"); split; [lia|reflexivity]|]. split; vm_compute; reflexivity. Qed.
