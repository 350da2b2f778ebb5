(** Property C80: scalar functions on floating-point numbers. *)
From Coq Require Import ZArith Reals Lra Lia.
From Flocq Require Import Core BinarySingleNaN.
From Verif Require Import Base.Outcome Model.IntModel Model.ScalarOps Model.StableOps Model.FloatModel Model.FloatMath.
From Verif Require Import Spec.FloatSpec Spec.FloatMathSpec Spec.Configs.
From Verif Require Import Proofs.FloatMathProofs.
Local Open Scope Z_scope.

Section ANY_FORMAT.
Context (prec emax : Z) {Hp : Prec_gt_0 prec} {He : Prec_lt_emax prec emax}.
Notation flt := (binary_float prec emax).
Notation F := (fnum prec emax).
Notation val := (@B2R prec emax).
Notation fin x := (is_finite x = true).
Notation nan x := (is_nan x = true).
Notation num x := (is_nan x = false).
Notation near := (near prec emax).
Notation top := (bpow radix2 emax).
Notation u := (uro prec).
Notation zero := (B754_zero false : flt).

(** ** Sign and absolute value *)
Theorem C80_signs : forall x : flt, fin (fsigns prec emax x) /\ val (fsigns prec emax x) = (if Bltb zero x then 1 else if Bltb x zero then -1 else 0)%R /\
  (Bltb zero x = false -> Bltb x zero = false -> fsigns prec emax x = zero).
Proof. exact (signs_value prec emax). Qed.
Theorem C80_abss : forall x : flt, nabs F x = match x with B754_zero s => B754_zero (negb s) | _ => Babs x end.
Proof. exact (abs_value prec emax). Qed.

(** ** The smaller and the larger of two *)
Theorem C80_mins : forall x y : flt, num x -> num y -> let m := nmins F x y in (m = x \/ m = y) /\ Bleb m x = true /\ Bleb m y = true.
Proof. exact (mins_value prec emax). Qed.
Theorem C80_maxs : forall x y : flt, num x -> num y -> let m := nmaxs F x y in (m = x \/ m = y) /\ Bleb x m = true /\ Bleb y m = true.
Proof. exact (maxs_value prec emax). Qed.
(** The second argument is the result if either is a NaN. *)
Theorem C80_mins_maxs_nan : forall x y : flt, nan x \/ nan y -> nmins F x y = y /\ nmaxs F x y = y.
Proof. exact (minmax_nan2 prec emax). Qed.

(** ** Reciprocal, root, whole numbers *)
Theorem C80_invs : forall x : flt, match x with
  | B754_zero s => ninvs F x = B754_infinity s
  | B754_infinity s => ninvs F x = B754_zero s
  | B754_nan => ninvs F x = B754_nan
  | _ => if Rlt_bool (Rabs (near (/ val x))) top then fin (ninvs F x) /\ val (ninvs F x) = near (/ val x) else ninvs F x = B754_infinity (Bsign x)
  end.
Proof. exact (invs_value prec emax). Qed.
Theorem C80_sqrts : forall x : flt, match x with
  | B754_zero _ | B754_infinity false | B754_nan => fsqrt prec emax x = x
  | B754_infinity true | B754_finite true _ _ _ => fsqrt prec emax x = B754_nan
  | _ => fin (fsqrt prec emax x) /\ val (fsqrt prec emax x) = near (sqrt (val x))
  end.
Proof. exact (sqrts_value prec emax). Qed.
Theorem C80_floors : forall x : flt, fin x -> let v := ffloors prec emax x in fin v /\ val v = IZR (Zfloor (val x)) /\ Bsign v = Bsign x.
Proof. exact (floors_value prec emax). Qed.
Theorem C80_ceils : forall x : flt, fin x -> let v := fceils prec emax x in fin v /\ val v = IZR (Zceil (val x)) /\ Bsign v = Bsign x.
Proof. exact (ceils_value prec emax). Qed.
Theorem C80_floors_ceils_special : forall x : flt, is_finite x = false -> ffloors prec emax x = x /\ fceils prec emax x = x.
Proof. exact (rounding_special prec emax). Qed.

(** ** Kinds *)
Theorem C80_kinds : forall x : flt,
  match fisnans prec emax x, fisinfs prec emax x, fisfinites prec emax x with true, false, false | false, true, false | false, false, true => True | _, _, _ => False end /\
  (fisnans prec emax x = true <-> Beqb x x = false) /\ (fisfinites prec emax x = true <-> Bltb (Babs x) (B754_infinity false) = true).
Proof. exact (classes prec emax). Qed.

(** ** Squares and cubes *)
Theorem C80_squares : forall x : flt, fin x -> if Rlt_bool (near (val x * val x)) top
  then fin (fsquares prec emax x) /\ val (fsquares prec emax x) = near (val x * val x) else fsquares prec emax x = B754_infinity false.
Proof. exact (squares_value prec emax). Qed.
Theorem C80_cubes : forall x : flt, fin x -> fin (fcubes prec emax x) -> val (fcubes prec emax x) = near (near (val x * val x) * val x).
Proof. exact (cubes_value prec emax). Qed.

(** ** Ranges *)
Theorem C80_clamps : forall c (x low high : flt), Bleb low high = true -> num x -> exists r, fclamps prec emax c x low high = Ok r /\ Bleb low r = true /\ Bleb r high = true /\
  (r = x \/ (r = low /\ Bltb x low = true) \/ (r = high /\ Bltb high x = true)).
Proof. exact (clamps_value prec emax). Qed.
(** A bound that is a NaN is not below the other. *)
Theorem C80_clamps_bad : forall c (x low high : flt), Bleb low high = false \/ nan x -> fclamps prec emax c x low high = if checked c then Fail (report c) else UB.
Proof. exact (clamps_bad prec emax). Qed.
Theorem C80_in : forall c (x low high : flt), Bleb low high = true -> exists a b, fin_open prec emax c x low high = Ok a /\ (a = true <-> Bltb low x = true /\ Bltb x high = true) /\
  fin_closed prec emax c x low high = Ok b /\ (b = true <-> Bleb low x = true /\ Bleb x high = true).
Proof. exact (in_value prec emax). Qed.
Theorem C80_in_bad : forall c (x low high : flt), checked c = true -> Bleb low high = false -> fin_open prec emax c x low high = Fail (report c) /\ fin_closed prec emax c x low high = Fail (report c).
Proof. exact (in_bad prec emax). Qed.

(** ** Powers *)
Theorem C80_power_zero : forall x : flt, ffast_pows prec emax x 0 = Ok (none_ F).
Proof. exact (power_zero prec emax). Qed.
Theorem C80_power : 1 < prec -> forall (x : flt) p, fin x -> 1 <= p <= 2 ^ 63 - 1 -> power_fits prec emax (val x) (Z.to_nat p) ->
  exists r, ffast_pows prec emax x p = Ok r /\ fin r /\ (Rabs (val r - val x ^ Z.to_nat p) <= ((1 + u) ^ (Z.to_nat p - 1) - 1) * Rabs (val x) ^ Z.to_nat p)%R.
Proof. exact (power_acc prec emax). Qed.
Theorem C80_power_negative : 1 < prec -> forall (x : flt) p, fin x -> - 2 ^ 63 < p < 0 -> let n := Z.to_nat (- p) in power_fits prec emax (val x) n -> ((1 + u) ^ n * Rabs (val x) ^ n <= bpow radix2 (emax - 2))%R ->
  exists r, ffast_pows prec emax x p = Ok r /\ fin r /\ (Rabs (val r * val x ^ n - 1) <= (1 + u) / (1 - u) ^ (n - 1) - 1)%R.
Proof. exact (power_neg_acc prec emax). Qed.
End ANY_FORMAT.
Print Assumptions C80_signs.
Print Assumptions C80_abss.
Print Assumptions C80_mins.
Print Assumptions C80_maxs.
Print Assumptions C80_mins_maxs_nan.
Print Assumptions C80_invs.
Print Assumptions C80_sqrts.
Print Assumptions C80_floors.
Print Assumptions C80_ceils.
Print Assumptions C80_floors_ceils_special.
Print Assumptions C80_kinds.
Print Assumptions C80_squares.
Print Assumptions C80_cubes.
Print Assumptions C80_clamps.
Print Assumptions C80_clamps_bad.
Print Assumptions C80_in.
Print Assumptions C80_in_bad.
Print Assumptions C80_power_zero.
Print Assumptions C80_power.
Print Assumptions C80_power_negative.

(** ** Doubles *)
Notation D := (fnum 53 1024).
Notation s_of x := (B2SF x).
Definition shows (m : outcome double) : option SpecFloat.spec_float := match m with Ok x => Some (B2SF x) | _ => None end.
Example C80_signs_case : s_of (fsigns 53 1024 (dbl (-3) (-2))) = s_of (dbl (-1) 0) /\ s_of (fsigns 53 1024 (dinf false)) = s_of (dbl 1 0) /\ fsigns 53 1024 dnan = B754_zero false /\ fsigns 53 1024 (B754_zero true) = B754_zero false.
Proof. repeat split; vm_compute; reflexivity. Qed.
Example C80_two_case : s_of (nmins D (dbl 3 0) (dbl (-5) 1)) = s_of (dbl (-10) 0) /\ s_of (nmaxs D (dbl 3 0) (dinf true)) = s_of (dbl 3 0).
Proof. repeat split; vm_compute; reflexivity. Qed.
Example C80_round_case : s_of (ffloors 53 1024 (dbl (-5) (-1))) = s_of (dbl (-3) 0) /\ s_of (fceils 53 1024 (dbl (-1) (-1))) = s_of (B754_zero true : double) /\
  s_of (fceils 53 1024 (dbl 1 (-1074))) = s_of (dbl 1 0) /\ s_of (fsqrt 53 1024 (dbl 9 2)) = s_of (dbl 6 0) /\ s_of (ninvs D (dbl 1 (-1074))) = s_of (dinf false).
Proof. repeat split; vm_compute; reflexivity. Qed.
Example C80_clamps_case : shows (fclamps 53 1024 c_dbg (dbl 7 0) (dbl 1 0) (dbl 3 0)) = Some (s_of (dbl 3 0)) /\ fclamps 53 1024 c_dbg dnan (dbl 1 0) (dbl 3 0) = Fail Throw /\ fclamps 53 1024 c_off (dbl 7 0) (dbl 3 0) (dbl 1 0) = UB /\
  fin_open 53 1024 c_dbg (dbl 3 0) (dbl 1 0) (dbl 3 0) = Ok false /\ fin_closed 53 1024 c_dbg (dbl 3 0) (dbl 1 0) (dbl 3 0) = Ok true /\ fin_closed 53 1024 c_dbg dnan (dbl 1 0) (dbl 3 0) = Ok false.
Proof. repeat split; vm_compute; reflexivity. Qed.
Lemma three : B2R (dbl 3 0) = 3%R.
Proof. rewrite <- (SF2R_B2SF 53 1024). replace (B2SF (dbl 3 0)) with (SpecFloat.S754_finite false (3 * 2 ^ 51) (-51)) by (vm_compute; reflexivity). cbn [SF2R]. unfold F2R. cbn [Fnum Fexp cond_Zopp]. change (bpow radix2 (-51)) with (/ IZR (2 ^ 51))%R. change (Z.pos (3 * 2 ^ 51)) with (3 * 2 ^ 51)%Z. rewrite mult_IZR. field. apply IZR_neq. discriminate. Qed.
Lemma fits3 : power_fits 53 1024 (B2R (dbl 3 0)) 5.
Proof.
  rewrite three. assert (U : (0 < uro 53 <= / 1024)%R). { split; [apply bpow_gt_0|]. change (/ 1024)%R with (bpow radix2 (-10)). apply bpow_le. lia. }
  assert (L : (/ 2 <= (1 - uro 53) ^ 5)%R) by (apply Rle_trans with ((1 - / 1024) ^ 5)%R; [lra|apply pow_incr; lra]).
  assert (M : ((1 + uro 53) ^ 5 <= 2)%R) by (apply Rle_trans with ((1 + / 1024) ^ 5)%R; [apply pow_incr; lra|lra]).
  assert (T : (bpow radix2 (2 - 1024) <= 1)%R) by (change 1%R with (bpow radix2 0); apply bpow_le; lia).
  assert (B : (1024 <= fmax 53 1024)%R). { unfold fmax. assert (bpow radix2 1024 = 2 * bpow radix2 1023)%R by (change 2%R with (bpow radix2 1); rewrite <- bpow_plus; reflexivity). assert (bpow radix2 (1024 - 53) <= bpow radix2 1023)%R by (apply bpow_le; lia). assert (bpow radix2 10 <= bpow radix2 1023)%R by (apply bpow_le; lia). change 1024%R with (bpow radix2 10). lra. }
  intros k Hk. rewrite Rabs_pos_eq by lra. assert (K : (3 <= 3 ^ k <= 243)%R) by (destruct Hk as [-> | ->]; cbn [pow]; lra). nra.
Qed.
Example C80_power_case : power_fits 53 1024 (B2R (dbl 3 0)) (Z.to_nat 5) /\ shows (ffast_pows 53 1024 (dbl 3 0) 5) = Some (s_of (dbl 243 0)) /\ shows (ffast_pows 53 1024 (dbl 1 1) (-10)) = Some (s_of (dbl 1 (-10))) /\
  shows (ffast_pows 53 1024 dnan 0) = Some (s_of (dbl 1 0)).
Proof. split; [exact fits3|]. repeat split; vm_compute; reflexivity. Qed.

(** Not: the absolute value of a zero is +0, its reciprocal +inf. *)
Theorem C80_abss_refuted : s_of (nabs D (B754_zero false)) = s_of (B754_zero true : double) /\ s_of (ninvs D (nabs D (B754_zero false))) = s_of (dinf true).
Proof. split; vm_compute; reflexivity. Qed.
Print Assumptions C80_abss_refuted.
(** Not: the order of the arguments of mins and maxs does not matter. *)
Theorem C80_order_refuted : nmins D dnan (dbl 1 0) <> nmins D (dbl 1 0) dnan /\ nmaxs D (B754_zero false) (B754_zero true) <> nmaxs D (B754_zero true) (B754_zero false).
Proof. split; intros H; apply (f_equal (@B2SF 53 1024)) in H; vm_compute in H; discriminate H. Qed.
Print Assumptions C80_order_refuted.
(** Not: a negative power is the number nearest to it: 2^-1074 is a double, the result is 0. *)
Theorem C80_power_refuted : exists x p, shows (ffast_pows 53 1024 x p) = Some (s_of (B754_zero false : double)) /\ x = dbl 1 1 /\ p = -1074 /\ is_finite (dbl 1 (-1074)) = true /\ s_of (dbl 1 (-1074)) = SpecFloat.S754_finite false 1 (-1074).
Proof. exists (dbl 1 1), (-1074). repeat split; vm_compute; reflexivity. Qed.
Print Assumptions C80_power_refuted.
