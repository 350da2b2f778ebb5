(** Error-free transformations in IEEE arithmetic: two_sums, two_prods. *)
From Coq Require Import ZArith Reals Lra Lia.
From Flocq Require Import Core BinarySingleNaN Plus_error Mult_error Sterbenz Pff2Flocq.
From Verif Require Import Base.Outcome Model.StableOps Model.FloatModel.
Local Open Scope R_scope.

Section FP.
Context (prec emax : Z) {Hp : Prec_gt_0 prec} {He : Prec_lt_emax prec emax}.
Hypothesis P2 : (1 < prec)%Z.
Notation flt := (binary_float prec emax).
Notation fexp := (SpecFloat.fexp prec emax).
Notation emin := (3 - emax - prec)%Z.
Notation format := (generic_format radix2 fexp).
Notation rnd := (round radix2 fexp ZnearestE).
Notation F := (fnum prec emax).
Notation ulpm := (bpow radix2 (emax - prec)).
Notation top := (bpow radix2 emax).

Lemma fexp_flt : fexp = FLT_exp emin prec.
Proof. reflexivity. Qed.
Lemma fexp_valid : Valid_exp fexp.
Proof. rewrite fexp_flt. apply FLT_exp_valid. exact Hp. Qed.
Lemma fexp_mono : Monotone_exp fexp.
Proof. rewrite fexp_flt. apply FLT_exp_monotone. Qed.
Lemma choice_ok : forall x, negb (Z.even x) = negb (negb (Z.even (- (x + 1)))).
Proof. intros x. rewrite Bool.negb_involutive, Z.even_opp, Z.even_add. cbn. now destruct (Z.even x). Qed.
Lemma emin_le : (emin <= 0)%Z.
Proof. unfold Prec_lt_emax, Prec_gt_0 in *. lia. Qed.
Existing Instance fexp_valid.
Existing Instance fexp_mono.

Lemma format_B2R (x : flt) : format (B2R x).
Proof. apply generic_format_B2R. Qed.
Lemma format_top e : (e <= emax)%Z -> (emin <= e)%Z -> format (bpow radix2 e).
Proof. intros H1 H2. apply generic_format_bpow. unfold SpecFloat.fexp, SpecFloat.emin. unfold Prec_lt_emax, Prec_gt_0 in *. lia. Qed.

(** Rounding of a number below the overflow threshold moves it by at most half a unit of the top binade. *)
Lemma err_small v : Rabs v < top -> Rabs (rnd v - v) <= ulpm / 2.
Proof.
  intros H. eapply Rle_trans; [apply error_le_half_ulp; apply fexp_valid|].
  assert (ulp radix2 fexp v <= ulpm); [|lra].
  destruct (Req_dec v 0) as [->|N].
  - rewrite fexp_flt, ulp_FLT_0 by exact Hp. apply bpow_le. unfold Prec_lt_emax, Prec_gt_0 in *. lia.
  - rewrite ulp_neq_0 by assumption. apply bpow_le. unfold cexp.
    assert (mag radix2 v <= emax)%Z by (apply mag_le_bpow; assumption).
    unfold SpecFloat.fexp, SpecFloat.emin. unfold Prec_lt_emax, Prec_gt_0 in *. lia.
Qed.
Lemma rnd_below v : Rabs v < top - ulpm / 2 -> Rabs (rnd v) < top.
Proof.
  intros H. assert (0 < ulpm) by apply bpow_gt_0.
  assert (E : Rabs (rnd v - v) <= ulpm / 2) by (apply err_small; lra).
  replace (rnd v) with (v + (rnd v - v)) by ring. eapply Rle_lt_trans; [apply Rabs_triang|]. lra.
Qed.
Lemma rnd_below_inv v : Rabs (rnd v) < top -> Rabs v < top.
Proof.
  intros H. destruct (Rlt_or_le (Rabs v) top) as [L|L]; [assumption|].
  exfalso. apply (Rlt_not_le _ _ H). apply abs_round_ge_generic; [typeclasses eauto|typeclasses eauto| |assumption].
  apply format_top; unfold Prec_lt_emax, Prec_gt_0 in *; lia.
Qed.
Lemma rnd_small v : Rabs v <= ulpm -> Rabs (rnd v) < top.
Proof.
  intros H. apply Rle_lt_trans with ulpm.
  - apply abs_round_le_generic; [typeclasses eauto|typeclasses eauto| |assumption].
    apply format_top; unfold Prec_lt_emax, Prec_gt_0 in *; lia.
  - apply bpow_lt. unfold Prec_gt_0 in *. lia.
Qed.

(** Below the largest finite number there is a gap of one unit. *)
Lemma gap v : format v -> Rabs v < top - ulpm -> Rabs v <= top - ulpm - ulpm.
Proof.
  intros Fv H. assert (U : 0 < ulpm) by apply bpow_gt_0.
  assert (S1 : top = bpow radix2 1 * bpow radix2 (emax - 1)) by (rewrite <- bpow_plus; f_equal; lia).
  change (bpow radix2 1) with 2 in S1.
  assert (S2 : ulpm + ulpm <= bpow radix2 (emax - 1)).
  { replace (ulpm + ulpm) with (bpow radix2 1 * ulpm) by (change (bpow radix2 1) with 2; ring).
    rewrite <- bpow_plus. apply bpow_le. lia. }
  destruct (Rlt_or_le (Rabs v) (bpow radix2 (emax - 1))) as [L|L]; [lra|].
  assert (N : v <> 0). { intros ->. rewrite Rabs_R0 in L. pose proof (bpow_gt_0 radix2 (emax - 1)). lra. }
  assert (M : mag radix2 v = emax :> Z).
  { apply mag_unique. split; [exact L|lra]. }
  assert (C : cexp radix2 fexp v = (emax - prec)%Z).
  { unfold cexp. rewrite M. unfold SpecFloat.fexp, SpecFloat.emin. unfold Prec_lt_emax, Prec_gt_0 in *. lia. }
  unfold generic_format, F2R in Fv. cbn [Fnum Fexp] in Fv. rewrite C in Fv.
  set (k := Ztrunc (scaled_mantissa radix2 fexp v)) in *.
  assert (AV : Rabs v = IZR (Z.abs k) * ulpm).
  { rewrite Fv, Rabs_mult, (Rabs_pos_eq ulpm), abs_IZR by apply bpow_ge_0. reflexivity. }
  rewrite AV in *.
  assert (T : top = IZR (2 ^ prec) * ulpm).
  { change 2%Z with (radix_val radix2). rewrite IZR_Zpower by (unfold Prec_gt_0 in *; lia). rewrite <- bpow_plus. f_equal. lia. }
  assert (Hk : (Z.abs k < 2 ^ prec - 1)%Z).
  { apply lt_IZR. rewrite minus_IZR. apply Rmult_lt_reg_r with ulpm; [assumption|]. lra. }
  assert (Hk2 : IZR (Z.abs k) <= IZR (2 ^ prec) - 2). { rewrite <- minus_IZR. apply IZR_le. lia. }
  apply Rle_trans with ((IZR (2 ^ prec) - 2) * ulpm); [apply Rmult_le_compat_r; lra|]. rewrite T. lra.
Qed.
Lemma B2R_max (x : flt) : Rabs (B2R x) <= top - ulpm.
Proof. apply abs_B2R_le_emax_minus_prec. exact Hp. Qed.

(** If |y| <= |x| then rnd(x + y) - x is a floating-point number. *)
Lemma half_or_fixed x : format x -> format (x / 2) \/ (forall y, format y -> Rabs (x + y) <= Rabs x -> format (x + y)).
Proof.
  intros Fx. apply FLT_format_generic in Fx; [|exact Hp]. destruct Fx as [[m e] Hx Hm Hxe].
  cbn [Fnum Fexp] in *. unfold SpecFloat.emin in *. destruct (Z.eq_dec e emin) as [->|Hne].
  - right. intros y Fy L. apply FLT_format_generic in Fy; [|exact Hp]. destruct Fy as [[k q] Hy Hk Hye]. cbn [Fnum Fexp] in *. unfold SpecFloat.emin in *.
    apply generic_format_FLT.
    assert (E : x + y = F2R (Float radix2 (m + k * radix2 ^ (q - emin)) emin)).
    { rewrite Hx, Hy. unfold F2R. cbn [Fnum Fexp]. rewrite plus_IZR, mult_IZR, IZR_Zpower by lia.
      rewrite Rmult_plus_distr_r, Rmult_assoc, <- bpow_plus. f_equal. f_equal. f_equal. lia. }
    exists (Float radix2 (m + k * radix2 ^ (q - emin)) emin); [exact E| |cbn [Fexp]; unfold SpecFloat.emin; lia].
    cbn [Fnum]. apply Z.le_lt_trans with (Z.abs m); [|exact Hm].
    apply le_IZR. rewrite !abs_IZR. apply Rmult_le_reg_r with (bpow radix2 emin); [apply bpow_gt_0|].
    rewrite <- (Rabs_pos_eq (bpow radix2 emin)) at 1 2 by apply bpow_ge_0. rewrite <- !Rabs_mult.
    unfold F2R in E, Hx. cbn [Fnum Fexp] in E, Hx. rewrite <- E, <- Hx. exact L.
  - left. apply generic_format_FLT. exists (Float radix2 m (e - 1)); [|exact Hm|cbn [Fexp]; unfold SpecFloat.emin; lia].
    rewrite Hx. unfold F2R. cbn [Fnum Fexp]. replace e with (e - 1 + 1)%Z at 1 by lia. rewrite bpow_plus.
    change (bpow radix2 1) with 2. field.
Qed.
Lemma dekker_pos x y : 0 < x -> format x -> format y -> Rabs y <= x -> format (rnd (x + y) - x).
Proof.
  intros Px Fx Fy L. apply Rabs_le_inv in L.
  assert (D : format (2 * x)).
  { rewrite Rmult_comm. change 2 with (bpow radix2 1). apply (mult_bpow_pos_exact_FLT radix2 emin prec); [exact Fx|lia]. }
  assert (RX : rnd x = x) by (apply round_generic; [typeclasses eauto|assumption]).
  destruct (Rle_or_lt 0 y) as [Y|Y].
  - apply sterbenz; [typeclasses eauto|typeclasses eauto|apply generic_format_round; typeclasses eauto|assumption|].
    split.
    + apply Rle_trans with x; [lra|]. rewrite <- RX at 1. apply round_le; [typeclasses eauto|typeclasses eauto|lra].
    + rewrite <- (round_generic radix2 fexp ZnearestE (2 * x) D). apply round_le; [typeclasses eauto|typeclasses eauto|lra].
  - destruct (Rle_or_lt (x / 2) (- y)) as [B|B].
    + assert (FE : format (x + y)).
      { replace (x + y) with (x - - y) by ring. apply sterbenz; [typeclasses eauto|typeclasses eauto|assumption|now apply generic_format_opp|lra]. }
      rewrite round_generic by (try typeclasses eauto; assumption). replace (x + y - x) with y by ring. assumption.
    + destruct (half_or_fixed x Fx) as [Fh|Fh].
      * apply sterbenz; [typeclasses eauto|typeclasses eauto|apply generic_format_round; typeclasses eauto|assumption|].
        split.
        -- rewrite <- (round_generic radix2 fexp ZnearestE (x / 2) Fh). apply round_le; [typeclasses eauto|typeclasses eauto|lra].
        -- apply Rle_trans with x; [|lra]. rewrite <- RX at 2. apply round_le; [typeclasses eauto|typeclasses eauto|lra].
      * assert (FE : format (x + y)). { apply Fh; [assumption|]. rewrite !Rabs_pos_eq by lra. lra. }
        rewrite round_generic by (try typeclasses eauto; assumption). replace (x + y - x) with y by ring. assumption.
Qed.
Lemma dekker x y : format x -> format y -> Rabs y <= Rabs x -> format (rnd (x + y) - x).
Proof.
  intros Fx Fy L. destruct (Rtotal_order x 0) as [N|[->|P]].
  - replace (rnd (x + y) - x) with (- (rnd (- x + - y) - - x)).
    + apply generic_format_opp. apply dekker_pos; [lra|now apply generic_format_opp|now apply generic_format_opp|].
      rewrite Rabs_Ropp. rewrite (Rabs_left x) in L by assumption. exact L.
    + replace (- x + - y) with (- (x + y)) by ring. rewrite round_NE_opp. ring.
  - rewrite Rabs_R0 in L. assert (y = 0) as ->. { destruct (Req_dec y 0) as [E|E]; [exact E|]. apply Rabs_pos_lt in E. lra. }
    replace (0 + 0) with 0 by ring. rewrite round_0 by typeclasses eauto. replace (0 - 0) with 0 by ring. apply generic_format_0.
  - apply dekker_pos; try assumption. rewrite (Rabs_pos_eq x) in L by lra. exact L.
Qed.

(** The operations of Flocq, in the shape used below. *)
Lemma plus_fin (x y : flt) : is_finite x = true -> is_finite y = true -> Rabs (rnd (B2R x + B2R y)) < top ->
  B2R (nadd F x y) = rnd (B2R x + B2R y) /\ is_finite (nadd F x y) = true.
Proof.
  intros Hx Hy H. generalize (Bplus_correct prec emax Hp He mode_NE x y Hx Hy). cbn [round_mode].
  rewrite Rlt_bool_true by exact H. intros (A & B & _). now split.
Qed.
Lemma plus_inv (x y : flt) : is_finite x = true -> is_finite y = true -> is_finite (nadd F x y) = true ->
  B2R (nadd F x y) = rnd (B2R x + B2R y) /\ Rabs (rnd (B2R x + B2R y)) < top.
Proof.
  intros Hx Hy H. generalize (Bplus_correct prec emax Hp He mode_NE x y Hx Hy). cbn [round_mode].
  case Rlt_bool_spec; intros L.
  - intros (A & B & _). now split.
  - intros (A & _). exfalso. change (nadd F x y) with (Bplus mode_NE x y) in H. rewrite <- is_finite_SF_B2SF, A in H. discriminate.
Qed.
Lemma minus_fin (x y : flt) : is_finite x = true -> is_finite y = true -> Rabs (rnd (B2R x - B2R y)) < top ->
  B2R (nsub F x y) = rnd (B2R x - B2R y) /\ is_finite (nsub F x y) = true.
Proof.
  intros Hx Hy H. generalize (Bminus_correct prec emax Hp He mode_NE x y Hx Hy). cbn [round_mode].
  rewrite Rlt_bool_true by exact H. intros (A & B & _). now split.
Qed.
Lemma minus_inv (x y : flt) : is_finite x = true -> is_finite y = true -> is_finite (nsub F x y) = true ->
  B2R (nsub F x y) = rnd (B2R x - B2R y) /\ Rabs (rnd (B2R x - B2R y)) < top.
Proof.
  intros Hx Hy H. generalize (Bminus_correct prec emax Hp He mode_NE x y Hx Hy). cbn [round_mode].
  case Rlt_bool_spec; intros L.
  - intros (A & B & _). now split.
  - intros (A & _). exfalso. change (nsub F x y) with (Bminus mode_NE x y) in H. rewrite <- is_finite_SF_B2SF, A in H. discriminate.
Qed.
Lemma mult_inv (x y : flt) : is_finite x = true -> is_finite y = true -> is_finite (nmul F x y) = true ->
  B2R (nmul F x y) = rnd (B2R x * B2R y) /\ Rabs (rnd (B2R x * B2R y)) < top.
Proof.
  intros Hx Hy H. generalize (Bmult_correct prec emax Hp He mode_NE x y). cbn [round_mode].
  case Rlt_bool_spec; intros L.
  - intros (A & B & _). now split.
  - intros A. exfalso. change (nmul F x y) with (Bmult mode_NE x y) in H. rewrite <- is_finite_SF_B2SF, A in H. discriminate.
Qed.
Lemma mult_fin (x y : flt) : is_finite x = true -> is_finite y = true -> Rabs (rnd (B2R x * B2R y)) < top ->
  B2R (nmul F x y) = rnd (B2R x * B2R y) /\ is_finite (nmul F x y) = true.
Proof.
  intros Hx Hy H. generalize (Bmult_correct prec emax Hp He mode_NE x y). cbn [round_mode].
  rewrite Rlt_bool_true by exact H. intros (A & B & _). rewrite Hx, Hy in B. now split.
Qed.
Lemma fma_fin (x y z : flt) : is_finite x = true -> is_finite y = true -> is_finite z = true ->
  Rabs (rnd (B2R x * B2R y + B2R z)) < top ->
  B2R (nfma F x y z) = rnd (B2R x * B2R y + B2R z) /\ is_finite (nfma F x y z) = true.
Proof.
  intros Hx Hy Hz H. generalize (Bfma_correct prec emax Hp He mode_NE x y z Hx Hy Hz). cbn [round_mode].
  rewrite Rlt_bool_true by exact H. intros (A & B & _). now split.
Qed.

(** Operations with a finite result have finite operands. *)
Lemma plus_args (x y : flt) : is_finite (nadd F x y) = true -> is_finite x = true /\ is_finite y = true.
Proof. destruct x as [a|a| |a m e h], y as [b|b| |b m' e' h']; cbn; try (split; congruence); destruct a, b; cbn; split; congruence. Qed.
Lemma minus_args (x y : flt) : is_finite (nsub F x y) = true -> is_finite x = true /\ is_finite y = true.
Proof. destruct x as [a|a| |a m e h], y as [b|b| |b m' e' h']; cbn; try (split; congruence); destruct a, b; cbn; split; congruence. Qed.
Lemma mult_args (x y : flt) : is_finite (nmul F x y) = true -> is_finite x = true /\ is_finite y = true.
Proof. destruct x as [a|a| |a m e h], y as [b|b| |b m' e' h']; cbn; split; congruence. Qed.
Lemma plus_nan_l (x y : flt) : is_nan x = true -> is_nan (nadd F x y) = true.
Proof. destruct x; try discriminate. now destruct y. Qed.
Lemma plus_nan_r (x y : flt) : is_nan y = true -> is_nan (nadd F x y) = true.
Proof. destruct y; try discriminate. now destruct x. Qed.
Lemma nan_nonfinite (x : flt) : is_nan x = true -> is_finite x = false.
Proof. now destruct x. Qed.

Theorem two_sums_ok (x y : flt) :
  is_finite x = true -> is_finite y = true -> is_finite (nadd F x y) = true ->
  Rabs (B2R y) < top - ulpm \/ is_finite (nsub F (nadd F x y) x) = true ->
  exists r s, two_sums F x y = (r, s) /\ is_finite r = true /\ is_finite s = true /\
    B2R r = rnd (B2R x + B2R y) /\ B2R r + B2R s = B2R x + B2R y.
Proof.
  intros Hx Hy Hr Hz. unfold two_sums.
  destruct (plus_inv x y Hx Hy Hr) as [R1 R2].
  set (r := nadd F x y) in *.
  assert (U : 0 < ulpm) by apply bpow_gt_0.
  assert (U2 : ulpm + ulpm <= top).
  { replace (ulpm + ulpm) with (bpow radix2 1 * ulpm) by (change (bpow radix2 1) with 2; ring).
    rewrite <- bpow_plus. apply bpow_le. lia. }
  pose proof (rnd_below_inv _ R2) as R3. pose proof (err_small _ R3) as R4.
  pose proof (B2R_max x) as MX. pose proof (B2R_max y) as MY.
  (* z *)
  assert (Z0 : Rabs (rnd (B2R r - B2R x)) < top).
  { destruct Hz as [Hz|Hz].
    - apply gap in Hz; [|apply format_B2R]. apply rnd_below. rewrite R1.
      replace (rnd (B2R x + B2R y) - B2R x) with (B2R y + (rnd (B2R x + B2R y) - (B2R x + B2R y))) by ring.
      eapply Rle_lt_trans; [apply Rabs_triang|]. lra.
    - apply minus_inv in Hz; [apply Hz|assumption|assumption]. }
  destruct (minus_fin r x Hr Hx Z0) as [Z1 Z2]. set (z := nsub F r x) in *.
  pose proof (rnd_below_inv _ Z0) as Z3. pose proof (err_small _ Z3) as Z4.
  (* rz *)
  assert (W0 : Rabs (rnd (B2R r - B2R z)) < top).
  { destruct (Rle_or_lt (Rabs (B2R y)) (Rabs (B2R x))) as [L|L].
    - assert (FZ : format (B2R r - B2R x)). { rewrite R1. apply dekker; [apply format_B2R|apply format_B2R|exact L]. }
      rewrite Z1. rewrite (round_generic radix2 fexp ZnearestE (B2R r - B2R x)) by assumption.
      replace (B2R r - (B2R r - B2R x)) with (B2R x) by ring.
      rewrite round_generic by (try typeclasses eauto; apply format_B2R). lra.
    - assert (G : Rabs (B2R x) <= top - ulpm - ulpm). { apply gap; [apply format_B2R|lra]. }
      apply rnd_below. rewrite Z1.
      replace (B2R r - rnd (B2R r - B2R x)) with (B2R x - (rnd (B2R r - B2R x) - (B2R r - B2R x))) by ring.
      eapply Rle_lt_trans; [apply Rabs_triang|]. rewrite Rabs_Ropp. lra. }
  destruct (minus_fin r z Hr Z2 W0) as [W1 W2]. set (rz := nsub F r z) in *.
  pose proof (rnd_below_inv _ W0) as W3. pose proof (err_small _ W3) as W4.
  (* yz *)
  assert (Y0 : Rabs (rnd (B2R y - B2R z)) < top).
  { apply rnd_small. rewrite Z1.
    replace (B2R y - rnd (B2R r - B2R x)) with
      (- (rnd (B2R x + B2R y) - (B2R x + B2R y)) - (rnd (B2R r - B2R x) - (B2R r - B2R x))) by (rewrite R1; ring).
    eapply Rle_trans; [apply Rabs_triang|]. rewrite !Rabs_Ropp. lra. }
  destruct (minus_fin y z Hy Z2 Y0) as [Y1 Y2]. set (yz := nsub F y z) in *.
  (* xrz *)
  assert (X0 : Rabs (rnd (B2R x - B2R rz)) < top).
  { apply rnd_small. rewrite W1.
    replace (B2R x - rnd (B2R r - B2R z)) with
      ((B2R z - (B2R r - B2R x)) - (rnd (B2R r - B2R z) - (B2R r - B2R z))) by ring.
    eapply Rle_trans; [apply Rabs_triang|]. rewrite Rabs_Ropp. rewrite <- Z1 in Z4. lra. }
  destruct (minus_fin x rz Hx W2 X0) as [X1 X2]. set (xrz := nsub F x rz) in *.
  (* s *)
  pose proof (TwoSum_correct emin prec (fun v => negb (Z.even v)) P2 emin_le choice_ok (B2R x) (B2R y) (format_B2R x) (format_B2R y)) as T.
  rewrite <- fexp_flt in T. change (Znearest (fun v : Z => negb (Z.even v))) with ZnearestE in T.
  rewrite <- R1, <- Z1, <- W1, <- Y1, <- X1 in T.
  assert (S0 : Rabs (rnd (B2R xrz + B2R yz)) < top).
  { replace (rnd (B2R xrz + B2R yz)) with (- (B2R r - (B2R x + B2R y))) by lra.
    rewrite Rabs_Ropp, R1. lra. }
  destruct (plus_fin xrz yz X2 Y2 S0) as [S1 S2].
  exists r, (nadd F xrz yz). repeat split; try assumption. rewrite S1. exact T.
Qed.

Theorem two_prods_ok (x y : flt) :
  is_finite x = true -> is_finite y = true -> is_finite (nmul F x y) = true ->
  B2R x * B2R y = 0 \/ bpow radix2 (2 - emax + prec) <= Rabs (B2R x * B2R y) ->
  exists r s, two_prods F x y = (r, s) /\ is_finite r = true /\ is_finite s = true /\
    B2R r = rnd (B2R x * B2R y) /\ B2R r + B2R s = B2R x * B2R y.
Proof.
  intros Hx Hy Hr Hu. unfold two_prods.
  destruct (mult_inv x y Hx Hy Hr) as [R1 R2]. set (r := nmul F x y) in *.
  pose proof (rnd_below_inv _ R2) as R3. pose proof (err_small _ R3) as R4.
  assert (U : 0 < ulpm) by apply bpow_gt_0.
  assert (FE : format (rnd (B2R x * B2R y) - B2R x * B2R y)).
  { apply mult_error_FLT; [exact Hp|typeclasses eauto|apply format_B2R|apply format_B2R|].
    intros NZ. destruct Hu as [Hu|Hu]; [contradiction|]. replace (SpecFloat.emin prec emax + 2 * prec - 1)%Z with (2 - emax + prec)%Z; [exact Hu|].
    unfold SpecFloat.emin. lia. }
  assert (EQ : rnd (B2R x * B2R y + B2R (nneg F r)) = B2R x * B2R y - rnd (B2R x * B2R y)).
  { change (nneg F r) with (Bopp r). rewrite B2R_Bopp, R1.
    replace (B2R x * B2R y + - rnd (B2R x * B2R y)) with (- (rnd (B2R x * B2R y) - B2R x * B2R y)) by ring.
    rewrite round_NE_opp, (round_generic radix2 fexp ZnearestE (rnd (B2R x * B2R y) - B2R x * B2R y)) by assumption. ring. }
  assert (S0 : Rabs (rnd (B2R x * B2R y + B2R (nneg F r))) < top).
  { rewrite EQ. rewrite <- Rabs_Ropp. replace (- (B2R x * B2R y - rnd (B2R x * B2R y))) with (rnd (B2R x * B2R y) - B2R x * B2R y) by ring.
    apply Rle_lt_trans with (1 := R4). apply Rlt_le_trans with ulpm; [lra|]. apply bpow_le. unfold Prec_gt_0 in *. lia. }
  destruct (fma_fin x y (nneg F r) Hx Hy) as [S1 S2]; [|exact S0|].
  { change (nneg F r) with (Bopp r). rewrite is_finite_Bopp. exact Hr. }
  exists r, (nfma F x y (nneg F r)). repeat split; try assumption. rewrite S1, EQ, R1. ring.
Qed.
(** When x + y is not a finite number the second component is NaN. *)
Theorem two_sums_nonfinite (x y : flt) : is_finite (nadd F x y) = false ->
  fst (two_sums F x y) = nadd F x y /\ is_nan (snd (two_sums F x y)) = true.
Proof.
  intros H. unfold two_sums. cbn [fst snd]. split; [reflexivity|]. generalize dependent (nadd F x y). intros r Hr. apply plus_nan_l.
  destruct r as [b|b| |b m e h]; try discriminate; destruct x as [a|a| |a m' e' h']; try reflexivity; destruct a, b; reflexivity.
Qed.
(** The second component is finite only if the intermediate differences are. *)
Lemma two_sums_args (x y : flt) : is_finite (snd (two_sums F x y)) = true ->
  is_finite x = true /\ is_finite y = true /\ is_finite (nadd F x y) = true /\ is_finite (nsub F (nadd F x y) x) = true.
Proof.
  unfold two_sums. cbn [snd]. intros H. apply plus_args in H. destruct H as [H1 H2]. apply minus_args in H1, H2. destruct H1 as [H1 H3], H2 as [H2 H4].
  apply minus_args in H3. tauto.
Qed.
Lemma two_sums_fin (x y : flt) : is_finite (snd (two_sums F x y)) = true ->
  fst (two_sums F x y) = nadd F x y /\ is_finite (nadd F x y) = true /\ B2R (nadd F x y) + B2R (snd (two_sums F x y)) = B2R x + B2R y.
Proof.
  intros H. destruct (two_sums_args x y H) as (H1 & H2 & H3 & H4). destruct (two_sums_ok x y H1 H2 H3 (or_intror H4)) as (r & s & E & A & B & C & D).
  rewrite E in *. cbn [fst snd] in *. assert (r = nadd F x y) as ->. { apply (f_equal fst) in E. now symmetry. }
  repeat split; assumption.
Qed.
(** Overflow of the product of finite numbers: (inf, -inf). *)
Theorem two_prods_overflow (x y : flt) : is_finite x = true -> is_finite y = true -> is_finite (nmul F x y) = false ->
  exists b, two_prods F x y = (B754_infinity b, B754_infinity (negb b)).
Proof.
  intros Hx Hy H. unfold two_prods.
  assert (E : exists b, nmul F x y = B754_infinity b).
  { generalize (Bmult_correct prec emax Hp He mode_NE x y). cbn [round_mode]. case Rlt_bool_spec; intros L.
    - intros (A & B & _). rewrite Hx, Hy in B. change (Bmult mode_NE x y) with (nmul F x y) in B. exfalso. assert (T : is_finite (nmul F x y) = true) by exact B. rewrite H in T. discriminate.
    - intros A. change (Bmult mode_NE x y) with (nmul F x y) in A. destruct (nmul F x y) as [b|b| |b m e h]; try discriminate. now exists b. }
  destruct E as [b E]. rewrite E in *. exists b. f_equal. cbn [nfma fnum nneg Bopp].
  destruct x as [a|a| |a m e h], y as [a'|a'| |a' m' e' h']; try discriminate; reflexivity.
Qed.
Lemma fma_args (x y z : flt) : is_finite (nfma F x y z) = true -> is_finite z = true.
Proof. destruct x, y, z; cbn; try congruence; destruct (Bool.eqb _ _); cbn; congruence. Qed.
Lemma two_prods_fin (x y : flt) : is_finite (snd (two_prods F x y)) = true ->
  B2R x * B2R y = 0 \/ bpow radix2 (2 - emax + prec) <= Rabs (B2R x * B2R y) ->
  is_finite (nmul F x y) = true /\ B2R (nmul F x y) + B2R (snd (two_prods F x y)) = B2R x * B2R y.
Proof.
  intros H HU. assert (HR : is_finite (nmul F x y) = true).
  { cbn [snd two_prods] in H. apply fma_args in H. change (nneg F (nmul F x y)) with (Bopp (nmul F x y)) in H. now rewrite is_finite_Bopp in H. }
  split; [exact HR|]. destruct (mult_args _ _ HR) as [H1 H2]. destruct (two_prods_ok x y H1 H2 HR HU) as (r & s & E & A & B & C & D).
  rewrite E. cbn [snd]. assert (r = nmul F x y) as <-. { apply (f_equal fst) in E. now symmetry. } exact D.
Qed.
(** Without the underflow hypothesis r + s is off by at most half the smallest positive number. *)
Theorem two_prods_bound (x y : flt) : is_finite x = true -> is_finite y = true -> is_finite (nmul F x y) = true ->
  exists r s, two_prods F x y = (r, s) /\ is_finite r = true /\ is_finite s = true /\
    B2R r = rnd (B2R x * B2R y) /\ Rabs (B2R r + B2R s - B2R x * B2R y) <= bpow radix2 emin / 2.
Proof.
  intros Hx Hy Hr. assert (E0 : 0 < bpow radix2 emin) by apply bpow_gt_0.
  destruct (Rle_or_lt (bpow radix2 (2 - emax + prec)) (Rabs (B2R x * B2R y))) as [HB|HB].
  - destruct (two_prods_ok x y Hx Hy Hr (or_intror HB)) as (r & s & E & A & B & C & D). exists r, s. repeat split; try assumption.
    rewrite D. replace (B2R x * B2R y - B2R x * B2R y) with 0 by ring. rewrite Rabs_R0. lra.
  - destruct (mult_inv x y Hx Hy Hr) as [R1 R2]. unfold two_prods. set (r := nmul F x y) in *. set (v := B2R x * B2R y) in *.
    assert (HV : Rabs (rnd v - v) <= bpow radix2 (emin + prec - 2)).
    { eapply Rle_trans; [apply error_le_half_ulp; apply fexp_valid|]. assert (U : ulp radix2 fexp v <= bpow radix2 (emin + prec - 1)).
      { destruct (Req_dec v 0) as [->|NZ].
        - rewrite fexp_flt, ulp_FLT_0 by exact Hp. apply bpow_le. unfold Prec_gt_0 in *. lia.
        - rewrite ulp_neq_0 by assumption. apply bpow_le. unfold cexp. assert (mag radix2 v <= 2 - emax + prec)%Z by (apply mag_le_bpow; assumption).
          unfold SpecFloat.fexp, SpecFloat.emin. unfold Prec_lt_emax, Prec_gt_0 in *. lia. }
      replace (emin + prec - 1)%Z with (emin + prec - 2 + 1)%Z in U by lia. rewrite bpow_plus in U. change (bpow radix2 1) with 2 in U. lra. }
    assert (EV : B2R x * B2R y + B2R (nneg F r) = - (rnd v - v)). { change (nneg F r) with (Bopp r). rewrite B2R_Bopp, R1. fold v. ring. }
    assert (HW : Rabs (B2R x * B2R y + B2R (nneg F r)) <= bpow radix2 (emin + prec - 2)) by (rewrite EV, Rabs_Ropp; exact HV).
    set (w := B2R x * B2R y + B2R (nneg F r)) in *.
    assert (ER : Rabs (rnd w - w) <= bpow radix2 emin / 2).
    { eapply Rle_trans; [apply error_le_half_ulp; apply fexp_valid|]. assert (U : ulp radix2 fexp w <= bpow radix2 emin); [|lra].
      destruct (Req_dec w 0) as [->|NZ].
      - rewrite fexp_flt, ulp_FLT_0 by exact Hp. apply Rle_refl.
      - rewrite ulp_neq_0 by assumption. apply bpow_le. unfold cexp.
        assert (mag radix2 w <= emin + prec - 1)%Z. { apply mag_le_bpow; [assumption|]. eapply Rle_lt_trans; [exact HW|]. apply bpow_lt. lia. }
        unfold SpecFloat.fexp, SpecFloat.emin. lia. }
    assert (S0 : Rabs (rnd w) < top).
    { apply rnd_small. eapply Rle_trans; [exact HW|]. apply bpow_le. unfold Prec_lt_emax, Prec_gt_0 in *. lia. }
    destruct (fma_fin x y (nneg F r) Hx Hy) as [S1 S2]; [|exact S0|].
    { change (nneg F r) with (Bopp r). rewrite is_finite_Bopp. exact Hr. }
    exists r, (nfma F x y (nneg F r)). repeat split; try assumption. rewrite S1. fold w. replace (B2R r + rnd w - v) with (rnd w - w); [exact ER|].
    rewrite EV, R1. ring.
Qed.
End FP.
