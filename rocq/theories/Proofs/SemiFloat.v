(** Semi-random floating-point numbers stay between the bounds. *)
From Coq Require Import ZArith Reals Lra Lia Psatz.
From Flocq Require Import Core BinarySingleNaN Relative Plus_error.
From Verif Require Import Base.Outcome Base.ZList Model.IntModel Model.StableOps Model.FloatModel Model.SemiRandom.
From Verif Require Import Spec.FloatSpec Spec.SemiSpec Proofs.FloatProofs Proofs.SemiProofs.
Local Open Scope R_scope.

Section SEMI.
Context (prec emax : Z) {Hp : Prec_gt_0 prec} {He : Prec_lt_emax prec emax}.
Notation flt := (binary_float prec emax).
Notation F := (fnum prec emax).
Notation near := (near prec emax).
Notation emin := (3 - emax - prec)%Z.
Notation format := (generic_format radix2 (FLT_exp emin prec)).
Hypothesis P24 : (24 <= prec)%Z.

Lemma near_mono x y : x <= y -> near x <= near y.
Proof. apply round_le; [apply FLT_exp_valid; exact Hp|typeclasses eauto]. Qed.
Lemma near_format x : format x -> near x = x.
Proof. apply round_generic. typeclasses eauto. Qed.
Lemma format_fin (x : flt) : format (B2R x).
Proof. apply generic_format_B2R. Qed.
Lemma near_0 : near 0 = 0.
Proof. apply round_0. typeclasses eauto. Qed.
Lemma format_int z : (Z.abs z < 2 ^ 24)%Z -> format (IZR z).
Proof.
  intros H. apply generic_format_FLT. exists (Float radix2 z 0); [unfold F2R; cbn; ring| |cbn [Fexp]; unfold Prec_lt_emax in He; lia].
  cbn [Fnum]. apply Z.lt_le_trans with (2 ^ 24)%Z; [exact H|]. change (radix2 ^ prec)%Z with (2 ^ prec)%Z. apply Z.pow_le_mono_r; lia.
Qed.
Lemma ofZ_small z : (Z.abs z < 2 ^ 24)%Z -> B2R (nofZ F z) = IZR z /\ is_finite (nofZ F z) = true.
Proof.
  intros H. generalize (binary_normalize_correct prec emax Hp He mode_NE z 0 false). cbn [round_mode].
  replace (F2R (Float radix2 z 0)) with (IZR z) by (unfold F2R; cbn; ring).
  change (round radix2 (SpecFloat.fexp prec emax) ZnearestE (IZR z)) with (near (IZR z)). rewrite near_format by now apply format_int.
  rewrite Rlt_bool_true; [intros (A & B & _); split; assumption|]. rewrite <- abs_IZR. apply Rlt_le_trans with (bpow radix2 24).
  - change (bpow radix2 24) with (IZR (2 ^ 24)). now apply IZR_lt.
  - apply bpow_le. unfold Prec_lt_emax in He. lia.
Qed.

(** The quotient of a draw by the modulus. *)
Lemma quot_bound r : (5 <= r <= 9999997)%Z -> exists q : flt, ndiv F (nofZ F r) (nofZ F 10000000) = q /\ is_finite q = true /\ 0 <= B2R q <= 1 - bpow radix2 (-22).
Proof.
  intros HR. eexists. split; [reflexivity|]. destruct (ofZ_small r ltac:(lia)) as [R1 R2]. destruct (ofZ_small 10000000 ltac:(lia)) as [M1 M2].
  assert (Q : 0 <= IZR r / IZR 10000000 <= 1 - bpow radix2 (-22)).
  { assert (5 <= IZR r <= 9999997) by (split; apply IZR_le; lia). change (bpow radix2 (-22)) with (/ IZR (2 ^ 22)). split; [apply Rmult_le_pos; lra|].
    apply Rmult_le_reg_r with 10000000; [lra|]. unfold Rdiv. rewrite Rmult_assoc, Rinv_l, Rmult_1_r by lra. change (2 ^ 22)%Z with 4194304%Z. lra. }
  assert (FB : format (1 - bpow radix2 (-22))).
  { apply generic_format_FLT. exists (Float radix2 (2 ^ 22 - 1) (-22)).
    - unfold F2R. cbn [Fnum Fexp]. change (bpow radix2 (-22)) with (/ IZR (2 ^ 22)). change (2 ^ 22 - 1)%Z with 4194303%Z. change (2 ^ 22)%Z with 4194304%Z. lra.
    - cbn [Fnum]. change (radix2 ^ prec)%Z with (2 ^ prec)%Z. apply Z.lt_le_trans with (2 ^ 24)%Z; [reflexivity|]. apply Z.pow_le_mono_r; lia.
    - cbn [Fexp]. unfold Prec_lt_emax in He. lia. }
  assert (QN : 0 <= near (IZR r / IZR 10000000) <= 1 - bpow radix2 (-22)).
  { split; [rewrite <- near_0; apply near_mono; apply Q|]. rewrite <- (near_format _ FB). apply near_mono. apply Q. }
  generalize (Bdiv_correct prec emax Hp He mode_NE (nofZ F r) (nofZ F 10000000)). rewrite R1, M1. cbn [round_mode]. intros H. specialize (H ltac:(lra)).
  change (round radix2 (SpecFloat.fexp prec emax) ZnearestE (IZR r / 10000000)) with (near (IZR r / IZR 10000000)) in H.
  rewrite Rlt_bool_true in H.
  - destruct H as (A & B & _). change (Bdiv mode_NE (nofZ F r) (nofZ F 10000000)) with (ndiv F (nofZ F r) (nofZ F 10000000)) in A, B. rewrite A, B, R2. split; [reflexivity|]. exact QN.
  - rewrite Rabs_pos_eq by apply QN. pose proof (bpow_gt_0 radix2 (-22)). apply Rle_lt_trans with 1; [lra|]. change 1 with (bpow radix2 0). apply bpow_lt. unfold Prec_lt_emax in He. lia.
Qed.

(** The scaled and rounded width does not exceed the exact width. *)
Lemma scaled_le (l h : flt) q : B2R l <= B2R h -> 0 <= q <= 1 - bpow radix2 (-22) ->
  0 <= near (q * near (B2R h - B2R l)) <= B2R h - B2R l.
Proof.
  intros HL HQ. set (x := B2R h - B2R l) in *. assert (X0 : 0 <= x) by (unfold x; lra).
  assert (W0 : 0 <= near x) by (rewrite <- near_0; now apply near_mono).
  pose proof (bpow_gt_0 radix2 (-22)) as B22.
  split; [rewrite <- near_0; apply near_mono; nra|].
  destruct (Rle_or_lt (near x) x) as [W|W].
  - apply Rle_trans with (near x); [|exact W]. rewrite <- (near_format (near x)) at 2 by (apply generic_format_round; [apply FLT_exp_valid; exact Hp|typeclasses eauto]). apply near_mono. nra.
  - assert (XB : bpow radix2 (prec + emin) < x).
    { apply Rnot_le_lt. intros XS. assert (FX : format x).
      { unfold x, Rminus. apply FLT_format_plus_small; [exact Hp|apply format_fin|apply generic_format_opp; apply format_fin|]. fold (B2R h - B2R l). fold x. rewrite Rabs_pos_eq by exact X0. exact XS. }
      rewrite near_format in W by exact FX. lra. }
    assert (XN : bpow radix2 (emin + prec - 1) <= Rabs x). { rewrite Rabs_pos_eq by exact X0. apply Rlt_le. apply Rle_lt_trans with (2 := XB). apply bpow_le. lia. }
    assert (U : near x <= x * (1 + bpow radix2 (-24))).
    { pose proof (relative_error_N_FLT radix2 emin prec Hp (fun z => negb (Z.even z)) x XN) as R. change (round radix2 (FLT_exp emin prec) (Znearest (fun z => negb (Z.even z))) x) with (near x) in R.
      rewrite (Rabs_pos_eq x) in R by exact X0. apply Rabs_le_inv in R. assert (B : bpow radix2 (- prec + 1) <= bpow radix2 (-23)) by (apply bpow_le; lia).
      change (bpow radix2 (-24)) with (/ IZR (2 ^ 24)). change (bpow radix2 (-23)) with (/ IZR (2 ^ 23)) in B. change (2 ^ 24)%Z with 16777216%Z. change (2 ^ 23)%Z with 8388608%Z in B. set (b := bpow radix2 (- prec + 1)) in *. nra. }
    pose (z := round radix2 (FLT_exp emin prec) Zfloor x).
    assert (FZ : format z) by (apply generic_format_round; [apply FLT_exp_valid; exact Hp|typeclasses eauto]).
    assert (ZX : z <= x) by (apply round_DN_pt; apply FLT_exp_valid; exact Hp).
    assert (ZL : x * (1 - bpow radix2 (-23)) <= z).
    { pose proof (relative_error_FLT radix2 emin prec Hp Zfloor x XN) as R. fold z in R. rewrite (Rabs_pos_eq x) in R by exact X0. apply Rabs_lt_inv in R.
      assert (B : bpow radix2 (- prec + 1) <= bpow radix2 (-23)) by (apply bpow_le; lia). set (b := bpow radix2 (- prec + 1)) in *. nra. }
    apply Rle_trans with z; [|exact ZX]. rewrite <- (near_format z FZ). apply near_mono. apply Rle_trans with (2 := ZL).
    change (bpow radix2 (-24)) with (/ IZR (2 ^ 24)) in *. change (bpow radix2 (-23)) with (/ IZR (2 ^ 23)) in *. change (bpow radix2 (-22)) with (/ IZR (2 ^ 22)) in *.
    change (2 ^ 24)%Z with 16777216%Z in *. change (2 ^ 23)%Z with 8388608%Z in *. change (2 ^ 22)%Z with 4194304%Z in *. 
    apply Rle_trans with ((1 - / 4194304) * (x * (1 + / 16777216))); [apply Rmult_le_compat; lra|]. lra.
Qed.

Lemma draw_range tm seed k : (5 <= draw tm seed k <= 9999997)%Z.
Proof. pose proof (draw_8 tm seed k) as H8. pose proof (draw_bound tm seed k) as HB. generalize dependent (draw tm seed k). intros d H8 HB. pose proof (Z.div_mod d 8). lia. Qed.
Lemma random_num_range c (l h : flt) p d : is_finite l = true -> is_finite h = true -> is_finite (Bminus mode_NE h l) = true -> Bleb l h = true -> (5 <= d <= 9999997)%Z ->
  sg_generate c p = Ok d ->
  exists v, sg_random_num F c l h p = Ok (v, d) /\ is_finite v = true /\ B2R l <= B2R v <= B2R h.
Proof.
  intros Fl Fh Fd HL HD E. unfold sg_random_num. rewrite E. cbn [bind]. destruct (quot_bound d HD) as (q & -> & Fq & Q).
  rewrite Bleb_correct in HL by assumption. revert HL. case Rle_bool_spec; [intros HL _|discriminate].
  destruct (minus_inv prec emax h l Fh Fl Fd) as [W1 W2]. change (round radix2 (SpecFloat.fexp prec emax) ZnearestE (B2R h - B2R l)) with (near (B2R h - B2R l)) in *.
  pose proof (scaled_le l h (B2R q) HL Q) as S.
  assert (SW : near (B2R q * near (B2R h - B2R l)) <= near (B2R h - B2R l)).
  { assert (W0 : 0 <= near (B2R h - B2R l)) by (rewrite <- near_0; apply near_mono; lra). pose proof (bpow_gt_0 radix2 (-22)).
    rewrite <- (near_format (near (B2R h - B2R l))) at 2 by (apply generic_format_round; [apply FLT_exp_valid; exact Hp|typeclasses eauto]). apply near_mono. nra. }
  destruct (mult_fin prec emax q (nsub F h l) Fq Fd) as [M1 M2].
  { rewrite W1. change (Rabs (near (B2R q * near (B2R h - B2R l))) < bpow radix2 emax). rewrite Rabs_pos_eq by apply S. apply Rle_lt_trans with (1 := SW). apply Rle_lt_trans with (2 := W2). apply RRle_abs. }
  rewrite W1 in M1. change (round radix2 (SpecFloat.fexp prec emax) ZnearestE (B2R q * near (B2R h - B2R l))) with (near (B2R q * near (B2R h - B2R l))) in M1.
  assert (V : B2R l <= near (B2R l + B2R (nmul F q (nsub F h l))) <= B2R h).
  { rewrite M1. split; [rewrite <- (near_format _ (format_fin l)) at 1; apply near_mono; lra|]. apply Rle_trans with (near (B2R h)); [apply near_mono; lra|]. rewrite (near_format _ (format_fin h)). lra. }
  destruct (plus_fin prec emax l (nmul F q (nsub F h l)) Fl M2) as [V1 V2].
  { change (Rabs (near (B2R l + B2R (nmul F q (nsub F h l)))) < bpow radix2 emax). pose proof (abs_B2R_lt_emax prec emax l) as AL. pose proof (abs_B2R_lt_emax prec emax h) as AH. apply Rabs_lt_inv in AL, AH. apply Rabs_lt. lra. }
  eexists. split; [reflexivity|]. split; [exact V2|]. rewrite V1. exact V.
Qed.
Theorem semi_float c tm seed (l h : flt) : (0 <= tm < 256)%Z -> (0 <= seed < two32)%Z -> is_finite l = true -> is_finite h = true -> is_finite (Bminus mode_NE h l) = true -> Bleb l h = true ->
  exists v, semi_rands_num F c tm l h seed = Ok v /\ is_finite v = true /\ Bleb l v = true /\ Bleb v h = true.
Proof.
  intros HT HS Fl Fh Fd HL. unfold semi_rands_num. change (nle F l h) with (Bleb l h). rewrite HL, check_debug_true. cbn [bind]. rewrite sg_init_ok by assumption. cbn [bind].
  destruct (random_num_range c l h (start tm seed) (draw tm seed 0) Fl Fh Fd HL (draw_range tm seed 0) (draw_first c tm seed)) as (v & -> & Fv & B). exists v. split; [reflexivity|]. split; [exact Fv|].
  rewrite !Bleb_correct by assumption. split; apply Rle_bool_true; apply B.
Qed.
(** If the width overflows the value is the infinity. *)
Theorem semi_float_overflow c tm seed (l h : flt) : (0 <= tm < 256)%Z -> (0 <= seed < two32)%Z -> is_finite l = true -> is_finite h = true -> is_finite (Bminus mode_NE h l) = false -> Bleb l h = true ->
  semi_rands_num F c tm l h seed = Ok (B754_infinity false).
Proof.
  intros HT HS Fl Fh Fd HL. unfold semi_rands_num. change (nle F l h) with (Bleb l h). pose proof HL as HL'. rewrite HL, check_debug_true. cbn [bind]. rewrite sg_init_ok by assumption. cbn [bind].
  unfold sg_random_num. rewrite draw_first. cbn [bind fst]. destruct (quot_bound (draw tm seed 0) (draw_range tm seed 0)) as (q & EQ & Fq & Q). 
  rewrite Bleb_correct in HL' by assumption. revert HL'. case Rle_bool_spec; [intros HR _|discriminate].
  assert (W : nsub F h l = B754_infinity false).
  { generalize (Bminus_correct prec emax Hp He mode_NE h l Fh Fl). change (Bminus mode_NE h l) with (nsub F h l) in *. case Rlt_bool_spec; intros L; [intros (_ & B & _); congruence|].
    intros [A B]. destruct (nsub F h l) as [s|s| |s m e hh]; try discriminate. cbn in A. injection A as ->. destruct (Bsign h) eqn:SH; [|reflexivity]. exfalso.
    assert (B2R h <= 0) by (destruct h as [s|s| |s m e hh]; try discriminate; cbn; try lra; cbn in SH; subst s; apply Rlt_le, F2R_lt_0; reflexivity).
    assert (0 <= B2R l) by (destruct l as [s|s| |s m e hh]; try discriminate; cbn; try lra; cbn in B; destruct s; [discriminate|]; apply Rlt_le, F2R_gt_0; reflexivity).
    assert (B2R h - B2R l = 0) as Z0 by lra. rewrite Z0 in L. rewrite round_0, Rabs_R0 in L by typeclasses eauto. pose proof (bpow_gt_0 radix2 emax). lra. }
  rewrite EQ, W.
  assert (QP : 0 < B2R q).
  { destruct (ofZ_small (draw tm seed 0) ltac:(pose proof (draw_range tm seed 0); lia)) as [R1 R2]. destruct (ofZ_small 10000000 ltac:(lia)) as [M1 M2]. rewrite <- EQ.
    generalize (Bdiv_correct prec emax Hp He mode_NE (nofZ F (draw tm seed 0)) (nofZ F 10000000)). rewrite R1, M1. cbn [round_mode]. intros H. specialize (H ltac:(lra)).
    change (round radix2 (SpecFloat.fexp prec emax) ZnearestE (IZR (draw tm seed 0) / 10000000)) with (near (IZR (draw tm seed 0) / IZR 10000000)) in H.
    assert (D5 : 5 <= IZR (draw tm seed 0)) by (apply IZR_le; apply draw_range).
    assert (LB : bpow radix2 (-21) <= near (IZR (draw tm seed 0) / IZR 10000000)).
    { rewrite <- (near_format (bpow radix2 (-21))) by (apply generic_format_bpow; unfold FLT_exp; unfold Prec_lt_emax in He; lia). apply near_mono. change (bpow radix2 (-21)) with (/ IZR (2 ^ 21)). change (2 ^ 21)%Z with 2097152%Z. lra. }
    pose proof (bpow_gt_0 radix2 (-21)). revert H. case Rlt_bool_spec; intros L H.
    - destruct H as (A & _). change (Bdiv mode_NE (nofZ F (draw tm seed 0)) (nofZ F 10000000)) with (ndiv F (nofZ F (draw tm seed 0)) (nofZ F 10000000)) in A. rewrite A. lra.
    - exfalso. change (Bdiv mode_NE (nofZ F (draw tm seed 0)) (nofZ F 10000000)) with (ndiv F (nofZ F (draw tm seed 0)) (nofZ F 10000000)) in H. rewrite EQ in H. destruct q; try discriminate. }
  destruct q as [s|s| |s m e hh]; try discriminate; [cbn in QP; lra|]. destruct s; [exfalso; revert QP; apply Rle_not_lt; apply Rlt_le, F2R_lt_0; reflexivity|].
  destruct l as [s|s| |s m' e' hh']; try discriminate; reflexivity.
Qed.
End SEMI.
