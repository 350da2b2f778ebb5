(** Reading and printing floating-point numbers: decimal conversion. *)
From Coq Require Import Ascii Reals Lra Psatz.
From Flocq Require Import Core BinarySingleNaN Div Operations Bracket Ulp.
From Verif Require Import Base.Outcome Base.ZList Model.IntModel Model.FloatModel Model.ArrayIO Model.FloatIO.
From Verif Require Import Spec.IOSpec Spec.FloatSpec Spec.FloatIOSpec.
From Coq Require Import ZifyBool ZifyNat.
Local Open Scope R_scope.

(** ** Integers and powers of ten *)
Notation ten k := (bpow radix10 k).
Lemma ten_to_bpow k : ten_to k = ten k.
Proof. unfold ten_to. now rewrite bpow_powerRZ. Qed.
Lemma ten_pow k : (0 <= k)%Z -> IZR (10 ^ k) = ten k.
Proof. intros H. now rewrite (IZR_Zpower radix10). Qed.
Lemma scale_pos n k : (0 < n)%Z -> (0 < scale_up n k)%Z.
Proof. intros H. unfold scale_up. apply Z.mul_pos_pos; [exact H|]. apply Z.pow_pos_nonneg; lia. Qed.
Lemma scale_val n k : IZR (scale_up n k) = IZR n * ten (Z.max 0 k).
Proof. unfold scale_up. rewrite mult_IZR. f_equal. apply ten_pow. lia. Qed.
Lemma scale_ratio n d k : (0 < d)%Z -> IZR (scale_up n k) / IZR (scale_up d (- k)) = IZR n / IZR d * ten k.
Proof.
  intros H. rewrite !scale_val. assert (0 < IZR d) by (now apply IZR_lt). pose proof (bpow_gt_0 radix10 (Z.max 0 (- k))).
  replace (ten (Z.max 0 k)) with (ten k * ten (Z.max 0 (- k))); [field; split; lra|]. rewrite <- bpow_plus. f_equal. lia.
Qed.
Lemma rne_near n d : (0 < d)%Z -> Rabs (IZR (rne n d) - IZR n / IZR d) <= / 2.
Proof.
  intros H. assert (Hd : 0 < IZR d) by now apply IZR_lt. assert (2 * Z.abs (rne n d * d - n) <= d)%Z as B.
  { unfold rne. pose proof (Z.div_mod n d ltac:(lia)) as E. pose proof (Z.mod_pos_bound n d H) as M.
    set (q := (n / d)%Z) in *. set (r := (n mod d)%Z) in *.
    assert (E1 : (q * d - n = - r)%Z) by lia. assert (E2 : ((q + 1) * d - n = d - r)%Z) by lia.
    destruct (Z.ltb_spec (2 * r) d); [lia|]. destruct (Z.ltb_spec d (2 * r)); [lia|]. destruct (Z.even q); lia. }
  apply IZR_le in B. rewrite mult_IZR, abs_IZR, minus_IZR, mult_IZR in B.
  replace (IZR (rne n d) - IZR n / IZR d) with ((IZR (rne n d) * IZR d - IZR n) / IZR d) by (field; lra).
  unfold Rdiv. rewrite Rabs_mult, (Rabs_pos_eq (/ IZR d)) by (apply Rlt_le, Rinv_0_lt_compat, Hd).
  apply Rmult_le_reg_r with (IZR d); [exact Hd|]. rewrite Rmult_assoc, Rinv_l by lra. lra.
Qed.
Lemma rne_tie n d : (0 < d)%Z -> Rabs (IZR (rne n d) - IZR n / IZR d) = / 2 -> Z.even (rne n d) = true.
Proof.
  intros H T. assert (Hd : 0 < IZR d) by now apply IZR_lt. assert (B : (2 * Z.abs (rne n d * d - n) = d)%Z).
  { apply eq_IZR. rewrite mult_IZR, abs_IZR, minus_IZR, mult_IZR.
    replace (IZR (rne n d) * IZR d - IZR n) with ((IZR (rne n d) - IZR n / IZR d) * IZR d) by (field; lra).
    rewrite Rabs_mult, T, (Rabs_pos_eq (IZR d)) by lra. lra. }
  revert B. unfold rne. pose proof (Z.div_mod n d ltac:(lia)) as E. pose proof (Z.mod_pos_bound n d H) as M.
  set (q := (n / d)%Z) in *. set (r := (n mod d)%Z) in *.
  assert (E1 : (q * d - n = - r)%Z) by lia. assert (E2 : ((q + 1) * d - n = d - r)%Z) by lia.
  destruct (Z.ltb_spec (2 * r) d); [lia|]. destruct (Z.ltb_spec d (2 * r)); [lia|]. destruct (Z.even q) eqn:Eq; [auto|].
  intros _. rewrite Z.add_1_r, Z.even_succ, <- Z.negb_even, Eq. reflexivity.
Qed.
Lemma dec_exp_ok n d : (0 < n)%Z -> (0 < d)%Z -> ten (dec_exp n d) <= IZR n / IZR d < ten (dec_exp n d + 1).
Proof.
  intros Hn Hd. assert (Hd' : 0 < IZR d) by now apply IZR_lt. assert (Hn' : 0 < IZR n) by now apply IZR_lt.
  pose proof (Zdigits_correct radix10 n) as Dn. pose proof (Zdigits_correct radix10 d) as Dd.
  rewrite Z.abs_eq in Dn, Dd by lia. set (a := Zdigits radix10 n) in *. set (b := Zdigits radix10 d) in *.
  assert (Pa : (0 < a)%Z) by (apply Zdigits_gt_0; lia). assert (Pb : (0 < b)%Z) by (apply Zdigits_gt_0; lia).
  destruct Dn as [Dn1 Dn2]. destruct Dd as [Dd1 Dd2]. apply IZR_le in Dn1, Dd1. apply IZR_lt in Dn2, Dd2. rewrite IZR_Zpower in Dn1, Dd1, Dn2, Dd2 by lia.
  assert (L : ten (a - b - 1) < IZR n / IZR d).
  { apply Rmult_lt_reg_r with (IZR d); [exact Hd'|]. unfold Rdiv. rewrite Rmult_assoc, Rinv_l, Rmult_1_r by lra.
    apply Rlt_le_trans with (ten (a - b - 1) * ten b); [apply Rmult_lt_compat_l; [apply bpow_gt_0|exact Dd2]|].
    rewrite <- bpow_plus. now replace (a - b - 1 + b)%Z with (a - 1)%Z by lia. }
  assert (U : IZR n / IZR d < ten (a - b + 1)).
  { apply Rmult_lt_reg_r with (IZR d); [exact Hd'|]. unfold Rdiv. rewrite Rmult_assoc, Rinv_l, Rmult_1_r by lra.
    apply Rlt_le_trans with (ten a); [exact Dn2|]. apply Rle_trans with (ten (a - b + 1) * ten (b - 1)).
    - rewrite <- bpow_plus. replace (a - b + 1 + (b - 1))%Z with a by lia. lra.
    - apply Rmult_le_compat_l; [apply bpow_ge_0|exact Dd1]. }
  assert (T : (scale_up d (a - b) <= scale_up n (- (a - b)))%Z <-> ten (a - b) <= IZR n / IZR d).
  { pose proof (scale_ratio n d (- (a - b)) Hd) as S. rewrite Z.opp_involutive, bpow_opp in S.
    pose proof (scale_pos d (a - b) Hd) as P. apply IZR_lt in P. pose proof (bpow_gt_0 radix10 (a - b)) as Q.
    split; intros H.
    - apply IZR_le in H. assert (1 <= IZR n / IZR d * / ten (a - b)).
      { rewrite <- S. apply Rmult_le_reg_r with (IZR (scale_up d (a - b))); [exact P|]. unfold Rdiv. rewrite Rmult_assoc, Rinv_l by lra. lra. }
      apply Rmult_le_reg_r with (/ ten (a - b)); [now apply Rinv_0_lt_compat|]. rewrite Rinv_r by lra. exact H0.
    - apply le_IZR. apply Rmult_le_reg_r with (/ IZR (scale_up d (a - b))); [now apply Rinv_0_lt_compat|]. rewrite Rinv_r by lra.
      change (1 <= IZR (scale_up n (- (a - b))) / IZR (scale_up d (a - b))). rewrite S.
      apply Rmult_le_reg_r with (ten (a - b)); [exact Q|]. rewrite Rmult_assoc, Rinv_l by lra. lra. }
  unfold dec_exp. fold a b. cbn zeta. destruct (Z.leb_spec (scale_up d (a - b)) (scale_up n (- (a - b)))) as [H|H].
  - apply T in H. now split.
  - replace (a - b - 1 + 1)%Z with (a - b)%Z by lia. split; [lra|]. apply Rnot_le_lt. intros H2. apply T in H2. lia.
Qed.
(** p + 1 digits, at most half a unit of the last one away. *)
Lemma sci_digits_ok p n d : (0 < n)%Z -> (0 < d)%Z -> let r := sci_digits p n d in let P := Z.of_nat p in
  (10 ^ P <= fst r < 10 ^ (P + 1))%Z /\ Rabs (IZR (fst r) * ten (snd r - P) - IZR n / IZR d) <= / 2 * ten (dec_exp n d - P) /\
  (dec_exp n d <= snd r)%Z /\
  (Rabs (IZR (fst r) * ten (snd r - P) - IZR n / IZR d) = / 2 * ten (snd r - P) -> Z.even (fst r) = true).
Proof.
  intros Hn Hd r P. pose proof (dec_exp_ok n d Hn Hd) as [L U]. unfold r, sci_digits. fold P. set (k := dec_exp n d) in *. cbn zeta.
  replace (k - P)%Z with (- (P - k))%Z by lia.
  pose proof (rne_near (scale_up n (P - k)) (scale_up d (- (P - k))) (scale_pos d (- (P - k)) Hd)) as R.
  pose proof (rne_tie (scale_up n (P - k)) (scale_up d (- (P - k))) (scale_pos d (- (P - k)) Hd)) as T. rewrite scale_ratio in R, T by exact Hd.
  set (q := rne (scale_up n (P - k)) (scale_up d (- (P - k)))) in *. set (v := IZR n / IZR d) in *.
  assert (HP : (0 <= P)%Z) by lia.
  assert (L' : IZR (10 ^ P) <= v * ten (P - k)).
  { rewrite ten_pow by lia. replace (ten P) with (ten k * ten (P - k)) by (rewrite <- bpow_plus; f_equal; lia). apply Rmult_le_compat_r; [apply bpow_ge_0|exact L]. }
  assert (U' : v * ten (P - k) < IZR (10 ^ (P + 1))).
  { rewrite ten_pow by lia. replace (ten (P + 1)) with (ten (k + 1) * ten (P - k)) by (rewrite <- bpow_plus; f_equal; lia). apply Rmult_lt_compat_r; [apply bpow_gt_0|exact U]. }
  apply Rabs_le_inv in R.
  assert (Q1 : (10 ^ P <= q)%Z).
  { apply Z.lt_succ_r. rewrite <- Z.add_1_r. apply lt_IZR. rewrite plus_IZR. lra. }
  assert (Q2 : (q <= 10 ^ (P + 1))%Z).
  { apply Z.lt_succ_r. rewrite <- Z.add_1_r. apply lt_IZR. rewrite plus_IZR. lra. }
  assert (Sc : IZR q * ten (k - P) - v = (IZR q - v * ten (P - k)) * ten (k - P)).
  { rewrite Rmult_minus_distr_r, Rmult_assoc, <- bpow_plus. replace (P - k + (k - P))%Z with 0%Z by lia. change (ten 0) with 1. lra. }
  assert (E : Rabs (IZR q * ten (k - P) - v) <= / 2 * ten (- (P - k))).
  { rewrite Sc. rewrite Rabs_mult, (Rabs_pos_eq (ten _)) by apply bpow_ge_0. replace (- (P - k))%Z with (k - P)%Z by lia. apply Rmult_le_compat_r; [apply bpow_ge_0|].
    apply Rabs_le. lra. }
  destruct (Z.eqb_spec q (10 ^ (P + 1))) as [Eq|Ne]; cbn [fst snd].
  - assert (E' : Rabs (IZR (10 ^ P) * ten (k + 1 - P) - v) <= / 2 * ten (- (P - k))).
    { rewrite Eq, ten_pow in E by lia. rewrite ten_pow, <- bpow_plus by lia. rewrite <- bpow_plus in E. now replace (P + (k + 1 - P))%Z with (P + 1 + (k - P))%Z by lia. }
    split; [|split; [|split; [lia|]]].
    + split; [lia|]. apply Z.pow_lt_mono_r; lia.
    + exact E'.
    + intros H. rewrite H in E'. exfalso. assert (ten (- (P - k)) < ten (k + 1 - P)); [apply bpow_lt; lia|]. lra.
  - split; [lia|]. split; [exact E|]. split; [lia|]. intros H. apply T. apply Rmult_eq_reg_r with (ten (k - P)); [|apply Rgt_not_eq, bpow_gt_0].
    rewrite <- H, Sc, Rabs_mult, (Rabs_pos_eq (ten _)) by apply bpow_ge_0. reflexivity.
Qed.

(** ** Rounding back *)
Section F.
Context (prec emax : Z) {Hp : Prec_gt_0 prec} {He : Prec_lt_emax prec emax}.
Notation flt := (binary_float prec emax).
Notation fexp := (FLT_exp (3 - emax - prec) prec).

Lemma round_back x y : 0 < x -> generic_format radix2 fexp x -> Rabs (y - x) < / 2 * (x * bpow radix2 (- prec)) -> near prec emax y = x.
Proof.
  intros Hx Fx Hy. apply Rabs_lt_inv in Hy. unfold near. pose proof (FLT_exp_valid (3 - emax - prec) prec) as HV.
  assert (Ne : x <> 0) by lra. assert (M : x < bpow radix2 (mag radix2 x)) by (rewrite <- (Rabs_pos_eq x) at 1 by lra; apply bpow_mag_gt).
  assert (Hulp : x * bpow radix2 (- prec) <= ulp radix2 fexp x).
  { rewrite ulp_neq_0 by exact Ne. apply Rle_trans with (bpow radix2 (mag radix2 x) * bpow radix2 (- prec)).
    - apply Rmult_le_compat_r; [apply bpow_ge_0|lra].
    - rewrite <- bpow_plus. apply bpow_le. unfold cexp, FLT_exp. lia. }
  apply Rle_antisym.
  - apply round_N_le_midp; auto. rewrite succ_eq_pos by lra. lra.
  - apply round_N_ge_midp; auto. rewrite pred_eq_pos by lra. unfold pred_pos. case Req_bool_spec; intros E; [|lra].
    assert (x * bpow radix2 (- prec) <= bpow radix2 (fexp (mag radix2 x - 1))); [|lra].
    rewrite E at 1. rewrite <- bpow_plus. apply bpow_le. unfold FLT_exp. lia.
Qed.

Lemma near_pos y : 0 <= y -> 0 <= near prec emax y.
Proof. intros H. unfold near. pose proof (FLT_exp_valid (3 - emax - prec) prec). apply round_ge_generic; auto with typeclass_instances. apply generic_format_0. Qed.
Lemma near_opp y : near prec emax (- y) = - near prec emax y.
Proof. apply round_NE_opp. Qed.
Lemma near_0 : near prec emax 0 = 0.
Proof. apply round_0. auto with typeclass_instances. Qed.

Lemma finite_of_ok z : SpecFloat.valid_binary prec emax z = true -> is_finite_SF z = true ->
  exists x : flt, finite_of prec emax z = Some x /\ is_finite x = true /\ B2R x = SF2R radix2 z /\ Bsign x = sign_SF z.
Proof.
  destruct z as [s|s| |s m e]; cbn; intros H1 H2; try discriminate.
  - exists (B754_zero s). now repeat split.
  - destruct (Bool.bool_dec (SpecFloat.bounded prec emax m e) true) as [H|H]; [|congruence]. exists (B754_finite s m e H). now repeat split.
Qed.
Lemma F2R_int m : F2R (Float radix2 m 0) = IZR m.
Proof. unfold F2R. cbn. lra. Qed.
(** Reading D * 10^E: the nearest number, nothing if it is out of range. *)
Lemma dec_float_ok neg D E : (0 <= D)%Z ->
  (exists x, dec_float prec emax neg D E = Some x /\ nearest_to prec emax x neg (IZR D * ten_to E) /\ ~ too_large prec emax (IZR D * ten_to E)) \/
  (dec_float prec emax neg D E = None /\ too_large prec emax (IZR D * ten_to E)).
Proof.
  intros HD. rewrite ten_to_bpow. unfold dec_float. destruct (Z.eqb_spec D 0) as [->|Hne].
  - left. exists (B754_zero neg). rewrite Rmult_0_l. unfold nearest_to, too_large. rewrite near_0. pose proof (bpow_gt_0 radix2 emax).
    repeat split; try (destruct neg; cbn; lra).
  - assert (PD : (0 < D)%Z) by lia. pose proof (scale_pos D E PD) as P1. pose proof (scale_pos 1 (- E) ltac:(lia)) as P2.
    pose proof (Fdiv_correct (SpecFloat.fexp prec emax) (Float radix2 (scale_up D E) 0) (Float radix2 (scale_up 1 (- E)) 0)) as HF.
    rewrite !F2R_int in HF. specialize (HF (IZR_lt _ _ P1) (IZR_lt _ _ P2)). rewrite scale_ratio in HF by lia.
    destruct (Fdiv _ _ _) as [[m e] l]. destruct HF as [HF1 HF2]. replace (IZR D / 1 * ten E) with (IZR D * ten E) in HF1, HF2 by (field).
    set (v := IZR D * ten E) in *. assert (Pv : 0 < v) by (apply Rmult_lt_0_compat; [now apply IZR_lt|apply bpow_gt_0]).
    pose proof (binary_round_aux_correct' prec emax Hp He mode_NE (signed_by neg v) m e l) as B.
    assert (A : Rabs (signed_by neg v) = v) by (destruct neg; cbn; rewrite ?Rabs_Ropp; apply Rabs_pos_eq; lra).
    assert (S : Rlt_bool (signed_by neg v) 0 = neg) by (destruct neg; cbn; [apply Rlt_bool_true|apply Rlt_bool_false]; lra).
    assert (R : round radix2 (SpecFloat.fexp prec emax) (round_mode mode_NE) (signed_by neg v) = signed_by neg (near prec emax v)).
    { change (near prec emax (signed_by neg v) = signed_by neg (near prec emax v)). destruct neg; cbn; [apply near_opp|reflexivity]. }
    assert (PN : 0 <= near prec emax v) by (apply near_pos; lra).
    assert (RA : Rabs (signed_by neg (near prec emax v)) = near prec emax v) by (destruct neg; cbn; rewrite ?Rabs_Ropp; apply Rabs_pos_eq; lra).
    rewrite A, S, R, RA in B. specialize (B ltac:(destruct neg; cbn; lra) HF2).
    assert (HC : (e <= cexp radix2 (SpecFloat.fexp prec emax) (signed_by neg v))%Z) by (destruct neg; cbn; rewrite ?cexp_opp; exact HF1).
    specialize (B HC). cbn zeta in B. destruct B as [B1 B2]. revert B2. case Rlt_bool_spec; intros HL B2.
    + left. destruct B2 as (B2 & B3 & B4). destruct (finite_of_ok _ B1 B3) as (x & X1 & X2 & X3 & X4). exists x. split; [exact X1|]. split.
      * repeat split; congruence.
      * unfold too_large. lra.
    + right. rewrite B2. split; [|exact HL]. unfold binary_overflow. now destruct neg.
Qed.
Lemma nearest_unique x x' neg y : nearest_to prec emax x neg y -> nearest_to prec emax x' neg y -> x = x'.
Proof. intros (F1 & E1 & S1) (F2 & E2 & S2). apply B2R_Bsign_inj; congruence. Qed.
Lemma nearest_small x neg y : 0 <= y -> nearest_to prec emax x neg y -> ~ too_large prec emax y.
Proof.
  intros Hy (F & E & S) T. unfold too_large in T. pose proof (abs_B2R_lt_emax prec emax x) as L. rewrite E in L.
  pose proof (near_pos y Hy). destruct neg; cbn in L; rewrite ?Rabs_Ropp in L; rewrite Rabs_pos_eq in L by lra; lra.
Qed.
Lemma dec_float_nearest neg D E x : (0 <= D)%Z -> nearest_to prec emax x neg (IZR D * ten_to E) -> dec_float prec emax neg D E = Some x.
Proof.
  intros HD Hx. destruct (dec_float_ok neg D E HD) as [(x' & E' & N & _)|(_ & T)].
  - rewrite E'. f_equal. now apply (nearest_unique _ _ neg (IZR D * ten_to E)).
  - exfalso. apply (nearest_small x neg (IZR D * ten_to E)); auto. rewrite ten_to_bpow. apply Rmult_le_pos; [now apply IZR_le|apply bpow_ge_0].
Qed.
Lemma dec_float_large neg D E : (0 <= D)%Z -> too_large prec emax (IZR D * ten_to E) -> dec_float prec emax neg D E = None.
Proof. intros HD HT. destruct (dec_float_ok neg D E HD) as [(x' & E' & N & T)|(E' & _)]; [contradiction|exact E']. Qed.

Lemma frac_val m e : IZR (frac_num m e) / IZR (frac_den e) = IZR (Zpos m) * bpow radix2 e.
Proof.
  unfold frac_num, frac_den. rewrite mult_IZR, !(IZR_Zpower radix2) by lia. pose proof (bpow_gt_0 radix2 (Z.max 0 (- e))).
  replace (bpow radix2 (Z.max 0 e)) with (bpow radix2 e * bpow radix2 (Z.max 0 (- e))); [field; lra|]. rewrite <- bpow_plus. f_equal. lia.
Qed.
Lemma frac_pos m e : (0 < frac_num m e)%Z /\ (0 < frac_den e)%Z.
Proof. unfold frac_num, frac_den. split; [apply Z.mul_pos_pos; [lia|]|]; apply Z.pow_pos_nonneg; lia. Qed.
Lemma B2R_finite s m e (H : SpecFloat.bounded prec emax m e = true) : B2R (B754_finite s m e H) = signed_by s (IZR (Zpos m) * bpow radix2 e).
Proof. destruct s; cbn; unfold F2R; cbn; try reflexivity. change (IZR (Z.neg m)) with (IZR (- Z.pos m)). rewrite opp_IZR. lra. Qed.
(** The p + 1 printed digits determine the number. *)
Lemma sci_back s m e (H : SpecFloat.bounded prec emax m e = true) p : (2 ^ prec < 10 ^ Z.of_nat p)%Z ->
  let r := sci_digits p (frac_num m e) (frac_den e) in
  nearest_to prec emax (B754_finite s m e H) s (IZR (fst r) * ten_to (snd r - Z.of_nat p)).
Proof.
  intros HP r. destruct (frac_pos m e) as [Pn Pd]. destruct (sci_digits_ok p _ _ Pn Pd) as (_ & Er & _ & _). pose proof (dec_exp_ok _ _ Pn Pd) as [L _].
  rewrite frac_val in Er, L. fold r in Er. set (v := IZR (Zpos m) * bpow radix2 e) in *.
  assert (Pv : 0 < v) by (apply Rmult_lt_0_compat; [now apply IZR_lt|apply bpow_gt_0]).
  split; [reflexivity|]. split; [|reflexivity]. rewrite B2R_finite. fold v. f_equal. symmetry. rewrite ten_to_bpow. apply round_back; [exact Pv| |].
  - pose proof (generic_format_B2R prec emax (B754_finite false m e H)) as G. rewrite B2R_finite in G. exact G.
  - eapply Rle_lt_trans; [exact Er|]. apply Rmult_lt_compat_l; [lra|]. unfold Zminus. rewrite bpow_plus.
    apply Rle_lt_trans with (v * ten (- Z.of_nat p)); [apply Rmult_le_compat_r; [apply bpow_ge_0|exact L]|].
    apply Rmult_lt_compat_l; [exact Pv|]. rewrite !bpow_opp. apply Rinv_lt_contravar; [apply Rmult_lt_0_compat; apply bpow_gt_0|].
    rewrite <- IZR_Zpower, <- ten_pow; try lia; [|unfold Prec_gt_0 in Hp; lia]. now apply IZR_lt.
Qed.

Lemma abs_finite s m e (H : SpecFloat.bounded prec emax m e = true) : Rabs (B2R (B754_finite s m e H)) = IZR (Zpos m) * bpow radix2 e.
Proof.
  rewrite B2R_finite. assert (0 <= IZR (Z.pos m) * bpow radix2 e) by (apply Rmult_le_pos; [now apply IZR_le|apply bpow_ge_0]).
  destruct s; cbn [signed_by]; rewrite ?Rabs_Ropp; now apply Rabs_pos_eq.
Qed.
Lemma near_id (x : flt) : near prec emax (Rabs (B2R x)) = Rabs (B2R x).
Proof. apply round_generic; auto with typeclass_instances. apply generic_format_abs, generic_format_B2R. Qed.
(** An exact decimal. *)
Lemma exact_nearest (x : flt) y : is_finite x = true -> y = Rabs (B2R x) -> nearest_to prec emax x (Bsign x) y.
Proof.
  intros F ->. split; [exact F|]. split; [|reflexivity]. rewrite near_id. destruct x as [s|s| |s m e H]; try discriminate; cbn [Bsign].
  - cbn. rewrite Rabs_R0. destruct s; cbn; lra.
  - rewrite abs_finite, B2R_finite. reflexivity.
Qed.
Lemma fix_digits_ok p m e : let q := rne (scale_up (frac_num m e) (Z.of_nat p)) (frac_den e) in let v := IZR (Zpos m) * bpow radix2 e in
  (0 <= q)%Z /\ Rabs (IZR q * ten (- Z.of_nat p) - v) <= / 2 * ten (- Z.of_nat p) /\
  (Rabs (IZR q * ten (- Z.of_nat p) - v) = / 2 * ten (- Z.of_nat p) -> Z.even q = true) /\
  forall z, v = IZR z * ten (- Z.of_nat p) -> q = z.
Proof.
  intros q v. destruct (frac_pos m e) as [Pn Pd]. set (P := Z.of_nat p) in *. assert (HP : (0 <= P)%Z) by lia.
  assert (D0 : frac_den e = scale_up (frac_den e) (- P)) by (unfold scale_up; rewrite Z.max_l by lia; cbn; lia).
  pose proof (rne_near (scale_up (frac_num m e) P) (frac_den e) Pd) as R. pose proof (rne_tie (scale_up (frac_num m e) P) (frac_den e) Pd) as T.
  fold q in R, T. rewrite D0, scale_ratio, frac_val in R, T by exact Pd. fold v in R, T.
  assert (Pv : 0 < v) by (apply Rmult_lt_0_compat; [now apply IZR_lt|apply bpow_gt_0]).
  pose proof (bpow_gt_0 radix10 P) as B1. pose proof (bpow_gt_0 radix10 (- P)) as B2.
  assert (I : ten P * ten (- P) = 1) by (rewrite <- bpow_plus, Z.add_opp_diag_r; reflexivity).
  assert (Sc : IZR q * ten (- P) - v = (IZR q - v * ten P) * ten (- P)) by (rewrite Rmult_minus_distr_r, Rmult_assoc, I; lra).
  split; [|split; [|split]].
  - apply Rabs_le_inv in R. assert (0 < v * ten P) by now apply Rmult_lt_0_compat. assert (-1 < q)%Z; [|lia]. apply lt_IZR. lra.
  - rewrite Sc, Rabs_mult, (Rabs_pos_eq (ten _)) by apply bpow_ge_0. apply Rmult_le_compat_r; lra.
  - intros H. apply T. apply Rmult_eq_reg_r with (ten (- P)); [|lra]. rewrite <- H, Sc, Rabs_mult, (Rabs_pos_eq (ten _)) by lra. reflexivity.
  - intros z Hz. rewrite Hz in R. rewrite Rmult_assoc, (Rmult_comm (ten (- P))), I, Rmult_1_r, <- minus_IZR, <- abs_IZR in R.
    assert (Z.abs (q - z) < 1)%Z; [|lia]. apply lt_IZR. lra.
Qed.
End F.
