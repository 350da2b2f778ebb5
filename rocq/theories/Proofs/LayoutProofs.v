(** Printed layouts: digits counted with a logarithm, widths. *)
From Coq Require Import Ascii Reals Lra.
From Flocq Require Import Core BinarySingleNaN.
From Verif Require Import Base.Outcome Base.ZList Model.IntModel Model.ScalarOps Model.Index Model.Array1D Model.Expr Model.Reduce Model.FloatModel Model.Scalars Model.ArrayIO Model.FloatIO Model.Layout.
From Verif Require Import Spec.ArraySpec Spec.MatrixSpec Spec.ExprSpec Spec.ReduceSpec Spec.IOSpec Spec.FloatSpec Spec.FloatIOSpec Spec.LayoutSpec.
From Verif Require Import Proofs.IOText Proofs.FloatIOProofs Proofs.FloatIOText Proofs.ConvProofs Proofs.LayoutText Proofs.ExprProofs Proofs.ReduceProofs Proofs.ReduceThms.
From Coq Require Import ZifyBool ZifyNat.
Local Open Scope R_scope.

Lemma ten_to_pos k : 0 < ten_to k.
Proof. rewrite ten_to_bpow. apply bpow_gt_0. Qed.
Lemma ten_to_le a b : (a <= b)%Z -> ten_to a <= ten_to b.
Proof. rewrite !ten_to_bpow. apply bpow_le. Qed.
Lemma ten_to_lt a b : (a < b)%Z -> ten_to a < ten_to b.
Proof. rewrite !ten_to_bpow. apply bpow_lt. Qed.
Lemma ten_to_int k : (0 <= k)%Z -> ten_to k = IZR (10 ^ k).
Proof. intros H. now rewrite ten_to_bpow, ten_pow. Qed.
Lemma ln10_pos : 0 < ln 10.
Proof. rewrite <- ln_1. apply ln_increasing; lra. Qed.
Lemma ln10_3 : ln 10 < 3.
Proof.
  rewrite <- (ln_exp 3). apply ln_increasing; [lra|]. replace 3 with (/2 + /2 + (/2 + /2) + (/2 + /2)) at 1 by lra. rewrite !exp_plus.
  assert (H : 3/2 < Rtrigo_def.exp (/2)) by (pose proof (exp_ineq1 (/2) ltac:(lra)); lra). assert (9/4 < Rtrigo_def.exp (/2) * Rtrigo_def.exp (/2)) by nra.
  assert (81/16 < Rtrigo_def.exp (/ 2) * Rtrigo_def.exp (/ 2) * (Rtrigo_def.exp (/ 2) * Rtrigo_def.exp (/ 2))) by nra. nra.
Qed.
Lemma ln_ten_to k : ln (ten_to k) = IZR k * ln 10.
Proof.
  unfold ten_to. destruct k as [|p|p]; cbn [powerRZ]; [rewrite ln_1; lra| |].
  - rewrite ln_pow by lra. f_equal. now rewrite INR_IZR_INZ, positive_nat_Z.
  - rewrite ln_Rinv by (apply pow_lt; lra). rewrite ln_pow by lra. rewrite INR_IZR_INZ, positive_nat_Z. change (IZR (Zneg p)) with (- IZR (Zpos p)). lra.
Qed.
Lemma Ztrunc_ge z y : IZR z <= y -> (z <= Ztrunc y)%Z.
Proof. intros H. rewrite <- (Ztrunc_IZR z). now apply Ztrunc_le. Qed.
Lemma Ztrunc_le_IZR z y : y <= IZR z -> (Ztrunc y <= z)%Z.
Proof. intros H. rewrite <- (Ztrunc_IZR z). now apply Ztrunc_le. Qed.

(** ** Any format *)
Section F.
Context (prec emax : Z) {Hp : Prec_gt_0 prec} {He : Prec_lt_emax prec emax}.
Notation flt := (binary_float prec emax).
Notation fexp := (FLT_exp (3 - emax - prec) prec).
Lemma float_of (r : R) : generic_format radix2 fexp r -> Rabs r < bpow radix2 emax -> exists y : flt, is_finite y = true /\ B2R y = r.
Proof.
  intros F B. pose proof (binary_normalize_correct prec emax Hp He mode_NE (Ztrunc (scaled_mantissa radix2 fexp r)) (cexp radix2 fexp r) false) as N. cbv zeta in N.
  rewrite <- F in N. rewrite round_generic in N by (typeclasses eauto || exact F). rewrite Rlt_bool_true in N by exact B.
  destruct N as (N1 & N2 & _). eauto.
Qed.
Context (lg : flt -> flt) (HC : log10_contract prec emax lg) (Hs : (emax + prec < 2 ^ 28)%Z).
Lemma log_bound (x : flt) : is_finite x = true -> 0 < B2R x -> Rabs (ln (B2R x) / ln 10) <= IZR (emax + prec).
Proof.
  intros Fx Px. pose proof ln10_pos as L10. pose proof (abs_B2R_lt_emax _ _ x) as U. rewrite Rabs_pos_eq in U by lra.
  assert (L : bpow radix2 (3 - emax - prec) <= B2R x).
  { rewrite <- (Rabs_pos_eq (B2R x)) by lra. apply abs_B2R_ge_emin. destruct x; cbn in *; try discriminate; try reflexivity; lra. }
  assert (L2 : forall e, ln (bpow radix2 e) = IZR e * ln 2).
  { intros e. rewrite <- ln_beta_powerRZ || idtac. rewrite bpow_powerRZ. change (IZR radix2) with 2. destruct e as [|p|p]; cbn [powerRZ]; [rewrite ln_1; lra| |].
    - rewrite ln_pow by lra. f_equal. now rewrite INR_IZR_INZ, positive_nat_Z.
    - rewrite ln_Rinv by (apply pow_lt; lra). rewrite ln_pow by lra. rewrite INR_IZR_INZ, positive_nat_Z. change (IZR (Zneg p)) with (- IZR (Zpos p)). lra. }
  assert (P2 : 0 < ln 2) by (rewrite <- ln_1; apply ln_increasing; lra). assert (ln 2 < ln 10) by (apply ln_increasing; lra).
  assert (U' : ln (B2R x) < IZR emax * ln 2) by (rewrite <- L2; apply ln_increasing; lra).
  assert (L' : IZR (3 - emax - prec) * ln 2 <= ln (B2R x)).
  { rewrite <- L2. destruct L as [L|L]; [left; apply ln_increasing; [apply bpow_gt_0|exact L]|right; now rewrite L]. }
  assert (0 < prec)%Z by exact Hp. assert (Z0 : (0 < emax)%Z) by (unfold Prec_lt_emax in He; lia). apply IZR_lt in Z0. assert (P0 : 0 < IZR prec) by now apply IZR_lt. rewrite !minus_IZR in L'. rewrite plus_IZR.
  apply Rabs_le. split.
  - apply Rmult_le_reg_r with (ln 10); [exact L10|]. unfold Rdiv. rewrite Rmult_assoc, Rinv_l, Rmult_1_r by lra. nra.
  - apply Rmult_le_reg_r with (ln 10); [exact L10|]. unfold Rdiv. rewrite Rmult_assoc, Rinv_l, Rmult_1_r by lra. nra.
Qed.
Lemma lg_bound (x : flt) : is_finite x = true -> 0 < B2R x -> Rabs (B2R (lg x)) <= 3 * IZR (emax + prec).
Proof.
  intros Fx Px. pose proof (log10_accurate _ _ _ HC x Fx Px) as A. pose proof (log_bound x Fx Px) as B. set (L := ln (B2R x) / ln 10) in *.
  assert (E : bpow radix2 (2 - prec) <= 2) by (change 2 with (bpow radix2 1); apply bpow_le; pose proof (Hp : (0 < prec)%Z); lia).
  pose proof (bpow_ge_0 radix2 (2 - prec)). pose proof (Rabs_pos L). replace (B2R (lg x)) with ((B2R (lg x) - L) + L) by ring. eapply Rle_trans; [apply Rabs_triang|]. nra.
Qed.
Lemma trunc_bound y z : Rabs y <= IZR z -> (Z.abs (Ztrunc y) <= z)%Z.
Proof. intros H. apply Rabs_le_inv in H. destruct H as [H1 H2]. rewrite <- opp_IZR in H1. apply Ztrunc_ge in H1. apply Ztrunc_le_IZR in H2. lia. Qed.
Lemma lg_int (x : flt) : is_finite x = true -> 0 < B2R x -> flt_to_int I32 (lg x) = Ok (Ztrunc (B2R (lg x))) /\ (Z.abs (Ztrunc (B2R (lg x))) <= 3 * (emax + prec))%Z.
Proof.
  intros Fx Px. pose proof (lg_bound x Fx Px) as B. rewrite <- mult_IZR in B. apply trunc_bound in B. split; [|exact B]. pose proof (log10_finite _ _ _ HC x Fx Px) as F.
  unfold flt_to_int. rewrite trunc_ok by assumption. destruct (lg x) as [s|s| |s m e H]; try discriminate F; [cbn; now rewrite (Ztrunc_IZR 0)|].
  replace (inr I32 _) with true; [reflexivity|]. unfold inr. cbn [tmin tmax]. lia.
Qed.
Lemma count_ok (x : flt) : is_finite x = true -> 0 < B2R x -> count_digit lg x = Ok (Ztrunc (B2R (lg x)) + 1)%Z /\ (Z.abs (Ztrunc (B2R (lg x))) <= 3 * (emax + prec))%Z.
Proof.
  intros Fx Px. destruct (lg_int x Fx Px) as (E & B). split; [|exact B]. unfold count_digit. rewrite Beqb_correct by auto. rewrite Req_bool_false by (cbn; lra). rewrite E. cbn [bind].
  unfold iadd, arith, inr. cbn [signed tmin tmax]. replace (_ && _)%bool with true by lia. reflexivity.
Qed.
(** Numbers from 10^k on have a logarithm of at least k: powers of ten that are numbers of the format, or any if the logarithm respects them. *)
Lemma lg_low (x : flt) k : (0 <= k)%Z -> is_finite x = true -> ten_to k <= B2R x ->
  (generic_format radix2 fexp (ten_to k) \/ (forall y j, is_finite y = true -> ten_to j <= B2R y -> IZR j <= B2R (lg y))) -> (k <= Ztrunc (B2R (lg x)))%Z.
Proof.
  intros Hk Fx Lx [F|F]; apply Ztrunc_ge; [|now apply F]. pose proof (ten_to_pos k). pose proof (abs_B2R_lt_emax _ _ x) as U. rewrite Rabs_pos_eq in U by lra.
  destruct (float_of (ten_to k) F) as (y & Fy & Ey); [rewrite Rabs_pos_eq; lra|]. rewrite <- (log10_exact _ _ _ HC y k Hk Fy Ey). apply (log10_monotone _ _ _ HC); auto. rewrite Ey. lra.
Qed.
Lemma lg_high (x : flt) k : (0 <= k)%Z -> is_finite x = true -> 0 < B2R x <= ten_to k -> generic_format radix2 fexp (ten_to k) -> ten_to k < bpow radix2 emax ->
  (Ztrunc (B2R (lg x)) <= k)%Z.
Proof.
  intros Hk Fx Lx F U. pose proof (ten_to_pos k). apply Ztrunc_le_IZR. destruct (float_of (ten_to k) F) as (y & Fy & Ey); [rewrite Rabs_pos_eq; lra|].
  rewrite <- (log10_exact _ _ _ HC y k Hk Fy Ey). apply (log10_monotone _ _ _ HC); auto. rewrite Ey. lra.
Qed.
End F.

(** ** Integers *)
Notation fexp64 := (FLT_exp (3 - femax F64 - fprec F64) (fprec F64)).
Lemma ten_format k : (0 <= k <= 22)%Z -> generic_format radix2 fexp64 (ten_to k).
Proof.
  intros H. rewrite ten_to_int by lia. apply generic_format_FLT. apply (FLT_spec _ _ _ _ (Float radix2 (5 ^ k) k)).
  - unfold F2R. cbn [Fnum Fexp]. rewrite <- IZR_Zpower by lia. rewrite <- mult_IZR. f_equal. change (Zpower radix2 k) with (2 ^ k)%Z || idtac. rewrite <- Z.pow_mul_l. reflexivity.
  - cbn [Fnum]. change (Zpower radix2 (fprec F64)) with (2 ^ 53)%Z. rewrite Z.abs_eq by (apply Z.pow_nonneg; lia). pose proof (Z.pow_le_mono_r 5 k 22 ltac:(lia) ltac:(lia)). change (5 ^ 22)%Z with 2384185791015625%Z in *. lia.
  - cbn [Fexp]. change (femax F64) with 1024%Z. change (fprec F64) with 53%Z. lia.
Qed.
Section I.
Context (lg : flt F64 -> flt F64) (HC : log10_contract (fprec F64) (femax F64) lg).
Notation near64 := (near (fprec F64) (femax F64)).
Lemma near_mono a b : a <= b -> near64 a <= near64 b.
Proof. intros H. apply round_le; [typeclasses eauto|typeclasses eauto|exact H]. Qed.
Lemma near_ten k : (0 <= k <= 22)%Z -> near64 (ten_to k) = ten_to k.
Proof. intros H. apply round_generic; [typeclasses eauto|now apply ten_format]. Qed.
Lemma int_digits n d : (0 <= n <= 2 ^ 64)%Z -> has_digits n d -> exists c, count_digit_int lg n = Ok c /\ (d <= c <= d + 1)%Z /\ (d <= 20)%Z /\ ((n < 10 ^ 13)%Z -> c = d).
Proof.
  intros Hn (Hd & HD). unfold count_digit_int. destruct (Z.eqb_spec n 0); [exists 1%Z; repeat split; lia|].
  assert (D20 : (d <= 20)%Z). { destruct (Z.le_gt_cases d 20); [assumption|]. pose proof (Z.pow_le_mono_r 10 20 (d - 1) ltac:(lia) ltac:(lia)). change (10 ^ 20)%Z with 100000000000000000000%Z in *. change (2 ^ 64)%Z with 18446744073709551616%Z in *. lia. }
  destruct (int_to_flt_ok F64 n ltac:(lia)) as (Ex & Fx & _). set (x := int_to_flt F64 n) in *.
  assert (L : ten_to (d - 1) <= B2R x). { rewrite Ex. rewrite <- (near_ten (d - 1)) by lia. apply near_mono. rewrite ten_to_int by lia. apply IZR_le. lia. }
  assert (U : B2R x <= ten_to d). { rewrite Ex. rewrite <- (near_ten d) by lia. apply near_mono. rewrite ten_to_int by lia. apply IZR_le. lia. }
  pose proof (ten_to_pos (d - 1)). assert (Px : 0 < B2R x) by lra. assert (Hs : (femax F64 + fprec F64 < 2 ^ 28)%Z) by reflexivity.
  destruct (lg_int (fprec F64) (femax F64) lg HC Hs x Fx Px) as (E & B). rewrite E. cbn [bind].
  assert (T1 : (d - 1 <= Ztrunc (B2R (lg x)))%Z) by (apply (lg_low (fprec F64) (femax F64) lg HC); auto; [lia|left; apply ten_format; lia]).
  assert (T2 : (Ztrunc (B2R (lg x)) <= d)%Z).
  { apply (lg_high (fprec F64) (femax F64) lg HC); auto; [lia|apply ten_format; lia|]. eapply Rle_lt_trans; [apply (ten_to_le d 22); lia|]. rewrite ten_to_int by lia. change (femax F64) with 1024%Z.
    apply Rlt_le_trans with (bpow radix2 80); [|apply bpow_le; lia]. rewrite <- (IZR_Zpower radix2) by lia. apply IZR_lt. reflexivity. }
  exists (Ztrunc (B2R (lg x)) + 1)%Z. unfold iadd, arith, inr. cbn [signed tmin tmax]. replace (_ && _)%bool with true by lia. split; [reflexivity|]. split; [lia|]. split; [exact D20|]. intros H13.
  (* small numbers: the logarithm stays below d *)
  assert (D13 : (d <= 13)%Z). { destruct (Z.le_gt_cases d 13); [assumption|]. pose proof (Z.pow_le_mono_r 10 13 (d - 1) ltac:(lia) ltac:(lia)). lia. }
  assert (Exn : B2R x = IZR n). { rewrite Ex. apply near_exact. apply small_int_format. change (fprec F64) with 53%Z. change (10 ^ 13)%Z with 10000000000000%Z in H13. change (2 ^ 53)%Z with 9007199254740992%Z. lia. }
  assert (LT : B2R (lg x) < IZR d).
  { pose proof (log10_accurate _ _ _ HC x Fx Px) as A. pose proof ln10_pos as P10. pose proof ln10_3 as L3. set (L10 := ln (B2R x) / ln 10) in *.
    pose proof (ten_to_pos d) as PT.
    assert (Q : L10 <= IZR d - / (3 * ten_to 13)).
    { assert (X : B2R x <= ten_to d * (1 - / ten_to d)). { rewrite Rmult_minus_distr_l, Rinv_r, Rmult_1_r by lra. rewrite Exn, ten_to_int by lia. rewrite <- minus_IZR. apply IZR_le. lia. }
      assert (T1' : / ten_to 13 <= / ten_to d) by (apply Rinv_le_contravar; [exact PT|apply ten_to_le; lia]).
      assert (T2' : 10 <= ten_to d) by (change 10 with (IZR (10 ^ 1)); rewrite <- ten_to_int by lia; apply ten_to_le; lia).
      assert (T3' : / ten_to d <= / 10) by (apply Rinv_le_contravar; lra). pose proof (Rinv_0_lt_compat _ PT) as PI.
      assert (E1 : ln (B2R x) <= IZR d * ln 10 - / ten_to d).
      { eapply Rle_trans with (ln (ten_to d * (1 - / ten_to d))).
        - destruct X as [X|X]; [left; now apply ln_increasing|right; now rewrite X].
        - rewrite ln_mult by lra. rewrite ln_ten_to. assert (ln (1 - / ten_to d) <= - / ten_to d); [|lra].
          rewrite <- (ln_exp (- / ten_to d)). pose proof (exp_ineq1 (- / ten_to d) ltac:(lra)). left. apply ln_increasing; lra. }
      unfold L10. apply Rmult_le_reg_r with (ln 10); [exact P10|]. unfold Rdiv. rewrite Rmult_assoc, Rinv_l, Rmult_1_r by lra. rewrite Rmult_minus_distr_r. pose proof (ten_to_pos 13).
      assert (/ (3 * ten_to 13) * ln 10 <= / ten_to d); [|lra]. rewrite Rinv_mult. pose proof (Rinv_0_lt_compat (ten_to 13) ltac:(lra)). nra. }
    assert (Z0 : 0 <= L10). { unfold L10. apply Rmult_le_pos; [|left; now apply Rinv_0_lt_compat]. rewrite <- ln_1. assert (1 <= B2R x) by (rewrite Exn; apply IZR_le; lia). destruct H0 as [H0|H0]; [left; apply ln_increasing; lra|right; now rewrite <- H0]. }
    rewrite (Rabs_pos_eq L10) in A by exact Z0. apply Rabs_le_inv in A. change (2 - fprec F64)%Z with (-51)%Z in A.
    assert (B51 : bpow radix2 (-51) <= 1 / 2000000000000000).
    { change (-51)%Z with (- (51))%Z. rewrite bpow_opp. rewrite <- (IZR_Zpower radix2) by lia. change (radix2 ^ 51)%Z with 2251799813685248%Z. lra. }
    assert (D13' : IZR d <= 13) by now apply IZR_le. rewrite (ten_to_int 13) in Q by lia. change (10 ^ 13)%Z with 10000000000000%Z in Q.
    pose proof (bpow_ge_0 radix2 (-51)). assert (bpow radix2 (-51) * L10 <= 1 / 2000000000000000 * 13) by (apply Rmult_le_compat; lra). lra. }
  destruct (Z.eq_dec (Ztrunc (B2R (lg x))) d) as [E0|]; [|lia]. exfalso. rewrite Ztrunc_floor in E0.
  - pose proof (Zfloor_lb (B2R (lg x))) as Z0. rewrite E0 in Z0. lra.
  - destruct (Rle_or_lt 0 (B2R (lg x))); [assumption|]. assert (Ztrunc (B2R (lg x)) <= 0)%Z by (apply Ztrunc_le_IZR; lra). lia.
Qed.
End I.
Local Open Scope Z_scope.
Lemma digits_exist n : 0 <= n -> exists d, has_digits n d.
Proof. intros H. exists (zlen (udec n)). now apply udec_length. Qed.

Section J.
Context (lg : flt F64 -> flt F64) (HC : log10_contract (fprec F64) (femax F64) lg).
(** Labels. *)
Lemma blanks_ok n : 0 <= n <= 10 ^ 13 -> exists D, label_blanks lg n D.
Proof.
  intros Hn. assert (B64 : 10 ^ 13 <= 2 ^ 64) by lia. destruct (digits_exist n) as (dn & Hdn); [lia|]. destruct (int_digits lg HC n dn ltac:(lia) Hdn) as (cn & En & Bn & B20 & _).
  exists (1 + cn). intros i Hi. pose proof (udec_length i ltac:(lia)) as Hdi. destruct (int_digits lg HC i _ ltac:(lia) Hdi) as (ci & Ei & Bi & Bi20 & Ci). specialize (Ci ltac:(lia)).
  assert (ci <= cn) by (pose proof (has_digits_mono i n _ _ ltac:(lia) Hdi Hdn); lia).
  exists (Z.to_nat (1 + cn - ci)). unfold smart_spaces. rewrite En, Ei. cbn [bind]. pose proof (zlen_nonneg (udec i)). destruct Hdi.
  unfold iadd, isub, arith, inr. cbn [signed tmin tmax]. replace (_ && _)%bool with true by lia. cbn [bind]. replace (_ && _)%bool with true by lia. cbn [bind].
  replace (1 + cn - ci <? 0) with false by lia. repeat split; lia.
Qed.

(** ** Matrices of integers *)
Lemma gtb_weak : weak_order Z.gtb.
Proof. unfold weak_order. repeat split; intros; lia. Qed.
Lemma abss_ok t x : in_type t x -> signed t = false \/ x <> tmin t -> abss t x = Ok (Z.abs x).
Proof.
  intros (H1 & H2) H3. unfold abss. destruct (signed t) eqn:Es; cbn [negb].
  - destruct H3 as [H3|H3]; [discriminate|]. destruct (0 <? x) eqn:E0; [f_equal; lia|]. unfold ineg, arith. rewrite Es. unfold inr.
    replace (_ && _)%bool with true; [f_equal; lia|]. destruct t; try discriminate; cbn in *; lia.
  - f_equal. destruct t; try discriminate; cbn in *; lia.
Qed.
Definition blank (t : ity) : Z := if signed t then 2 else 1.
Theorem ints_width t M : M <> [] -> 0 < zlen (concat M) <= LONG_MAX -> Forall (in_type t) (concat M) -> signed t = false \/ ~ In (tmin t) (concat M) ->
  exists m W, r_max Z.gtb (x_un (abss t) (src_of_list (concat M))) 0 = Ok m /\ integer_spacing lg t m = Ok W /\ 0 <= W /\
    (forall x d, In x (concat M) -> has_digits (Z.abs x) d -> d + blank t <= W) /\
    (exists x d, In x (concat M) /\ has_digits (Z.abs x) d /\ W <= d + blank t + 1 /\ (Z.abs x < 10 ^ 13 -> W = d + blank t)).
Proof.
  intros HM HL HT HN. set (l := concat M) in *.
  assert (Y : yields (x_un (abss t) (src_of_list l)) (map Ok (map Z.abs l))).
  { pose proof (un_ok (abss t) _ _ (yields_list l ltac:(lia))) as Y. rewrite map_map in Y. cbn [bind] in Y. replace (map (fun x => abss t x) l) with (map Ok (map Z.abs l)) in Y; [exact Y|].
    rewrite map_map. apply map_ext_in. intros x Hx. symmetry. rewrite Forall_forall in HT. apply abss_ok; [now apply HT|]. destruct HN as [HN|HN]; [now left|]. right. intros ->. contradiction. }
  assert (NE : map Z.abs l <> []) by (intros E; apply map_eq_nil in E; rewrite E in HL; cbn in HL; lia).
  destruct (max_ok Z.gtb _ (map Z.abs l) 0 (0, 0) gtb_weak NE Y) as (i & m & E & _ & (Z1 & Z2 & _)).
  apply znth_in in Z1. apply in_map_iff in Z1 as (x & <- & Hx). pose proof (proj1 (Forall_forall _ _) HT x Hx) as Tx.
  assert (B64 : 0 <= Z.abs x <= 2 ^ 64) by (destruct Tx, t; cbn in *; lia).
  destruct (digits_exist (Z.abs x)) as (d & Hd); [lia|]. destruct (int_digits lg HC _ d B64 Hd) as (c & Ec & Bc & B20 & Cc).
  exists (Z.abs x), (c + blank t). split; [exact E|]. split; [|split; [|split]].
  - unfold integer_spacing. rewrite Ec. cbn [bind]. unfold iadd, arith, inr, blank. destruct Hd. cbn [signed tmin tmax]. destruct (signed t); replace (_ && _)%bool with true by lia; reflexivity.
  - unfold blank. destruct Hd. destruct (signed t); lia.
  - intros y dy Hy Hdy. assert (Z.abs y <= Z.abs x) by (specialize (Z2 (Z.abs y) (in_map _ _ _ Hy)); lia). pose proof (has_digits_mono (Z.abs y) (Z.abs x) dy d ltac:(lia) Hdy Hd). lia.
  - exists x, d. repeat split; auto; try (now destruct Hd); try lia. 
Qed.
Lemma ints_max t l W : 0 <= W -> Forall (in_type t) l -> (forall x d, In x l -> has_digits (Z.abs x) d -> d + blank t <= W) ->
  Forall (fun x => Z.max (Z.max 0 W) (zlen (show t x)) = W) l.
Proof.
  intros H0 HT H. rewrite Forall_forall in *. intros x Hx. pose proof (show_length t x (HT x Hx)) as Hd. specialize (H x _ Hx Hd). unfold blank in H. destruct (signed t); lia.
Qed.
Lemma Forall_concat_rows {A} (P : A -> Prop) (M : list (list A)) : Forall P (concat M) -> Forall (Forall P) M.
Proof. intros H. rewrite Forall_forall in H. apply Forall_forall. intros r Hr. apply Forall_forall. intros x Hx. apply H. apply in_concat. eauto. Qed.
Lemma rect_size {A} cols (M : list (list A)) : rect cols M -> zlen (concat M) = cols * zlen M.
Proof. induction 1 as [|r M Hr _ IH]; [cbn; lia|]. cbn [concat]. rewrite zlen_app, zlen_cons, IH, Hr. lia. Qed.
Theorem ints_table t name cols M : M <> [] -> 0 < cols -> rect cols M -> zlen (concat M) <= LONG_MAX -> Forall (in_type t) (concat M) -> signed t = false \/ ~ In (tmin t) (concat M) ->
  exists W s s', print_ints lg t false name cols M = Ok s' /\ titled name s s' /\ table W (map (map (show t)) M) s /\
    (forall x d, In x (concat M) -> has_digits (Z.abs x) d -> d + blank t <= W) /\
    (exists x d, In x (concat M) /\ has_digits (Z.abs x) d /\ W <= d + blank t + 1 /\ (Z.abs x < 10 ^ 13 -> W = d + blank t)).
Proof.
  intros HM Hc HR HL HT HN. assert (0 < zlen (concat M)) by (rewrite (rect_size cols) by assumption; destruct M; [congruence|]; rewrite zlen_cons; pose proof (zlen_nonneg M); nia).
  destruct (ints_width t M HM ltac:(lia) HT HN) as (m & W & E1 & E2 & H0 & H1 & H2). unfold print_ints. rewrite E1. cbn [bind]. rewrite E2. cbn [bind].
  destruct (two_plain lg (show t) (Some W) name cols M W Hc HR) as (s & s' & P1 & P2 & P3); [now apply Forall_concat_rows, ints_max|]. exists W, s, s'. auto.
Qed.
Theorem ints_labelled t name cols M : M <> [] -> zlen M <= 10 ^ 13 -> 0 < cols -> rect cols M -> zlen (concat M) <= LONG_MAX -> Forall (in_type t) (concat M) -> signed t = false \/ ~ In (tmin t) (concat M) ->
  exists W C s s', print_ints lg t true name cols M = Ok s' /\ titled name s s' /\ labelled_table W C (map (map (show t)) M) s.
Proof.
  intros HM HM13 Hc HR HL HT HN. assert (0 < zlen (concat M)) by (rewrite (rect_size cols) by assumption; destruct M; [congruence|]; rewrite zlen_cons; pose proof (zlen_nonneg M); nia).
  destruct (ints_width t M HM ltac:(lia) HT HN) as (m & W & E1 & E2 & H0 & H1 & H2). unfold print_ints. rewrite E1. cbn [bind]. rewrite E2. cbn [bind].
  destruct (blanks_ok (zlen M)) as (D & HD); [pose proof (zlen_nonneg M); lia|].
  destruct (two_labelled lg (show t) (Some W) name cols M W D Hc HR HM) as (s & s' & P1 & P2 & P3); [now apply Forall_concat_rows, ints_max|exact HD|]. eexists W, _, s, s'. eauto.
Qed.
Lemma foldo_ub {V W} (f : W -> V -> outcome W) (l : list (outcome V)) : (forall w v, exists w', f w v = Ok w') -> Forall (fun o => o = UB \/ exists v, o = Ok v) l -> In UB l -> forall w, foldo f w l = UB.
Proof.
  intros Hf. induction l as [|o l IH]; intros H Hi w; [destruct Hi|]. inversion H; subst. cbn [foldo]. destruct H2 as [->|(v & ->)]; [reflexivity|]. cbn [bind]. destruct (Hf w v) as (w' & ->). cbn [bind]. apply IH; auto. destruct Hi as [E|Hi]; [discriminate|exact Hi].
Qed.
Theorem ints_smallest t detailed name cols M : zlen (concat M) <= LONG_MAX -> signed t = true -> Forall (in_type t) (concat M) -> In (tmin t) (concat M) -> print_ints lg t detailed name cols M = UB.
Proof.
  intros HL Hs HT Hi. unfold print_ints. set (l := concat M) in *. pose proof (un_ok (abss t) _ _ (yields_list l HL)) as Y. rewrite map_map in Y. cbn [bind] in Y.
  unfold r_max. rewrite (fold_ok _ _ _ _ Y).
  assert (A : abss t (tmin t) = UB) by (unfold abss, ineg, arith; rewrite Hs; destruct t; try discriminate; reflexivity).
  assert (F : forall l, Forall (in_type t) l -> Forall (fun o => o = UB \/ exists v, o = Ok v) (map (fun x => abss t x) l)).
  { intros k Hk. apply Forall_forall. intros o Ho. apply in_map_iff in Ho as (x & <- & Hx). destruct (Z.eq_dec x (tmin t)) as [->|Nx]; [left; exact A|]. right. rewrite abss_ok; [eauto| |now right]. rewrite Forall_forall in Hk. now apply Hk. }
  destruct l as [|x l'] eqn:El; [destruct Hi|]. cbn [map]. inversion HT; subst. destruct (Z.eq_dec x (tmin t)) as [->|Nx]; [rewrite A; reflexivity|].
  rewrite abss_ok by auto. cbn [bind]. destruct Hi as [Hi|Hi]; [contradiction|]. rewrite foldo_ub; [reflexivity|eauto|now apply F|]. rewrite <- A. now apply (in_map (fun x => abss t x)).
Qed.
(** ** Matrices of bool *)
Theorem bools_table name cols M : 0 < cols -> rect cols M -> exists s s', print_bools lg false name cols M = Ok s' /\ titled name s s' /\ table 6 (map (map show_bool) M) s.
Proof.
  intros Hc HR. apply (two_plain lg show_bool (Some boolean_spacing) name cols M 6 Hc HR). apply Forall_forall. intros r _. apply Forall_forall. intros b _. now destruct b.
Qed.
Theorem bools_labelled name cols M : M <> [] -> zlen M <= 10 ^ 13 -> 0 < cols -> rect cols M ->
  exists C s s', print_bools lg true name cols M = Ok s' /\ titled name s s' /\ labelled_table 6 C (map (map show_bool) M) s.
Proof.
  intros HM H13 Hc HR. destruct (blanks_ok (zlen M)) as (D & HD); [pose proof (zlen_nonneg M); lia|].
  destruct (two_labelled lg show_bool (Some boolean_spacing) name cols M 6 D Hc HR HM) as (s & s' & P1 & P2 & P3); [|exact HD|eexists _, s, s'; eauto].
  apply Forall_forall. intros r _. apply Forall_forall. intros b _. now destruct b.
Qed.
(** ** One dimension *)
Theorem column_labelled {V} (shown : V -> text) name l : l <> [] -> zlen l <= 10 ^ 13 ->
  exists P s s', print_one lg shown false true name l = Ok s' /\ titled name s s' /\ labelled_column P (map shown l) s.
Proof.
  intros HN H. destruct (blanks_ok (zlen l)) as (D & HD); [pose proof (zlen_nonneg l); lia|]. destruct (one_labelled lg shown name l D HN HD) as (s & s' & P1 & P2 & P3). exists (4 + D), s, s'. auto.
Qed.
End J.
