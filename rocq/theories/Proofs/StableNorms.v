(** Stable means and norms: values over the real numbers and accuracy in floating point. *)
From Coq Require Import ZArith Reals Lra Lia Psatz.
From Flocq Require Import Core BinarySingleNaN Relative.
From Verif Require Import Base.Outcome Base.ZList Model.IntModel Model.Index Model.Array1D Model.Expr Model.Reduce Model.StableOps Model.FloatModel.
From Verif Require Import Spec.ExprSpec Spec.ReduceSpec Spec.NormSpec Spec.StableSpec Spec.FloatSpec Spec.LpSpec.
From Verif Require Import Proofs.ExprProofs Proofs.ExprMore Proofs.ReduceProofs Proofs.ReduceThms Proofs.NormThms Proofs.StableLoops Proofs.ExactProofs Proofs.LpProofs Proofs.FloatProofs Proofs.FloatSum Proofs.FloatAcc Proofs.FloatPow.
Import ListNotations.
Local Open Scope R_scope.

Lemma ok_eq {V} (x y : V) : Ok x = Ok y -> x = y.
Proof. congruence. Qed.
(** ** Empty arrays *)
Lemma stable_means_empty {V} (N : num V) c sq A d : yields A [] ->
  stable_mean N A d = Ok d /\ stable_norm1 N A d = Ok d /\ stable_norm1_scaled N A d = Ok d /\ stable_norm2 N c sq A d = Ok d /\ stable_norm2_scaled N c sq A d = Ok d.
Proof.
  intros (E & _). rewrite zlen_nil in E. unfold stable_mean, stable_norm1, stable_norm1_scaled, stable_norm2, stable_norm2_scaled. rewrite E. repeat split; reflexivity.
Qed.
Lemma means_empty {V} c add mul div cast abs sq zero (A : src1 V) d : yields A [] ->
  r_mean add div cast zero A d = Ok d /\ r_norm1 add abs zero A d = Ok d /\ r_norm1_scaled add div cast abs zero A d = Ok d /\ r_norm2 c add mul sq zero A d = Ok d /\ r_norm2_scaled c add mul div cast sq zero A d = Ok d.
Proof.
  intros (E & _). rewrite zlen_nil in E. unfold r_mean, r_norm1, r_norm1_scaled, r_norm2, r_norm2_scaled. rewrite E. repeat split; reflexivity.
Qed.

(** ** Real numbers *)
Lemma abs_yields A l : yields A (map Ok l) -> yields (x_un (fun x => Ok (Rabs x)) A) (map Ok (map Rabs l)).
Proof. intros HA. pose proof (un_ok (fun x => Ok (Rabs x)) A _ HA) as H. rewrite map_map in H. rewrite map_map. exact H. Qed.
Lemma nonempty_map {A B} (f : A -> B) l : l <> [] -> map f l <> [].
Proof. destruct l; [congruence|discriminate]. Qed.
Lemma sum_sq l : sqrt (total Rplus 0 (products Rmult l l)) = norm2 l.
Proof. unfold norm2, rsum. do 2 f_equal. induction l as [|x l IH]; [reflexivity|]. cbn [products map]. now rewrite IH. Qed.
Lemma nabs_yields {V} (N : num V) A l : yields A (map Ok l) -> yields (x_un (fun x => Ok (nabs N x)) A) (map Ok (map (nabs N) l)).
Proof. intros HA. pose proof (un_ok (fun x => Ok (nabs N x)) A _ HA) as H. rewrite map_map in H. rewrite map_map. exact H. Qed.
Section REAL.
Context (c : cfg) (A : src1 R) (l : list R) (HA : yields A (map Ok l)) (HN : l <> []).
Notation n := (IZR (zlen l)).
Lemma size_A : ssize A = zlen l. Proof. destruct HA as (E & _). now rewrite zlen_map in E. Qed.
Lemma size_0 : (zlen l =? 0)%Z = false. Proof. pose proof (nonempty_len l HN). lia. Qed.
Lemma norm1_val d : stable_norm1 rnum A d = Ok (norm1 l).
Proof.
  unfold stable_norm1. rewrite size_A, size_0. pose proof (nabs_yields rnum A l HA) as H. rewrite (stable_sum_exact rnum rnum_exact _ _ _ H) by now apply nonempty_map.
  unfold norm1, rsum. cbn [rnum nadd nzero]. do 2 f_equal. apply map_ext. exact nabs_Rabs.
Qed.
Lemma norm2_val d : stable_norm2 rnum c sqrt A d = Ok (norm2 l).
Proof. unfold stable_norm2. rewrite size_A, size_0, (stable_dot_prod_exact rnum c rnum_exact A A l l _ HA HA eq_refl HN). cbn [bind rnum nadd nmul nzero]. now rewrite sum_sq. Qed.
Lemma stable_values d :
  stable_mean rnum A d = Ok (rsum l / n) /\ stable_norm1 rnum A d = Ok (norm1 l) /\ stable_norm1_scaled rnum A d = Ok (norm1 l / n) /\
  stable_norm2 rnum c sqrt A d = Ok (norm2 l) /\ stable_norm2_scaled rnum c sqrt A d = Ok (norm2 l / sqrt n).
Proof.
  split; [|split; [apply norm1_val|split; [|split; [apply norm2_val|]]]].
  - unfold stable_mean. rewrite size_A, size_0, (stable_sum_exact rnum rnum_exact A l _ HA HN). reflexivity.
  - unfold stable_norm1_scaled. rewrite size_A, size_0, norm1_val. reflexivity.
  - unfold stable_norm2_scaled. rewrite size_A, size_0, norm2_val. reflexivity.
Qed.
Lemma r_norm1_val d : r_norm1 radd Rabs 0 A d = Ok (norm1 l).
Proof. unfold r_norm1. rewrite size_A, size_0. apply (sum_ok 0 1 Rplus Rmult Rminus Ropp R_ring). now apply abs_yields. Qed.
Lemma r_norm2_val d : r_norm2 c radd rmul sqrt 0 A d = Ok (norm2 l).
Proof. unfold r_norm2. rewrite size_A, size_0. unfold radd, rmul. rewrite (dot_ok 0 1 Rplus Rmult Rminus Ropp R_ring c A A l l HA HA eq_refl). cbn [bind]. now rewrite sum_sq. Qed.
Lemma plain_values d :
  r_mean radd rdiv rcast 0 A d = Ok (rsum l / n) /\ r_norm1 radd Rabs 0 A d = Ok (norm1 l) /\ r_norm1_scaled radd rdiv rcast Rabs 0 A d = Ok (norm1 l / n) /\
  r_norm2 c radd rmul sqrt 0 A d = Ok (norm2 l) /\ r_norm2_scaled c radd rmul rdiv rcast sqrt 0 A d = Ok (norm2 l / sqrt n).
Proof.
  split; [|split; [apply r_norm1_val|split; [|split; [apply r_norm2_val|]]]].
  - exact (mean_ok 0 1 Rplus Rmult Rminus Ropp R_ring rdiv rcast A l d HA HN).
  - unfold r_norm1_scaled. rewrite size_A, size_0.
    etransitivity; [exact (mean_ok 0 1 Rplus Rmult Rminus Ropp R_ring rdiv rcast _ _ 0 (abs_yields A l HA) (nonempty_map Rabs l HN))|]. rewrite zlen_map. reflexivity.
  - unfold r_norm2_scaled. rewrite size_A, size_0, r_norm2_val. reflexivity.
Qed.
End REAL.

(** ** Square roots of perturbed numbers *)
Lemma sqrt_close q s e : 0 <= q -> 0 <= s -> 0 <= e -> Rabs (s - q) <= e * q -> Rabs (sqrt s - sqrt q) <= (e / 2 + e * e / 2) * sqrt q.
Proof.
  intros Q S E H. apply Rabs_le_inv in H. pose proof (sqrt_pos q) as RQ. pose proof (sqrt_pos s) as RS. pose proof (sqrt_sqrt q Q) as SQ. pose proof (sqrt_sqrt s S) as SS.
  set (a := sqrt s) in *. set (b := sqrt q) in *. apply Rabs_le. split.
  - destruct (Rle_or_lt 1 e) as [E1|E1]; [assert ((e / 2 + e * e / 2) * b >= 1 * b) by (apply Rle_ge, Rmult_le_compat_r; nra); lra|].
    enough ((1 - e / 2 - e * e / 2) * b <= a) by nra. assert (0 <= 1 - e / 2 - e * e / 2) as K by nra. set (k := 1 - e / 2 - e * e / 2) in *.
    destruct (Rle_or_lt (k * b) a) as [|L]; [assumption|]. exfalso.
    assert (a * a < k * b * (k * b) \/ k * b = 0) by (destruct (Req_dec (k * b) 0); [now right|left; nra]). destruct H0 as [H0|H0]; [|nra].
    assert (k * k <= 1 - e). { replace (k * k) with ((1 - e) * ((1 - e) * ((1 + e / 2) * (1 + e / 2)))) by (unfold k; field). assert ((1 - e) * ((1 + e / 2) * (1 + e / 2)) <= 1) by (assert (0 <= e * e) by nra; assert (0 <= e * e * e) by nra; nra). nra. }
    assert (k * b * (k * b) = k * k * q) by (rewrite <- SQ; ring). assert (k * k * q <= (1 - e) * q) by (apply Rmult_le_compat_r; lra). lra.
  - enough (a <= (1 + e / 2) * b) by nra. destruct (Rle_or_lt a ((1 + e / 2) * b)) as [|L]; [assumption|]. exfalso.
    assert ((1 + e / 2) * b * ((1 + e / 2) * b) < a * a) by (assert (0 <= (1 + e / 2) * b) by nra; nra). replace ((1 + e / 2) * b * ((1 + e / 2) * b)) with ((1 + e / 2) * (1 + e / 2) * q) in H0 by (rewrite <- SQ; ring). nra.
Qed.

(** ** Floating point *)
Section ACC.
Context (prec emax : Z) (Hp : Prec_gt_0 prec) (He : Prec_lt_emax prec emax) (P2 : (1 < prec)%Z).
Notation flt := (binary_float prec emax).
Notation F := (fnum prec emax).
Notation emin := (3 - emax - prec)%Z.
Notation rnd := (round radix2 (SpecFloat.fexp prec emax) ZnearestE).
Notation u := (uro prec).
Notation reals := (reals prec emax).
Notation eta := (bpow radix2 (2 - emax - prec)).
Lemma eta_half : / 2 * bpow radix2 emin = eta.
Proof. replace emin with (2 - emax - prec + 1)%Z by ring. rewrite bpow_plus. change (bpow radix2 1) with 2. field. Qed.
Lemma rnd_err x : Rabs (rnd x - x) <= u * Rabs x + eta.
Proof.
  destruct (error_N_FLT radix2 emin prec Hp (fun v => negb (Z.even v)) x) as (eps & et & B1 & B2 & B3 & R).
  change (round radix2 (FLT_exp emin prec) (Znearest (fun v : Z => negb (Z.even v))) x) with (rnd x) in R. rewrite R.
  replace (x * (1 + eps) + et - x) with (eps * x + et) by ring. rewrite eta_half in B2. fold (u_ro radix2 prec) in B1. rewrite u_ro_u in B1.
  eapply Rle_trans; [apply Rabs_triang|]. rewrite Rabs_mult. apply Rplus_le_compat; [|exact B2]. apply Rmult_le_compat_r; [apply Rabs_pos|exact B1].
Qed.
Lemma rnd_rel x : bpow radix2 (emin + prec - 1) <= Rabs x -> Rabs (rnd x - x) <= u * Rabs x.
Proof.
  intros H. destruct (relative_error_N_FLT_ex radix2 emin prec Hp (fun v => negb (Z.even v)) x H) as (eps & B & R).
  change (round radix2 (FLT_exp emin prec) (Znearest (fun v : Z => negb (Z.even v))) x) with (rnd x) in R. rewrite R.
  replace (x * (1 + eps) - x) with (eps * x) by ring. fold (u_ro radix2 prec) in B. rewrite u_ro_u in B. rewrite Rabs_mult. apply Rmult_le_compat_r; [apply Rabs_pos|exact B].
Qed.
Lemma div_fin (s w : flt) : is_finite w = true -> B2R w <> 0 -> is_finite (ndiv F s w) = true -> is_finite s = true /\ B2R (ndiv F s w) = rnd (B2R s / B2R w).
Proof.
  intros HW HZ HF. split.
  - change (ndiv F s w) with (Bdiv mode_NE s w) in HF. destruct s as [b|b| |b m e h], w as [b'|b'| |b' m' e' h']; cbn in HF; try discriminate; try reflexivity; cbn in HZ; lra.
  - pose proof (Bdiv_correct prec emax Hp He mode_NE s w HZ) as H. cbn [round_mode] in H. change (Bdiv mode_NE s w) with (ndiv F s w) in H. revert H. case Rlt_bool_spec; intros L H; [apply H|].
    destruct (ndiv F s w); cbn in HF, H; discriminate.
Qed.
Lemma sqrt_fin (s : flt) : is_finite (fsqrt prec emax s) = true -> is_finite s = true /\ 0 <= B2R s /\ B2R (fsqrt prec emax s) = rnd (sqrt (B2R s)) /\ Rabs (B2R (fsqrt prec emax s) - sqrt (B2R s)) <= u * sqrt (B2R s).
Proof.
  intros HF. unfold fsqrt in *. destruct (Bsqrt_correct prec emax Hp He mode_NE s) as (E1 & E2 & _). cbn [round_mode] in E1. rewrite HF in E2.
  assert (S0 : 0 <= B2R s). { destruct s as [b|b| |[] m e h]; try discriminate; cbn [B2R]; [lra|]. apply F2R_ge_0. cbn. lia. }
  split; [destruct s as [b|b| |[] m e h]; try discriminate; reflexivity|]. split; [exact S0|]. split; [exact E1|]. rewrite E1. clear E1 E2 HF.
  destruct (Req_dec (B2R s) 0) as [Z0|NZ]. { rewrite Z0, sqrt_0, round_0, Rminus_0_r, Rabs_R0 by typeclasses eauto. lra. }
  pose proof (rnd_rel (sqrt (B2R s))) as R. rewrite (Rabs_pos_eq (sqrt (B2R s))) in R by apply sqrt_pos. apply R.
  assert (B : bpow radix2 emin <= B2R s). { rewrite <- (Rabs_pos_eq (B2R s)) by assumption. apply (abs_B2R_ge_emin prec emax s). destruct s; cbn in NZ |- *; try reflexivity; lra. }
  assert (W : bpow radix2 (emin + prec - 1) * bpow radix2 (emin + prec - 1) <= B2R s). { rewrite <- bpow_plus. apply Rle_trans with (2 := B). apply bpow_le. unfold Prec_lt_emax in He. lia. }
  rewrite <- (sqrt_square (bpow radix2 (emin + prec - 1))) by apply bpow_ge_0. now apply sqrt_le_1_alt.
Qed.
Lemma nabs_real (x : flt) : B2R (nabs F x) = Rabs (B2R x).
Proof.
  destruct (is_finite x) eqn:E; [now apply nabs_fin|]. destruct x as [b|[]| |b m e h]; try discriminate; cbn; now rewrite Rabs_R0.
Qed.
Lemma abs_reals l : reals (map (nabs F) l) = map Rabs (reals l).
Proof. unfold FloatSpec.reals. rewrite !map_map. apply map_ext. exact nabs_real. Qed.
Lemma norm1_abs l : norm1 (map Rabs l) = norm1 l.
Proof. unfold norm1. f_equal. rewrite map_map. apply map_ext. intros x. apply Rabs_Rabsolu. Qed.
Lemma dots_self l : products Rmult (reals l) (reals l) = map (fun x => x * x) (reals l).
Proof. generalize (reals l). clear. induction l as [|x l IH]; [reflexivity|]. cbn [products map]. now rewrite IH. Qed.
Lemma norm1_sq l : norm1 (map (fun x => x * x) l) = rsum (map (fun x => x * x) l).
Proof. unfold norm1. f_equal. rewrite map_map. apply map_ext. intros x. apply Rabs_pos_eq. nra. Qed.

Section ONE.
Context (c : cfg) (A : src1 flt) (l : list flt) (HA : yields A (map Ok l)) (HN : l <> []).
Notation G := ((1 + u) ^ length l - 1).
(** Relative error of a sum of non-negative terms. *)
Notation E := (u + (1 + u) * (G * G)).
Notation n := (IZR (zlen l)).
Lemma szA : ssize A = zlen l. Proof. destruct HA as (E & _). now rewrite zlen_map in E. Qed.
Lemma sz0 : (zlen l =? 0)%Z = false. Proof. pose proof (nonempty_len l HN). lia. Qed.
Lemma E_pos : 0 <= E. Proof. pose proof (u_pos prec) as U. pose proof (Rle_0_sqr G) as H. unfold Rsqr in H. nra. Qed.
Lemma norm1_acc d v : stable_norm1 F A d = Ok v -> is_finite v = true -> Rabs (B2R v - norm1 (reals l)) <= E * norm1 (reals l).
Proof.
  unfold stable_norm1. rewrite szA, sz0. intros HV HF. pose proof (nabs_yields F A l HA) as H. pose proof (stable_sum_acc prec emax P2 _ _ _ _ H (nonempty_map _ _ HN) HV HF) as B.
  rewrite map_length, abs_reals, norm1_abs in B. fold (norm1 (reals l)) in B. rewrite (Rabs_pos_eq (norm1 (reals l))) in B by apply norm1_nonneg. unfold g in B. lra.
Qed.
(** Division by the number of elements. *)
Lemma ofZ_n : (zlen l <= 2 ^ prec)%Z -> B2R (nofZ F (zlen l)) = n /\ is_finite (nofZ F (zlen l)) = true.
Proof.
  intros HB. pose proof (nonempty_len l HN) as N0. set (z := zlen l) in *.
  assert (FI : generic_format radix2 (SpecFloat.fexp prec emax) (IZR z)).
  { change (SpecFloat.fexp prec emax) with (FLT_exp emin prec). destruct (Z.eq_dec z (2 ^ prec)) as [->|NE].
    - replace (IZR (2 ^ prec)) with (bpow radix2 prec) by (rewrite <- IZR_Zpower by (unfold Prec_gt_0 in Hp; lia); reflexivity). apply generic_format_bpow'; [typeclasses eauto|]. unfold FLT_exp, Prec_gt_0, Prec_lt_emax in *. lia.
    - apply generic_format_FLT. exists (Float radix2 z 0); [unfold F2R; cbn; ring|cbn [Fnum]; change (radix2 ^ prec)%Z with (2 ^ prec)%Z; lia|cbn [Fexp]; unfold Prec_gt_0, Prec_lt_emax in *; lia]. }
  generalize (binary_normalize_correct prec emax Hp He mode_NE z 0 false). cbn [round_mode]. replace (F2R (Float radix2 z 0)) with (IZR z) by (unfold F2R; cbn; ring).
  rewrite round_generic by (exact FI || typeclasses eauto). rewrite Rlt_bool_true; [intros (B1 & B2 & _); split; assumption|].
  rewrite Rabs_pos_eq by (apply IZR_le; lia). apply Rle_lt_trans with (bpow radix2 prec); [|apply bpow_lt; unfold Prec_lt_emax in He; lia].
  replace (bpow radix2 prec) with (IZR (2 ^ prec)) by (rewrite <- IZR_Zpower by (unfold Prec_gt_0 in Hp; lia); reflexivity). now apply IZR_le.
Qed.
Lemma n_pos : 1 <= n. Proof. pose proof (nonempty_len l HN). apply IZR_le. lia. Qed.
(** A quotient: both operands known up to a relative or absolute error. *)
Lemma quot_err x q e : Rabs (x - q) <= e -> Rabs (rnd x - q) <= u * Rabs q + (1 + u) * e + eta.
Proof.
  intros H. pose proof (rnd_err x) as R. pose proof (u_pos prec) as U. assert (Rabs x <= Rabs q + e). { replace x with (q + (x - q)) by ring. eapply Rle_trans; [apply Rabs_triang|]. lra. }
  replace (rnd x - q) with ((rnd x - x) + (x - q)) by ring. eapply Rle_trans; [apply Rabs_triang|]. assert (u * Rabs x <= u * (Rabs q + e)) by (apply Rmult_le_compat_l; lra). lra.
Qed.
Lemma over_n x m e : Rabs (x - m) <= e -> Rabs (x / n - m / n) <= e / n.
Proof.
  intros H. pose proof n_pos. replace (x / n - m / n) with ((x - m) / n) by (field; lra). unfold Rdiv. rewrite Rabs_mult, (Rabs_pos_eq (/ n)) by (apply Rlt_le, Rinv_0_lt_compat; lra).
  apply Rmult_le_compat_r; [apply Rlt_le, Rinv_0_lt_compat; lra|exact H].
Qed.
Lemma abs_over_n m : Rabs (m / n) = Rabs m / n.
Proof. pose proof n_pos. unfold Rdiv. rewrite Rabs_mult, (Rabs_pos_eq (/ n)); [reflexivity|]. apply Rlt_le, Rinv_0_lt_compat. lra. Qed.
Lemma mean_acc d v : (zlen l <= 2 ^ prec)%Z -> stable_mean F A d = Ok v -> is_finite v = true ->
  Rabs (B2R v - rsum (reals l) / n) <= (2 * u + u * u) * (Rabs (rsum (reals l)) / n) + (1 + u) * (1 + u) * (G * G) * (norm1 (reals l) / n) + eta.
Proof.
  intros HB. unfold stable_mean. rewrite szA, sz0. destruct (stable_sum F A (nzero F)) as [s| |] eqn:ES; cbn [bind]; intros HV HF; try discriminate. apply ok_eq in HV. rewrite <- HV in HF |- *. destruct (ofZ_n HB) as [Z1 Z2]. pose proof n_pos as N1.
  destruct (div_fin s _ Z2 ltac:(rewrite Z1; lra) HF) as [D1 D2]. rewrite D2, Z1. pose proof (stable_sum_acc prec emax P2 A l _ s HA HN ES D1) as B. unfold g in B.
  pose proof (quot_err _ _ _ (over_n _ _ _ B)) as Q. rewrite abs_over_n in Q. eapply Rle_trans; [exact Q|]. apply Req_le. field. lra.
Qed.
Lemma norm1_scaled_acc d v : (zlen l <= 2 ^ prec)%Z -> stable_norm1_scaled F A d = Ok v -> is_finite v = true ->
  Rabs (B2R v - norm1 (reals l) / n) <= (u + (1 + u) * E) * (norm1 (reals l) / n) + eta.
Proof.
  intros HB. unfold stable_norm1_scaled. rewrite szA, sz0. destruct (stable_norm1 F A (nzero F)) as [s| |] eqn:ES; cbn [bind]; intros HV HF; try discriminate. apply ok_eq in HV. rewrite <- HV in HF |- *. destruct (ofZ_n HB) as [Z1 Z2]. pose proof n_pos as N1.
  destruct (div_fin s _ Z2 ltac:(rewrite Z1; lra) HF) as [D1 D2]. rewrite D2, Z1. pose proof (norm1_acc _ s ES D1) as B.
  pose proof (quot_err _ _ _ (over_n _ _ _ B)) as Q. rewrite abs_over_n, (Rabs_pos_eq (norm1 (reals l))) in Q by apply norm1_nonneg. eapply Rle_trans; [exact Q|]. apply Req_le. field. lra.
Qed.
Lemma norm2_pos k : 0 <= norm2 k. Proof. apply sqrt_pos. Qed.
Lemma norm2_acc d v : no_underflows prec emax l l -> stable_norm2 F c (fsqrt prec emax) A d = Ok v -> is_finite v = true ->
  Rabs (B2R v - norm2 (reals l)) <= (u + (1 + u) * (E / 2 + E * E / 2)) * norm2 (reals l).
Proof.
  intros HU. unfold stable_norm2. rewrite szA, sz0. destruct (stable_dot_prod F c A A (nzero F)) as [s| |] eqn:ES; cbn [bind]; intros HV HF; try discriminate. apply ok_eq in HV. rewrite <- HV in HF |- *.
  destruct (sqrt_fin s HF) as (S1 & S2 & _ & S3). pose proof (stable_dot_acc prec emax P2 c A A l l _ s HA HA eq_refl HN HU ES S1) as B. rewrite dots_self, norm1_sq in B. unfold g in B.
  set (q := rsum (map (fun x => x * x) (reals l))) in *. assert (Q0 : 0 <= q) by apply rsum_nonneg, sq_all_nonneg. rewrite (Rabs_pos_eq q Q0) in B.
  assert (B' : Rabs (B2R s - q) <= E * q) by (eapply Rle_trans; [exact B|]; apply Req_le; ring). pose proof (sqrt_close q (B2R s) E Q0 S2 E_pos B') as C. unfold norm2. fold q. pose proof (u_pos prec) as U. pose proof (sqrt_pos q) as SQ.
  assert (T : sqrt (B2R s) <= sqrt q + (E / 2 + E * E / 2) * sqrt q). { replace (sqrt (B2R s)) with (sqrt q + (sqrt (B2R s) - sqrt q)) by ring. apply Rplus_le_compat_l. eapply Rle_trans; [apply Rle_abs|exact C]. }
  replace (B2R (fsqrt prec emax s) - sqrt q) with ((B2R (fsqrt prec emax s) - sqrt (B2R s)) + (sqrt (B2R s) - sqrt q)) by ring. eapply Rle_trans; [apply Rabs_triang|].
  assert (u * sqrt (B2R s) <= u * (sqrt q + (E / 2 + E * E / 2) * sqrt q)) by (apply Rmult_le_compat_l; lra). lra.
Qed.
Lemma norm2_scaled_acc d v : (zlen l <= 2 ^ prec)%Z -> no_underflows prec emax l l -> stable_norm2_scaled F c (fsqrt prec emax) A d = Ok v -> is_finite v = true ->
  let D := u + (1 + u) * (E / 2 + E * E / 2) in
  Rabs (B2R v - norm2 (reals l) / sqrt n) <= (u + (1 + u) * ((D + u) / (1 - u))) * (norm2 (reals l) / sqrt n) + eta.
Proof.
  intros HB HU. unfold stable_norm2_scaled. rewrite szA, sz0. destruct (stable_norm2 F c (fsqrt prec emax) A (nzero F)) as [s| |] eqn:ES; cbn [bind]; intros HV HF; try discriminate. apply ok_eq in HV. rewrite <- HV in HF |- *.
  set (D := u + (1 + u) * (E / 2 + E * E / 2)). destruct (ofZ_n HB) as [Z1 Z2]. pose proof n_pos as N1. pose proof (u_pos prec) as U.
  assert (U1 : u <= / 2). { unfold uro. change (/ 2) with (bpow radix2 (-1)). apply bpow_le. lia. }
  assert (RN : 1 <= sqrt n) by (rewrite <- sqrt_1; now apply sqrt_le_1_alt).
  assert (FS : is_finite (fsqrt prec emax (nofZ F (zlen l))) = true).
  { unfold fsqrt. rewrite (proj1 (proj2 (Bsqrt_correct prec emax Hp He mode_NE (nofZ F (zlen l))))). destruct (nofZ F (zlen l)) as [b|b| |[] m e h]; try discriminate; try reflexivity. cbn [B2R] in Z1.
    assert (F2R (Float radix2 (cond_Zopp true (Zpos m)) e) < 0) by (apply F2R_lt_0; reflexivity). lra. }
  destruct (sqrt_fin _ FS) as (_ & _ & _ & T). rewrite Z1 in T. set (w := fsqrt prec emax (nofZ F (zlen l))) in *. apply Rabs_le_inv in T.
  assert (W : (1 - u) * sqrt n <= B2R w <= (1 + u) * sqrt n) by lra. assert (W0 : 0 < B2R w) by nra.
  destruct (div_fin s w FS ltac:(lra) HF) as [D1 D2]. rewrite D2. pose proof (norm2_acc _ s HU ES D1) as B. fold D in B. set (m := norm2 (reals l)) in *. pose proof (norm2_pos (reals l)) as M0. fold m in M0.
  assert (D0 : 0 <= D) by (unfold D; pose proof E_pos as EP; assert (0 <= (1 + u) * (E / 2 + E * E / 2)) by (apply Rmult_le_pos; [lra|]; nra); lra).
  assert (Q : Rabs (B2R s / B2R w - m / sqrt n) <= (D + u) / (1 - u) * (m / sqrt n)).
  { replace (B2R s / B2R w - m / sqrt n) with ((B2R s * sqrt n - m * B2R w) / (B2R w * sqrt n)) by (field; lra).
    unfold Rdiv at 1. rewrite Rabs_mult, (Rabs_pos_eq (/ (B2R w * sqrt n))) by (apply Rlt_le, Rinv_0_lt_compat; nra).
    assert (NUM : Rabs (B2R s * sqrt n - m * B2R w) <= (D + u) * m * sqrt n).
    { replace (B2R s * sqrt n - m * B2R w) with ((B2R s - m) * sqrt n + m * (sqrt n - B2R w)) by ring. eapply Rle_trans; [apply Rabs_triang|]. rewrite !Rabs_mult, (Rabs_pos_eq (sqrt n)), (Rabs_pos_eq m) by lra.
      assert (Rabs (B2R s - m) * sqrt n <= D * m * sqrt n) by (apply Rmult_le_compat_r; lra). assert (Rabs (sqrt n - B2R w) <= u * sqrt n) by (apply Rabs_le; lra).
      assert (m * Rabs (sqrt n - B2R w) <= m * (u * sqrt n)) by (apply Rmult_le_compat_l; lra). lra. }
    apply Rle_trans with ((D + u) * m * sqrt n * / (B2R w * sqrt n)); [apply Rmult_le_compat_r; [apply Rlt_le, Rinv_0_lt_compat; nra|exact NUM]|].
    replace ((D + u) * m * sqrt n * / (B2R w * sqrt n)) with ((D + u) * m * / B2R w) by (field; lra). replace ((D + u) / (1 - u) * (m / sqrt n)) with ((D + u) * m * / ((1 - u) * sqrt n)) by (field; lra).
    apply Rmult_le_compat_l; [apply Rmult_le_pos; lra|]. apply Rinv_le; [nra|lra]. }
  pose proof (quot_err _ _ _ Q) as R. rewrite (Rabs_pos_eq (m / sqrt n)) in R by (apply Rmult_le_pos; [lra|apply Rlt_le, Rinv_0_lt_compat; lra]). eapply Rle_trans; [exact R|]. apply Req_le. ring.
Qed.
End ONE.

(** ** Products that are not finite *)
Definition sick (ps : flt * flt) : Prop := is_finite (fst ps) = false /\ (is_nan (fst ps) = true \/ is_nan (snd ps) = true \/ exists b, ps = (B754_infinity b, B754_infinity (negb b))).
Lemma sick_fin ps : sick ps -> is_nan (StableLoops.fin F ps) = true.
Proof.
  intros [_ [H|[H|[b ->]]]]; unfold StableLoops.fin; [now apply plus_nan_l|now apply plus_nan_r|]. cbn [fst snd]. destruct b; reflexivity.
Qed.
Lemma add_nonfin (x y : flt) : is_finite x = false \/ is_finite y = false -> is_finite (nadd F x y) = false.
Proof. intros H. destruct (is_finite (nadd F x y)) eqn:E; [|reflexivity]. apply (plus_args prec emax) in E. destruct E, H; congruence. Qed.
Lemma step_sick p s a b : is_finite p = false \/ is_finite (nmul F a b) = false -> sick (dot_step F (p, s) (a, b)).
Proof.
  intros H. unfold dot_step. cbn [fst snd]. change (two_prods F a b) with (nmul F a b, snd (two_prods F a b)). cbv iota beta. apply add_nonfin in H. destruct (two_sums_nonfinite prec emax p (nmul F a b) H) as [E1 E2].
  destruct (two_sums F p (nmul F a b)) as [p' q']. cbn [fst snd] in *. subst p'. split; [exact H|]. right. left. cbn [snd]. apply plus_nan_r. now apply plus_nan_l.
Qed.
Lemma fold_sick m : forall ps, sick ps -> sick (fold_left (dot_step F) m ps).
Proof. induction m as [|[a b] m IH]; intros [p s] H; [exact H|]. cbn [fold_left]. apply IH, step_sick. left. exact (proj1 H). Qed.
Lemma fold_sick_in m a b : In (a, b) m -> is_finite (nmul F a b) = false -> forall ps, sick (fold_left (dot_step F) m ps).
Proof.
  intros HI HF. induction m as [|[x y] m IH]; intros [p s]; [contradiction|]. cbn [fold_left]. destruct HI as [HI|HI]; [injection HI as -> ->; apply fold_sick, step_sick; now right|now apply IH].
Qed.
Lemma fma_special (a b r : flt) : is_finite a = false \/ is_finite b = false -> nmul F a b = r -> is_nan (nfma F a b (nneg F r)) = true.
Proof.
  intros H E. subst r. destruct a as [x|x| |x m e h], b as [y|y| |y m' e' h']; destruct H as [H|H]; try discriminate; try reflexivity; cbn; destruct x, y; reflexivity.
Qed.
Lemma first_sick (a b : flt) : is_finite (nmul F a b) = false -> sick (two_prods F a b).
Proof.
  intros H. split; [exact H|]. destruct (is_finite a) eqn:Ea; [destruct (is_finite b) eqn:Eb|].
  - right. right. exact (two_prods_overflow prec emax a b Ea Eb H).
  - right. left. apply (fma_special a b _ (or_intror Eb) eq_refl).
  - right. left. apply (fma_special a b _ (or_introl Ea) eq_refl).
Qed.
Theorem dot_special c A B l k d a b : yields A (map Ok l) -> yields B (map Ok k) -> zlen l = zlen k -> In (a, b) (combine l k) -> is_finite (fmul prec emax a b) = false ->
  exists v, stable_dot_prod F c A B d = Ok v /\ is_nan v = true.
Proof.
  intros HA HB HL HI HF. destruct l as [|a0 l]; [contradiction|]. destruct k as [|b0 k]; [contradiction|].
  unfold stable_dot_prod. pose proof HA as (E1 & _). pose proof HB as (E2 & _). rewrite zlen_map in E1, E2. rewrite E1, E2, HL, Z.eqb_refl. rewrite !zlen_cons in HL.
  rewrite (stable_dot_loop F c A B a0 b0 l k d HA HB) by lia. eexists. split; [reflexivity|]. apply sick_fin. destruct HI as [HI|HI]; [injection HI as -> ->; now apply fold_sick, first_sick|now apply (fold_sick_in _ a b)].
Qed.
Lemma in_combine_self {T} (l : list T) x : In x l -> In (x, x) (combine l l).
Proof. induction l as [|y l IH]; [contradiction|]. intros [->|H]; [now left|right; now apply IH]. Qed.
Theorem norm2_special c A l d x : yields A (map Ok l) -> In x l -> is_finite (fmul prec emax x x) = false ->
  exists v w, stable_norm2 F c (fsqrt prec emax) A d = Ok v /\ stable_norm2_scaled F c (fsqrt prec emax) A d = Ok w /\ is_nan v = true /\ is_nan w = true.
Proof.
  intros HA HI HF. pose proof HA as (EA & _). rewrite zlen_map in EA. assert (N0 : (0 < zlen l)%Z) by (destruct l; [contradiction|]; rewrite zlen_cons; pose proof (zlen_nonneg l); lia).
  destruct (dot_special c A A l l (nzero F) x x HA HA eq_refl (in_combine_self l x HI) HF) as (s & E1 & E2).
  assert (NS : fsqrt prec emax s = B754_nan) by (destruct s; try discriminate; reflexivity).
  exists B754_nan, B754_nan. unfold stable_norm2_scaled, stable_norm2. rewrite EA. replace (zlen l =? 0)%Z with false by lia. rewrite E1. cbn [bind]. rewrite NS. repeat split; try reflexivity.
Qed.
End ACC.
