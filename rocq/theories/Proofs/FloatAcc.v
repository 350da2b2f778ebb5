(** Accuracy of the plain sum, stable_sum and stable_dot_prod. *)
From Coq Require Import ZArith Reals Lra Lia.
From Flocq Require Import Core BinarySingleNaN Plus_error Mult_error Relative.
From Verif Require Import Base.Outcome Base.ZList Model.Index Model.Array1D Model.Expr Model.Reduce Model.StableOps Model.FloatModel.
From Verif Require Import Spec.ExprSpec Spec.ReduceSpec Spec.NormSpec Spec.FloatSpec.
From Verif Require Import Proofs.ReduceProofs Proofs.StableLoops Proofs.FloatProofs Proofs.FloatSum.
Local Open Scope R_scope.

Section ACC.
Context (prec emax : Z) {Hp : Prec_gt_0 prec} {He : Prec_lt_emax prec emax}.
Hypothesis P2 : (1 < prec)%Z.
Notation flt := (binary_float prec emax).
Notation fexp := (SpecFloat.fexp prec emax).
Notation emin := (3 - emax - prec)%Z.
Notation rnd := (round radix2 fexp ZnearestE).
Notation F := (fnum prec emax).
Notation fadd := (fadd prec emax).
Notation fmul := (fmul prec emax).
Notation fzero := (fzero prec emax).
Notation fsum := (fsum prec emax).
Notation u := (uro prec).
Notation reals := (reals prec emax).

Lemma u_pos : 0 < u. Proof. apply bpow_gt_0. Qed.
Lemma u_ro_u : u_ro radix2 prec = u.
Proof. unfold u_ro, uro. rewrite bpow_plus. change (bpow radix2 1) with 2. field. Qed.
Lemma add_rel (x y : flt) : is_finite (fadd x y) = true -> Rabs (B2R (fadd x y) - (B2R x + B2R y)) <= u * Rabs (B2R x + B2R y).
Proof.
  intros H. destruct (plus_args prec emax x y H) as [Hx Hy]. destruct (plus_inv prec emax x y Hx Hy H) as [E _].
  change (fadd x y) with (nadd F x y). rewrite E.
  destruct (FLT_plus_error_N_ex radix2 emin prec (fun v => negb (Z.even v)) (B2R x) (B2R y)) as (eps & B & R).
  - apply generic_format_B2R.
  - apply generic_format_B2R.
  - change (round radix2 (FLT_exp emin prec) (Znearest (fun v : Z => negb (Z.even v))) (B2R x + B2R y)) with (rnd (B2R x + B2R y)) in R. rewrite R.
    replace ((B2R x + B2R y) * (1 + eps) - (B2R x + B2R y)) with (eps * (B2R x + B2R y)) by ring. rewrite Rabs_mult. apply Rmult_le_compat_r; [apply Rabs_pos|].
    rewrite u_ro_u in B. pose proof u_pos. apply Rle_trans with (1 := B). apply Rmult_le_reg_r with (1 + u); [lra|]. unfold Rdiv. rewrite Rmult_assoc, Rinv_l by lra. nra.
Qed.
Lemma mul_rel (x y : flt) : is_finite (fmul x y) = true -> no_underflow prec emax x y -> Rabs (B2R (fmul x y) - B2R x * B2R y) <= u * Rabs (B2R x * B2R y).
Proof.
  intros H HU. destruct (mult_args prec emax x y H) as [Hx Hy]. destruct (mult_inv prec emax x y Hx Hy H) as [E _].
  change (fmul x y) with (nmul F x y). rewrite E. destruct HU as [HU|HU].
  - rewrite HU, round_0, Rminus_0_r, Rabs_R0 by typeclasses eauto. lra.
  - destruct (relative_error_N_FLT_ex radix2 emin prec Hp (fun v => negb (Z.even v)) (B2R x * B2R y)) as (eps & B & R).
    + apply Rle_trans with (2 := HU). apply bpow_le. unfold Prec_gt_0 in *. lia.
    + change (round radix2 (FLT_exp emin prec) (Znearest (fun v : Z => negb (Z.even v))) (B2R x * B2R y)) with (rnd (B2R x * B2R y)) in R. rewrite R.
      replace (B2R x * B2R y * (1 + eps) - B2R x * B2R y) with (eps * (B2R x * B2R y)) by ring. rewrite Rabs_mult. apply Rmult_le_compat_r; [apply Rabs_pos|].
      fold (u_ro radix2 prec) in B. now rewrite u_ro_u in B.
Qed.
Definition g (n : nat) : R := (1 + u) ^ n - 1.
Lemma g_pos n : 0 <= g n.
Proof. unfold g. pose proof u_pos. assert (1 <= (1 + u) ^ n) by (apply pow_R1_Rle; lra). lra. Qed.
Lemma g_S n : g (S n) = (1 + u) * g n + u.
Proof. unfold g. cbn. ring. Qed.
Lemma norm1_cons x l : norm1 (x :: l) = Rabs x + norm1 l.
Proof. reflexivity. Qed.
Lemma rsum_cons x l : rsum (x :: l) = x + rsum l.
Proof. reflexivity. Qed.
Lemma norm1_nonneg l : 0 <= norm1 l.
Proof. induction l as [|x l IH]; [unfold norm1, rsum, total; cbn; lra|]. rewrite norm1_cons. pose proof (Rabs_pos x). lra. Qed.

(** Plain summation. *)
Lemma fsum_acc l : forall s, sums_finite prec emax s l ->
  Rabs (B2R (fsum s l) - (B2R s + rsum (reals l))) <= g (length l) * (Rabs (B2R s) + norm1 (reals l)).
Proof.
  induction l as [|x l IH]; intros s H.
  - cbn. unfold rsum, total, g. cbn. replace (B2R s - (B2R s + 0)) with 0 by ring. rewrite Rabs_R0. lra.
  - apply sums_finite_cons in H. destruct H as [H1 H2]. specialize (IH _ H2). pose proof (add_rel s x (sums_finite_head _ _ _ _ H2)) as HR.
    change (fsum s (x :: l)) with (fsum (fadd s x) l). change (reals (x :: l)) with (B2R x :: reals l). rewrite rsum_cons, norm1_cons. cbn [length]. rewrite g_S.
    set (t := B2R (fadd s x)) in *. pose proof (Rabs_triang (B2R s) (B2R x)) as T1. pose proof u_pos as UP. pose proof (g_pos (length l)) as GP. pose proof (norm1_nonneg (reals l)) as NP.
    assert (HT : Rabs t <= (1 + u) * (Rabs (B2R s) + Rabs (B2R x))).
    { replace t with ((B2R s + B2R x) + (t - (B2R s + B2R x))) by ring. eapply Rle_trans; [apply Rabs_triang|]. nra. }
    replace (B2R (fsum (fadd s x) l) - (B2R s + (B2R x + rsum (reals l)))) with ((B2R (fsum (fadd s x) l) - (t + rsum (reals l))) + (t - (B2R s + B2R x))) by ring.
    eapply Rle_trans; [apply Rabs_triang|]. 
    assert (g (length l) * (Rabs t + norm1 (reals l)) <= g (length l) * ((1 + u) * (Rabs (B2R s) + Rabs (B2R x)) + norm1 (reals l))) by (apply Rmult_le_compat_l; lra).
    assert (0 <= u * g (length l) * norm1 (reals l)) by (apply Rmult_le_pos; [apply Rmult_le_pos; lra|assumption]).
    assert (0 <= u * norm1 (reals l)) by (apply Rmult_le_pos; lra).
    assert (u * Rabs (B2R s + B2R x) <= u * (Rabs (B2R s) + Rabs (B2R x))) by (apply Rmult_le_compat_l; lra). nra.
Qed.
(** The collected corrections are small. *)
Lemma errors_acc l : forall s es, sums_finite prec emax s l -> add_errors prec emax s l es ->
  norm1 (reals es) <= g (length l) * (Rabs (B2R s) + norm1 (reals l)).
Proof.
  induction l as [|x l IH]; intros s [|e es] H HE; cbn [add_errors] in HE; try contradiction.
  - unfold norm1, rsum, total, g. cbn. lra.
  - apply sums_finite_cons in H. destruct H as [H1 H2]. destruct HE as (E1 & E2 & E3). specialize (IH _ _ H2 E3). pose proof (add_rel s x (sums_finite_head _ _ _ _ H2)) as HR.
    change (reals (x :: l)) with (B2R x :: reals l). change (reals (e :: es)) with (B2R e :: reals es). rewrite !norm1_cons. cbn [length]. rewrite g_S.
    set (t := B2R (fadd s x)) in *. pose proof (Rabs_triang (B2R s) (B2R x)) as T1. pose proof u_pos as UP. pose proof (g_pos (length l)) as GP. pose proof (norm1_nonneg (reals l)) as NP.
    assert (HT : Rabs t <= (1 + u) * (Rabs (B2R s) + Rabs (B2R x))).
    { replace t with ((B2R s + B2R x) + (t - (B2R s + B2R x))) by ring. eapply Rle_trans; [apply Rabs_triang|]. nra. }
    assert (HEe : Rabs (B2R e) <= u * (Rabs (B2R s) + Rabs (B2R x))).
    { replace (B2R e) with (- (t - (B2R s + B2R x))) by lra. rewrite Rabs_Ropp. apply Rle_trans with (1 := HR). apply Rmult_le_compat_l; lra. }
    assert (g (length l) * (Rabs t + norm1 (reals l)) <= g (length l) * ((1 + u) * (Rabs (B2R s) + Rabs (B2R x)) + norm1 (reals l))) by (apply Rmult_le_compat_l; lra).
    assert (0 <= u * g (length l) * norm1 (reals l)) by (apply Rmult_le_pos; [apply Rmult_le_pos; lra|assumption]).
    assert (0 <= u * norm1 (reals l)) by (apply Rmult_le_pos; lra). nra.
Qed.
Lemma fsum_finite_all l s : is_finite (fsum s l) = true -> sums_finite prec emax s l.
Proof.
  intros H k. destruct (is_finite (fsum s (firstn k l))) eqn:E; [reflexivity|]. exfalso.
  assert (EQ : fsum s l = fsum (fsum s (firstn k l)) (skipn k l)). { unfold FloatSpec.fsum. rewrite <- fold_left_app, firstn_skipn. reflexivity. }
  rewrite EQ, (fsum_nonfinite prec emax _ _ E) in H. discriminate.
Qed.
Lemma add_errors_length l : forall s es, add_errors prec emax s l es -> length es = length l.
Proof. induction l as [|x l IH]; intros s [|e es] H; cbn [add_errors] in H; try contradiction; [reflexivity|]. cbn. f_equal. now apply (IH (fadd s x)). Qed.
(** From the decomposition v = s + q, s + E = S to the bound. *)
Lemma final_acc (s q : flt) (E S G T : R) : is_finite (fadd s q) = true -> B2R s + E = S -> 0 <= G -> 0 <= T -> Rabs (B2R q - E) <= G * (G * T) ->
  Rabs (B2R (fadd s q) - S) <= u * Rabs S + (1 + u) * (G * G) * T.
Proof.
  intros HF HE HG HT HQ. pose proof (add_rel s q HF) as HR. pose proof u_pos as UP.
  assert (ES : B2R s + B2R q = S + (B2R q - E)) by lra. rewrite ES in HR.
  replace (B2R (fadd s q) - S) with ((B2R (fadd s q) - (S + (B2R q - E))) + (B2R q - E)) by ring.
  eapply Rle_trans; [apply Rabs_triang|]. pose proof (Rabs_triang S (B2R q - E)) as T1.
  assert (u * Rabs (S + (B2R q - E)) <= u * (Rabs S + G * (G * T))) by (apply Rmult_le_compat_l; lra). nra.
Qed.
Theorem plain_sum_acc A l d v : yields A (map Ok l) -> l <> [] -> r_sum (fun x y => Ok (nadd F x y)) A d = Ok v -> is_finite v = true ->
  Rabs (B2R v - rsum (reals l)) <= g (length l - 1) * norm1 (reals l).
Proof.
  intros HA HN HV HF. unfold r_sum in HV. rewrite (fold_ok _ A _ d HA) in HV. destruct l as [|x l]; [contradiction|]. cbn [map bind] in HV. rewrite foldo_pure in HV. injection HV as HV.
  change (fsum x l = v) in HV. rewrite <- HV in *. pose proof (fsum_acc l x (fsum_finite_all l x HF)) as H. cbn [length]. replace (S (length l) - 1)%nat with (length l) by lia. exact H.
Qed.
Theorem stable_sum_acc A l d v : yields A (map Ok l) -> l <> [] -> stable_sum F A d = Ok v -> is_finite v = true ->
  Rabs (B2R v - rsum (reals l)) <= u * Rabs (rsum (reals l)) + (1 + u) * (g (length l) * g (length l)) * norm1 (reals l).
Proof.
  intros HA HN HV HF. pose proof (stable_sum_finite prec emax P2 A l d v HA HN HV HF) as HS.
  destruct (stable_sum_float prec emax P2 A l d HA HN HS) as (es & E1 & E2 & E3). rewrite HV in E1. injection E1 as ->.
  apply (final_acc _ _ (rsum (reals es))); [exact HF|exact E3|apply g_pos|apply norm1_nonneg|].
  apply (plus_args prec emax) in HF. destruct HF as [_ HF]. pose proof (fsum_acc es fzero (fsum_finite_all _ _ HF)) as HC. pose proof (errors_acc l fzero es HS E2) as HEs.
  cbn [B2R FloatSpec.fzero] in HC, HEs. rewrite Rabs_R0, Rplus_0_l in HC, HEs. rewrite Rplus_0_l in HC. rewrite (add_errors_length _ _ _ E2) in HC.
  eapply Rle_trans; [exact HC|]. apply Rmult_le_compat_l; [apply g_pos|exact HEs].
Qed.

(** Dot product. *)
Lemma pair_acc qs : forall rs s, sums_finite prec emax s (products fadd qs rs) -> length qs = length rs ->
  Rabs (B2R (fsum s (products fadd qs rs)) - (B2R s + (rsum (reals qs) + rsum (reals rs)))) <=
  g (S (length qs)) * (Rabs (B2R s) + (norm1 (reals qs) + norm1 (reals rs))).
Proof.
  intros rs s HS HL. pose proof (fsum_acc _ s HS) as HA.
  assert (W : Rabs (rsum (reals (products fadd qs rs)) - (rsum (reals qs) + rsum (reals rs))) <= u * (norm1 (reals qs) + norm1 (reals rs)) /\
              norm1 (reals (products fadd qs rs)) <= (1 + u) * (norm1 (reals qs) + norm1 (reals rs)) /\ length (products fadd qs rs) = length qs).
  { clear HA. revert rs s HS HL. induction qs as [|q qs IH]; intros [|r rs] s HS HL; try discriminate.
    - unfold norm1, rsum, total. cbn. replace (0 - (0 + 0)) with 0 by ring. rewrite Rabs_R0. repeat split; lra.
    - cbn [products] in HS. apply sums_finite_cons in HS. destruct HS as [HS1 HS2]. specialize (IH rs _ HS2 ltac:(cbn in HL; congruence)). destruct IH as (I1 & I2 & I3).
      pose proof (sums_finite_head _ _ _ _ HS2) as HW. change (fadd s (fadd q r)) with (nadd F s (fadd q r)) in HW. apply plus_args in HW. destruct HW as [_ HW].
      pose proof (add_rel q r HW) as HR. pose proof u_pos as UP. pose proof (Rabs_triang (B2R q) (B2R r)) as T1.
      cbn [products]. change (reals (fadd q r :: products fadd qs rs)) with (B2R (fadd q r) :: reals (products fadd qs rs)). change (reals (q :: qs)) with (B2R q :: reals qs). change (reals (r :: rs)) with (B2R r :: reals rs).
      rewrite !rsum_cons, !norm1_cons. set (w := B2R (fadd q r)) in *. assert (HRR : u * Rabs (B2R q + B2R r) <= u * (Rabs (B2R q) + Rabs (B2R r))) by (apply Rmult_le_compat_l; lra). split; [|split].
      + replace (w + rsum (reals (products fadd qs rs)) - (B2R q + rsum (reals qs) + (B2R r + rsum (reals rs)))) with ((w - (B2R q + B2R r)) + (rsum (reals (products fadd qs rs)) - (rsum (reals qs) + rsum (reals rs)))) by ring.
        eapply Rle_trans; [apply Rabs_triang|]. lra.
      + assert (Rabs w <= (1 + u) * (Rabs (B2R q) + Rabs (B2R r))). { replace w with ((B2R q + B2R r) + (w - (B2R q + B2R r))) by ring. eapply Rle_trans; [apply Rabs_triang|]. lra. } lra.
      + cbn. congruence. }
  destruct W as (W1 & W2 & W3). rewrite W3 in HA. rewrite g_S.
  set (Q := norm1 (reals qs) + norm1 (reals rs)) in *. pose proof (g_pos (length qs)) as GP. pose proof u_pos as UP. pose proof (Rabs_pos (B2R s)) as SP.
  replace (B2R (fsum s (products fadd qs rs)) - (B2R s + (rsum (reals qs) + rsum (reals rs)))) with
    ((B2R (fsum s (products fadd qs rs)) - (B2R s + rsum (reals (products fadd qs rs)))) + (rsum (reals (products fadd qs rs)) - (rsum (reals qs) + rsum (reals rs)))) by ring.
  eapply Rle_trans; [apply Rabs_triang|].
  assert (g (length qs) * (Rabs (B2R s) + norm1 (reals (products fadd qs rs))) <= g (length qs) * (Rabs (B2R s) + (1 + u) * Q)) by (apply Rmult_le_compat_l; lra).
  assert (0 <= u * g (length qs) * Rabs (B2R s)) by (apply Rmult_le_pos; [apply Rmult_le_pos; lra|assumption]).
  assert (0 <= u * Rabs (B2R s)) by (apply Rmult_le_pos; lra). nra.
Qed.
Notation dots l k := (products Rmult (reals l) (reals k)).
Lemma muls_acc l : forall k rs, mul_errors prec emax l k rs -> no_underflows prec emax l k -> Forall (fun h => is_finite h = true) (products fmul l k) ->
  norm1 (reals rs) <= u * norm1 (dots l k) /\ norm1 (reals (products fmul l k)) <= (1 + u) * norm1 (dots l k) /\ length rs = length l /\ length (products fmul l k) = length l.
Proof.
  induction l as [|a l IH]; intros [|b k] [|r rs] H HU HF; cbn [mul_errors] in H; try contradiction.
  - unfold norm1, rsum, total. cbn. repeat split; lra.
  - destruct H as (H1 & H2 & H3). destruct HU as [HU1 HU2]. cbn [products] in HF. inversion HF as [|? ? HF1 HF2]; subst. destruct (IH _ _ H3 HU2 HF2) as (I1 & I2 & I3 & I4).
    pose proof (mul_rel a b HF1 HU1) as HR. pose proof u_pos as UP. cbn [products].
    change (reals (a :: l)) with (B2R a :: reals l). change (reals (b :: k)) with (B2R b :: reals k). change (reals (r :: rs)) with (B2R r :: reals rs). change (reals (fmul a b :: products fmul l k)) with (B2R (fmul a b) :: reals (products fmul l k)).
    cbn [products]. rewrite !norm1_cons. set (h := B2R (fmul a b)) in *. split; [|split; [|split]].
    + replace (B2R r) with (- (h - B2R a * B2R b)) by lra. rewrite Rabs_Ropp. lra.
    + assert (Rabs h <= (1 + u) * Rabs (B2R a * B2R b)). { replace h with (B2R a * B2R b + (h - B2R a * B2R b)) by ring. eapply Rle_trans; [apply Rabs_triang|]. lra. } lra.
    + cbn. congruence.
    + cbn. congruence.
Qed.
Lemma fsum_terms_finite l : forall s, is_finite (fsum s l) = true -> Forall (fun h => is_finite h = true) l.
Proof.
  induction l as [|x l IH]; intros s H; [constructor|]. change (fsum s (x :: l)) with (fsum (fadd s x) l) in H.
  pose proof (sums_finite_head _ _ _ _ (fsum_finite_all _ _ H)) as H1. apply (plus_args prec emax s x) in H1. constructor; [apply H1|]. now apply (IH (fadd s x)).
Qed.
Theorem stable_dot_acc c A B l k d v : yields A (map Ok l) -> yields B (map Ok k) -> zlen l = zlen k -> l <> [] -> no_underflows prec emax l k ->
  stable_dot_prod F c A B d = Ok v -> is_finite v = true ->
  Rabs (B2R v - rsum (dots l k)) <= u * Rabs (rsum (dots l k)) + (1 + u) * (g (length l) * g (length l)) * norm1 (dots l k).
Proof.
  intros HA HB HL HN HU HV HF. destruct (stable_dot_float prec emax P2 c A B l k d v HA HB HL HN HU HV HF) as (h & hs & q & r & qs & rs & E1 & E2 & E3 & E4 & E5 & E6).
  rewrite E5 in HF |- *. pose proof HF as HF'. apply (plus_args prec emax) in HF'. destruct HF' as [HS HQ].
  assert (HH : Forall (fun x => is_finite x = true) (products fmul l k)).
  { rewrite E1. constructor; [apply (sums_finite_head _ _ _ _ (fsum_finite_all _ _ HS))|]. now apply (fsum_terms_finite hs h). }
  destruct (muls_acc _ _ _ E3 HU HH) as (M1 & M2 & M3 & M4). rewrite E1 in M2, M4. cbn [length] in M3, M4.
  pose proof (errors_acc hs h qs (fsum_finite_all _ _ HS) E2) as QE. pose proof (add_errors_length _ _ _ E2) as QL.
  assert (LL : S (length hs) = length l) by congruence. assert (LR : length qs = length rs) by lia.
  apply (final_acc _ _ (rsum (reals qs) + rsum (reals (r :: rs)))); [exact HF|exact E6|apply g_pos|apply norm1_nonneg|].
  rewrite E4 in HQ |- *. pose proof (pair_acc qs rs r (fsum_finite_all _ _ HQ) LR) as PA. rewrite QL, LL in PA.
  change (reals (r :: rs)) with (B2R r :: reals rs) in *. change (reals (h :: hs)) with (B2R h :: reals hs) in M2. rewrite norm1_cons in M1, M2. rewrite rsum_cons.
  replace (rsum (reals qs) + (B2R r + rsum (reals rs))) with (B2R r + (rsum (reals qs) + rsum (reals rs))) by ring.
  eapply Rle_trans; [exact PA|]. apply Rmult_le_compat_l; [apply g_pos|]. rewrite <- LL, g_S. pose proof (g_pos (length hs)) as GP. pose proof (norm1_nonneg (dots l k)) as NP. nra.
Qed.
End ACC.
