(** Accuracy of the plain and the semi-stable reductions. *)
From Coq Require Import ZArith Reals Lra Lia Psatz.
From Flocq Require Import Core BinarySingleNaN Relative.
From Verif Require Import Base.Outcome Base.ZList Model.IntModel Model.Index Model.Array1D Model.Array2D Model.View2D Model.Expr Model.Reduce Model.StableOps Model.FloatModel.
From Verif Require Import Spec.ExprSpec Spec.ReduceSpec Spec.NormSpec Spec.StableSpec Spec.FloatSpec Spec.LpSpec Spec.PlainSpec.
From Verif Require Import Proofs.ExprProofs Proofs.ExprThms Proofs.ExprMore Proofs.ReduceProofs Proofs.ReduceThms Proofs.NormThms Proofs.StableLoops Proofs.ExactProofs Proofs.LpProofs Proofs.FloatProofs Proofs.FloatSum Proofs.FloatAcc Proofs.FloatPow Proofs.StableNorms.
Import ListNotations.
Local Open Scope R_scope.

(** ** Values for any arithmetic *)
Section ANY.
Context {V : Type} (c : cfg) (add mul : V -> V -> V).
Notation Add := (fun x y => Ok (add x y)).
Notation Mul := (fun x y => Ok (mul x y)).
Lemma products_ok (A B : src1 V) l k : yields A (map Ok l) -> yields B (map Ok k) -> zlen l = zlen k ->
  exists P, x_bin c Mul A B = Ok P /\ yields P (map Ok (products mul l k)).
Proof.
  intros HA HB HL. destruct (bin_ok c Mul A B _ _ HA HB) as (P & E & HP); [now rewrite !zlen_map|]. exists P. split; [exact E|]. rewrite zip_products in HP. exact HP.
Qed.
Lemma products_nonempty l k : zlen l = zlen k -> l <> [] -> products mul l k <> [].
Proof. clear c add. destruct l as [|x l], k as [|y k]; intros HL HN; try congruence; cbn [products]; [|discriminate]. rewrite zlen_cons, zlen_nil in HL. pose proof (zlen_nonneg l). lia. Qed.
Lemma products_len l : forall k, length l = length k -> length (products mul l k) = length l.
Proof. clear c add. induction l as [|x l IH]; intros [|y k] H; try discriminate; [reflexivity|]. cbn in H |- *. f_equal. apply IH. congruence. Qed.
Lemma dot_any (A B : src1 V) l k z d : yields A (map Ok l) -> yields B (map Ok k) -> zlen l = zlen k -> l <> [] ->
  exists P, yields P (map Ok (products mul l k)) /\ r_dot c Add Mul z A B d = r_sum Add P z.
Proof.
  intros HA HB HL HN. pose proof HA as (EA & _). pose proof HB as (EB & _). rewrite zlen_map in EA, EB. destruct (products_ok A B l k HA HB HL) as (P & EP & HP). exists P. split; [exact HP|].
  unfold r_dot. rewrite EA, EB, HL, Z.eqb_refl, check_debug_true. cbn [bind]. rewrite <- HL. pose proof (nonempty_len l HN). replace (zlen l =? 0)%Z with false by lia. now rewrite EP.
Qed.
Lemma horner_any (A : src1 V) cs x : yields A (map Ok cs) -> forall k s, (k <= length cs)%nat ->
  horner_loop k Add Mul A x s = Ok (fold_right (fun a s => add a (mul s x)) s (firstn k cs)).
Proof.
  intros (E & HL & HU). rewrite zlen_map in HU. induction k as [|k IH]; intros s Hk; [reflexivity|].
  cbn [horner_loop]. rewrite HU by (unfold zlen; lia). destruct (znth_some cs (Z.of_nat k) ltac:(unfold zlen; lia)) as (a & Ha). unfold elt. rewrite znth_map, Ha. cbn [option_map bind]. rewrite IH by lia. f_equal.
  assert (firstn (Datatypes.S k) cs = firstn k cs ++ [a]) as ->; [|now rewrite fold_right_app].
  unfold znth in Ha. replace (Z.of_nat k <? 0)%Z with false in Ha by lia. rewrite Nat2Z.id in Ha. clear -Ha. revert cs Ha. induction k as [|k IH]; intros [|b cs]; cbn; try discriminate; [congruence|]. intros H. now rewrite <- IH.
Qed.
Lemma poly_any (A : src1 V) l a x d : yields A (map Ok (l ++ [a])) -> r_poly c Add Mul A x d = Ok (fold_right (fun b s => add b (mul s x)) a l).
Proof.
  intros HA. pose proof HA as (E & HL & HU). set (cs := l ++ [a]) in *. rewrite zlen_map in E, HL, HU. unfold r_poly. rewrite E.
  assert (LC : zlen cs = (zlen l + 1)%Z) by (unfold cs, zlen; rewrite app_length; cbn [length]; lia). pose proof (zlen_nonneg l) as L0. replace (zlen cs =? 0)%Z with false by lia.
  unfold sub1. rewrite E. cbn [idx_get]. rewrite lsub_ok by (unfold LONG_MIN; lia). cbn [bind]. rewrite ?ladd_ok, ?lsub_ok by (unfold LONG_MIN; lia). cbn [bind]. rewrite ?Z.sub_0_r, ?Z.add_0_r.
  replace (valid_index (zlen cs) (zlen cs - 1)) with true by (unfold valid_index; lia). rewrite check_debug_true. cbn [bind]. rewrite HU by lia.
  assert (HZ : znth cs (zlen cs - 1) = Some a).
  { replace (zlen cs - 1)%Z with (zlen l) by lia. unfold cs, znth, zlen. replace (Z.of_nat (length l) <? 0)%Z with false by lia. rewrite Nat2Z.id. clear. induction l; [reflexivity|assumption]. }
  unfold elt. rewrite znth_map, HZ. cbn [option_map bind]. rewrite (horner_any A cs x HA) by (unfold zlen in *; lia). f_equal. f_equal.
  replace (Z.to_nat (zlen cs - 2 + 1)) with (length l) by (unfold zlen in *; lia). unfold cs. rewrite firstn_app, Nat.sub_diag, firstn_all. cbn. apply app_nil_r.
Qed.
Lemma dotl_any l : forall k z, dotl z Add Mul (map Ok l) (map Ok k) = Ok (fold_left add (products mul l k) z).
Proof. induction l as [|x l IH]; intros [|y k] z; try reflexivity. cbn [map dotl both bind products fold_left]. apply IH. Qed.
End ANY.

(** ** Real lists *)
Lemma norm1_app l k : norm1 (l ++ k) = norm1 l + norm1 k.
Proof. induction l as [|x l IH]; [change (norm1 []) with 0; cbn [app]; ring|]. cbn [app]. rewrite !norm1_cons, IH. ring. Qed.
Lemma rsum_app l k : rsum (l ++ k) = rsum l + rsum k.
Proof. induction l as [|x l IH]; [change (rsum []) with 0; cbn [app]; ring|]. cbn [app]. rewrite !rsum_cons, IH. ring. Qed.
Lemma norm1_rev l : norm1 (rev l) = norm1 l.
Proof. induction l as [|x l IH]; [reflexivity|]. cbn [rev]. rewrite norm1_app, IH, !norm1_cons. change (norm1 []) with 0. ring. Qed.
Lemma rsum_rev l : rsum (rev l) = rsum l.
Proof. induction l as [|x l IH]; [reflexivity|]. cbn [rev]. rewrite rsum_app, IH, !rsum_cons. change (rsum []) with 0. ring. Qed.
Lemma rsum_norm1 l : Rabs (rsum l) <= norm1 l.
Proof. induction l as [|x l IH]; [unfold norm1, rsum, total; cbn; rewrite Rabs_R0; lra|]. rewrite rsum_cons, norm1_cons. eapply Rle_trans; [apply Rabs_triang|lra]. Qed.
Lemma poly_R x l : forall b, fold_right (fun a s => a + s * x) b l = rsum (poly_terms 1 Rmult x 0 (l ++ [b])).
Proof.
  intros b. induction l as [|a l IH].
  - unfold rsum, total. cbn. ring.
  - cbn [fold_right app poly_terms power]. rewrite rsum_cons, IH. unfold rsum. rewrite (poly_shift 0 1 Rplus Rmult Rminus Ropp R_ring). ring.
Qed.
Lemma power_abs x n : power 1 Rmult (Rabs x) n = Rabs (power 1 Rmult x n).
Proof. induction n as [|n IH]; cbn [power]; [now rewrite Rabs_R1|]. now rewrite Rabs_mult, IH. Qed.
Lemma poly_abs x l : forall n, norm1 (poly_terms 1 Rmult x n l) = rsum (poly_terms 1 Rmult (Rabs x) n (map Rabs l)).
Proof. induction l as [|a l IH]; intros n; [reflexivity|]. cbn [map poly_terms]. rewrite norm1_cons, rsum_cons, IH, power_abs, Rabs_mult. reflexivity. Qed.

Lemma pow_len {T} x (l : list T) : l <> [] -> x ^ length l = x * x ^ (length l - 1).
Proof. destruct l as [|y l]; [contradiction|]. intros _. cbn [length pow]. now rewrite Nat.sub_succ, Nat.sub_0_r. Qed.

(** ** Floating point *)
Section ACC.
Context (prec emax : Z) {Hp : Prec_gt_0 prec} {He : Prec_lt_emax prec emax} (P2 : (1 < prec)%Z).
Notation flt := (binary_float prec emax).
Notation F := (fnum prec emax).
Notation fadd := (fadd prec emax).
Notation fmul := (fmul prec emax).
Notation fzero := (fzero prec emax).
Notation fsum := (fsum prec emax).
Notation rnd := (round radix2 (SpecFloat.fexp prec emax) ZnearestE).
Notation u := (uro prec).
Notation g := (g prec).
Notation reals := (reals prec emax).
Notation eta := (tiny prec emax).
Notation addf := (add_f prec emax).
Notation mulf := (mul_f prec emax).
Notation divf := (div_f prec emax).
Notation castf := (cast_f prec emax).
Notation dots l k := (products Rmult (reals l) (reals k)).
Lemma eta_pos : 0 <= eta. Proof. apply bpow_ge_0. Qed.

(** Products. *)
Definition mul_close (e : R) (a b : flt) : Prop := Rabs (B2R (fmul a b) - B2R a * B2R b) <= u * Rabs (B2R a * B2R b) + e.
Lemma mul_abs (a b : flt) : is_finite (fmul a b) = true -> mul_close eta a b.
Proof.
  intros H. destruct (mult_args prec emax a b H) as [H1 H2]. destruct (mult_inv prec emax a b H1 H2 H) as [E _]. unfold mul_close. change (fmul a b) with (nmul F a b). rewrite E. apply rnd_err. exact Hp.
Qed.
Lemma mul_exactly (a b : flt) : is_finite (fmul a b) = true -> no_underflow prec emax a b -> mul_close 0 a b.
Proof. intros H HU. unfold mul_close. rewrite Rplus_0_r. now apply mul_rel. Qed.
Fixpoint all_close (e : R) (l k : list flt) : Prop :=
  match l, k with a :: l', b :: k' => mul_close e a b /\ all_close e l' k' | _, _ => True end.
Lemma close_abs l : forall k, Forall (fun h => is_finite h = true) (products fmul l k) -> all_close eta l k.
Proof. induction l as [|a l IH]; intros [|b k] H; cbn [all_close]; auto. cbn [products] in H. inversion H; subst. split; [now apply mul_abs|now apply IH]. Qed.
Lemma close_rel l : forall k, Forall (fun h => is_finite h = true) (products fmul l k) -> no_underflows prec emax l k -> all_close 0 l k.
Proof. induction l as [|a l IH]; intros [|b k] H HU; cbn [all_close]; auto. cbn [products] in H. inversion H; subst. destruct HU. split; [now apply mul_exactly|now apply IH]. Qed.
Lemma close_sums e l : 0 <= e -> forall k, length l = length k -> all_close e l k ->
  Rabs (rsum (reals (products fmul l k)) - rsum (dots l k)) <= u * norm1 (dots l k) + INR (length l) * e /\
  norm1 (reals (products fmul l k)) <= (1 + u) * norm1 (dots l k) + INR (length l) * e.
Proof.
  intros E0. induction l as [|a l IH]; intros [|b k] HL HC; try discriminate.
  - unfold norm1, rsum, total. cbn. replace (0 - 0) with 0 by ring. rewrite Rabs_R0. lra.
  - destruct HC as [HC1 HC2]. cbn in HL. destruct (IH k ltac:(congruence) HC2) as [I1 I2]. cbn [products length].
    change (reals (a :: l)) with (B2R a :: reals l). change (reals (b :: k)) with (B2R b :: reals k). change (reals (fmul a b :: products fmul l k)) with (B2R (fmul a b) :: reals (products fmul l k)).
    cbn [products]. rewrite !rsum_cons, !norm1_cons. rewrite S_INR. unfold mul_close in HC1. set (h := B2R (fmul a b)) in *. set (p := B2R a * B2R b) in *. pose proof (u_pos prec) as U. split.
    + replace (h + rsum (reals (products fmul l k)) - (p + rsum (dots l k))) with ((h - p) + (rsum (reals (products fmul l k)) - rsum (dots l k))) by ring. eapply Rle_trans; [apply Rabs_triang|]. lra.
    + assert (Rabs h <= Rabs p + (u * Rabs p + e)). { replace h with (p + (h - p)) by ring. eapply Rle_trans; [apply Rabs_triang|]. lra. } lra.
Qed.
Lemma of_products e C (v : R) l k : 0 <= e -> 0 <= C -> length l = length k -> all_close e l k ->
  Rabs (v - rsum (reals (products fmul l k))) <= C * norm1 (reals (products fmul l k)) ->
  Rabs (v - rsum (dots l k)) <= ((1 + C) * (1 + u) - 1) * norm1 (dots l k) + (1 + C) * (INR (length l) * e).
Proof.
  intros E0 C0 HL HC HV. destruct (close_sums e l E0 k HL HC) as [S1 S2]. set (ps := reals (products fmul l k)) in *. set (T := norm1 (dots l k)) in *. set (w := INR (length l) * e) in *.
  replace (v - rsum (dots l k)) with ((v - rsum ps) + (rsum ps - rsum (dots l k))) by ring. eapply Rle_trans; [apply Rabs_triang|].
  assert (C * norm1 ps <= C * ((1 + u) * T + w)) by (apply Rmult_le_compat_l; lra). lra.
Qed.
Lemma zlen_length {T U} (l : list T) (k : list U) : zlen l = zlen k -> length l = length k.
Proof. unfold zlen. lia. Qed.
(** Finite sums have finite terms. *)
Lemma sum_terms A l d v : yields A (map Ok l) -> l <> [] -> r_sum addf A d = Ok v -> is_finite v = true -> Forall (fun h => is_finite h = true) l.
Proof.
  intros HA HN HV HF. unfold r_sum in HV. rewrite (fold_ok _ A _ d HA) in HV. destruct l as [|x l]; [contradiction|]. cbn [map bind] in HV. unfold add_f in HV. rewrite foldo_pure in HV. injection HV as HV.
  change (fsum x l = v) in HV. rewrite <- HV in HF. constructor; [exact (sums_finite_head _ _ _ _ (fsum_finite_all prec emax _ _ HF))|]. now apply (fsum_terms_finite prec emax l x).
Qed.
Theorem sum_acc A l d v : yields A (map Ok l) -> l <> [] -> r_sum addf A d = Ok v -> is_finite v = true ->
  Rabs (B2R v - rsum (reals l)) <= ((1 + u) ^ (length l - 1) - 1) * norm1 (reals l).
Proof. exact (plain_sum_acc prec emax A l d v). Qed.

Section DOT.
Context (c : cfg) (A B : src1 flt) (l k : list flt) (HA : yields A (map Ok l)) (HB : yields B (map Ok k)) (HL : zlen l = zlen k) (HN : l <> []).
Lemma dot_gen e d v : 0 <= e -> (Forall (fun h => is_finite h = true) (products fmul l k) -> all_close e l k) -> r_dot c addf mulf fzero A B d = Ok v -> is_finite v = true ->
  Rabs (B2R v - rsum (dots l k)) <= ((1 + u) ^ length l - 1) * norm1 (dots l k) + (1 + u) ^ (length l - 1) * (INR (length l) * e).
Proof.
  intros E0 HC HV HF. destruct (dot_any c fadd fmul A B l k fzero d HA HB HL HN) as (P & HP & ED). change (r_dot c addf mulf fzero A B d = r_sum addf P fzero) in ED. rewrite ED in HV.
  pose proof (products_nonempty fmul l k HL HN) as PN. pose proof (sum_terms P _ _ v HP PN HV HF) as HT. pose proof (sum_acc P _ _ v HP PN HV HF) as B1. rewrite products_len in B1 by now apply zlen_length.
  pose proof (of_products e _ _ l k E0 (g_pos prec (length l - 1)) (zlen_length _ _ HL) (HC HT) B1) as B2. unfold FloatAcc.g in B2.
  rewrite (pow_len _ l HN). set (q := (1 + u) ^ (length l - 1)) in *. eapply Rle_trans; [exact B2|]. apply Req_le. ring.
Qed.
(** dot_prod. *)
Theorem dot_acc d v : r_dot c addf mulf fzero A B d = Ok v -> is_finite v = true ->
  Rabs (B2R v - rsum (dots l k)) <= ((1 + u) ^ length l - 1) * norm1 (dots l k) + (1 + u) ^ (length l - 1) * (INR (length l) * eta).
Proof. apply dot_gen; [apply eta_pos|apply close_abs]. Qed.
Theorem dot_acc_normal d v : no_underflows prec emax l k -> r_dot c addf mulf fzero A B d = Ok v -> is_finite v = true ->
  Rabs (B2R v - rsum (dots l k)) <= ((1 + u) ^ length l - 1) * norm1 (dots l k).
Proof. intros HU HV HF. pose proof (dot_gen 0 d v (Rle_refl 0) (fun H => close_rel l k H HU) HV HF) as H. lra. Qed.
End DOT.

(** Means and norms. *)
Section ONE.
Context (c : cfg) (A : src1 flt) (l : list flt) (HA : yields A (map Ok l)) (HN : l <> []).
Notation n := (IZR (zlen l)).
Notation G1 := ((1 + u) ^ (length l - 1) - 1).
Notation G := ((1 + u) ^ length l - 1).
Lemma szA : ssize A = zlen l. Proof. destruct HA as (E & _). now rewrite zlen_map in E. Qed.
Lemma sz0 : (zlen l =? 0)%Z = false. Proof. pose proof (nonempty_len l HN). lia. Qed.
Lemma quot_n s m e : (zlen l <= 2 ^ prec)%Z -> is_finite (ndiv F s (nofZ F (zlen l))) = true -> (is_finite s = true -> Rabs (B2R s - m) <= e) ->
  Rabs (B2R (ndiv F s (nofZ F (zlen l))) - m / n) <= u * (Rabs m / n) + (1 + u) * (e / n) + eta.
Proof.
  intros HB HF HS. destruct (ofZ_n prec emax Hp He P2 l HN HB) as [Z1 Z2]. pose proof (n_pos prec emax l HN) as N1.
  destruct (div_fin prec emax Hp He s _ Z2 ltac:(rewrite Z1; lra) HF) as [D1 D2]. rewrite D2, Z1. specialize (HS D1).
  pose proof (quot_err prec emax Hp _ _ _ (over_n prec emax l HN _ _ _ HS)) as Q. rewrite (abs_over_n prec emax l HN) in Q. exact Q.
Qed.
Theorem mean_acc d v : (zlen l <= 2 ^ prec)%Z -> r_mean addf divf castf fzero A d = Ok v -> is_finite v = true ->
  Rabs (B2R v - rsum (reals l) / n) <= u * (Rabs (rsum (reals l)) / n) + (1 + u) * G1 * (norm1 (reals l) / n) + eta.
Proof.
  intros HB. unfold r_mean. rewrite szA, sz0. destruct (r_sum addf A fzero) as [s| |] eqn:ES; cbn [bind]; intros HV HF; try discriminate. apply ok_eq in HV. rewrite <- HV in HF |- *.
  pose proof (quot_n s _ _ HB HF (fun H => sum_acc A l _ s HA HN ES H)) as Q. pose proof (n_pos prec emax l HN) as N1.
  eapply Rle_trans; [exact Q|]. apply Req_le. field. lra.
Qed.
Theorem norm1_acc d v : r_norm1 addf (nabs F) fzero A d = Ok v -> is_finite v = true -> Rabs (B2R v - norm1 (reals l)) <= G1 * norm1 (reals l).
Proof.
  unfold r_norm1. rewrite szA, sz0. intros HV HF. pose proof (nabs_yields F A l HA) as H. pose proof (sum_acc _ _ _ _ H (nonempty_map _ _ HN) HV HF) as B.
  rewrite map_length, (abs_reals prec emax _ _), norm1_abs in B. exact B.
Qed.
Theorem norm1_scaled_acc d v : (zlen l <= 2 ^ prec)%Z -> r_norm1_scaled addf divf castf (nabs F) fzero A d = Ok v -> is_finite v = true ->
  Rabs (B2R v - norm1 (reals l) / n) <= ((1 + u) ^ length l - 1) * (norm1 (reals l) / n) + eta.
Proof.
  intros HB. unfold r_norm1_scaled, r_mean. rewrite szA, sz0. cbn [x_un ssize]. rewrite szA, sz0.
  destruct (r_sum addf (x_un (fun x => Ok (nabs F x)) A) fzero) as [s| |] eqn:ES; cbn [bind]; intros HV HF; try discriminate. apply ok_eq in HV. rewrite <- HV in HF |- *.
  pose proof (nabs_yields F A l HA) as H. assert (HS : is_finite s = true -> Rabs (B2R s - norm1 (reals l)) <= G1 * norm1 (reals l)).
  { intros HF'. pose proof (sum_acc _ _ _ _ H (nonempty_map _ _ HN) ES HF') as B. rewrite map_length, (abs_reals prec emax _ _), norm1_abs in B. exact B. }
  pose proof (quot_n s _ _ HB HF HS) as Q. pose proof (n_pos prec emax l HN) as N1. rewrite (Rabs_pos_eq (norm1 (reals l))) in Q by apply norm1_nonneg.
  rewrite (pow_len _ l HN). eapply Rle_trans; [exact Q|]. apply Req_le. field. lra.
Qed.
(** The square root of a number known up to a relative error. *)
Lemma sqrt_step (s : flt) q E : 0 <= q -> 0 <= E -> is_finite (fsqrt prec emax s) = true -> (is_finite s = true -> Rabs (B2R s - q) <= E * q) ->
  Rabs (B2R (fsqrt prec emax s) - sqrt q) <= (u + (1 + u) * (E / 2 + E * E / 2)) * sqrt q.
Proof.
  intros Q0 E0 HF HS. destruct (sqrt_fin prec emax Hp He s HF) as (S1 & S2 & _ & S3). pose proof (sqrt_close q (B2R s) E Q0 S2 E0 (HS S1)) as C. pose proof (u_pos prec) as U. pose proof (sqrt_pos q) as SQ.
  assert (T : sqrt (B2R s) <= sqrt q + (E / 2 + E * E / 2) * sqrt q). { replace (sqrt (B2R s)) with (sqrt q + (sqrt (B2R s) - sqrt q)) by ring. apply Rplus_le_compat_l. eapply Rle_trans; [apply Rle_abs|exact C]. }
  replace (B2R (fsqrt prec emax s) - sqrt q) with ((B2R (fsqrt prec emax s) - sqrt (B2R s)) + (sqrt (B2R s) - sqrt q)) by ring. eapply Rle_trans; [apply Rabs_triang|].
  assert (u * sqrt (B2R s) <= u * (sqrt q + (E / 2 + E * E / 2) * sqrt q)) by (apply Rmult_le_compat_l; lra). lra.
Qed.
(** Division by the square root of the number of elements. *)
Lemma scaled_step (s : flt) m D : 0 <= m -> 0 <= D -> (zlen l <= 2 ^ prec)%Z -> is_finite (ndiv F s (fsqrt prec emax (nofZ F (zlen l)))) = true -> (is_finite s = true -> Rabs (B2R s - m) <= D * m) ->
  Rabs (B2R (ndiv F s (fsqrt prec emax (nofZ F (zlen l)))) - m / sqrt n) <= (u + (1 + u) * ((D + u) / (1 - u))) * (m / sqrt n) + eta.
Proof.
  intros M0 D0 HB HF HS. destruct (ofZ_n prec emax Hp He P2 l HN HB) as [Z1 Z2]. pose proof (n_pos prec emax l HN) as N1. pose proof (u_pos prec) as U.
  assert (U1 : u <= / 2). { unfold uro. change (/ 2) with (bpow radix2 (-1)). apply bpow_le. lia. }
  assert (RN : 1 <= sqrt n) by (rewrite <- sqrt_1; now apply sqrt_le_1_alt).
  assert (FS : is_finite (fsqrt prec emax (nofZ F (zlen l))) = true).
  { unfold fsqrt. rewrite (proj1 (proj2 (Bsqrt_correct prec emax Hp He mode_NE (nofZ F (zlen l))))). destruct (nofZ F (zlen l)) as [b|b| |[] mm e h]; try discriminate; try reflexivity. cbn [B2R] in Z1.
    assert (F2R (Float radix2 (cond_Zopp true (Zpos mm)) e) < 0) by (apply F2R_lt_0; reflexivity). lra. }
  destruct (sqrt_fin prec emax Hp He _ FS) as (_ & _ & _ & T). rewrite Z1 in T. set (w := fsqrt prec emax (nofZ F (zlen l))) in *. apply Rabs_le_inv in T.
  assert (W : (1 - u) * sqrt n <= B2R w <= (1 + u) * sqrt n) by lra. assert (W0 : 0 < B2R w) by nra.
  destruct (div_fin prec emax Hp He s w FS ltac:(lra) HF) as [D1 D2]. rewrite D2. pose proof (HS D1) as B.
  assert (Q : Rabs (B2R s / B2R w - m / sqrt n) <= (D + u) / (1 - u) * (m / sqrt n)).
  { replace (B2R s / B2R w - m / sqrt n) with ((B2R s * sqrt n - m * B2R w) / (B2R w * sqrt n)) by (field; lra).
    unfold Rdiv at 1. rewrite Rabs_mult, (Rabs_pos_eq (/ (B2R w * sqrt n))) by (apply Rlt_le, Rinv_0_lt_compat; nra).
    assert (NUM : Rabs (B2R s * sqrt n - m * B2R w) <= (D + u) * m * sqrt n).
    { replace (B2R s * sqrt n - m * B2R w) with ((B2R s - m) * sqrt n + m * (sqrt n - B2R w)) by ring. eapply Rle_trans; [apply Rabs_triang|]. rewrite !Rabs_mult, (Rabs_pos_eq (sqrt n)), (Rabs_pos_eq m) by lra.
      assert (Rabs (B2R s - m) * sqrt n <= D * m * sqrt n) by (apply Rmult_le_compat_r; lra). assert (Rabs (sqrt n - B2R w) <= u * sqrt n) by (apply Rabs_le; lra).
      assert (m * Rabs (sqrt n - B2R w) <= m * (u * sqrt n)) by (apply Rmult_le_compat_l; lra). lra. }
    apply Rle_trans with ((D + u) * m * sqrt n * / (B2R w * sqrt n)); [apply Rmult_le_compat_r; [apply Rlt_le, Rinv_0_lt_compat; nra|exact NUM]|].
    replace ((D + u) * m * sqrt n * / (B2R w * sqrt n)) with ((D + u) * m * / B2R w) by (field; lra). replace ((D + u) / (1 - u) * (m / sqrt n)) with ((D + u) * m * / ((1 - u) * sqrt n)) by (field; lra).
    apply Rmult_le_compat_l; [apply Rmult_le_pos; lra|]. apply Rinv_le; [nra|lra]. }
  pose proof (quot_err prec emax Hp _ _ _ Q) as R. rewrite (Rabs_pos_eq (m / sqrt n)) in R by (apply Rmult_le_pos; [lra|apply Rlt_le, Rinv_0_lt_compat; lra]). eapply Rle_trans; [exact R|]. apply Req_le. unfold tiny. ring.
Qed.
Theorem norm2_acc d v : no_underflows prec emax l l -> r_norm2 c addf mulf (fsqrt prec emax) fzero A d = Ok v -> is_finite v = true ->
  Rabs (B2R v - norm2 (reals l)) <= (u + (1 + u) * (G / 2 + G * G / 2)) * norm2 (reals l).
Proof.
  intros HU. unfold r_norm2. rewrite szA, sz0. destruct (r_dot c addf mulf fzero A A fzero) as [s| |] eqn:ES; cbn [bind]; intros HV HF; try discriminate. apply ok_eq in HV. rewrite <- HV in HF |- *.
  unfold norm2. apply sqrt_step; [apply rsum_nonneg, sq_all_nonneg|apply (g_pos prec (length l))|exact HF|]. intros HS. pose proof (dot_acc_normal c A A l l HA HA eq_refl HN _ s HU ES HS) as B.
  rewrite (dots_self prec emax), norm1_sq in B. exact B.
Qed.
Theorem norm2_scaled_acc d v : (zlen l <= 2 ^ prec)%Z -> no_underflows prec emax l l -> r_norm2_scaled c addf mulf divf castf (fsqrt prec emax) fzero A d = Ok v -> is_finite v = true ->
  let D := u + (1 + u) * (G / 2 + G * G / 2) in
  Rabs (B2R v - norm2 (reals l) / sqrt n) <= (u + (1 + u) * ((D + u) / (1 - u))) * (norm2 (reals l) / sqrt n) + eta.
Proof.
  intros HB HU. unfold r_norm2_scaled. rewrite szA, sz0. destruct (r_norm2 c addf mulf (fsqrt prec emax) fzero A fzero) as [s| |] eqn:ES; cbn [bind]; intros HV HF; try discriminate. apply ok_eq in HV. rewrite <- HV in HF |- *. cbv zeta.
  apply scaled_step; [apply sqrt_pos| |exact HB|exact HF|intros HS; exact (norm2_acc _ s HU ES HS)].
  pose proof (g_pos prec (length l)) as GP. unfold FloatAcc.g in GP. pose proof (u_pos prec) as U. assert (0 <= (1 + u) * (G / 2 + G * G / 2)) by (apply Rmult_le_pos; [lra|nra]). lra.
Qed.
End ONE.

(** prod. *)
Lemma fprod_acc l : forall p, is_finite (fprod prec emax p l) = true -> steps_no_underflow prec emax p l ->
  Rabs (B2R (fprod prec emax p l) - B2R p * rprod (reals l)) <= ((1 + u) ^ length l - 1) * Rabs (B2R p * rprod (reals l)).
Proof.
  induction l as [|x l IH]; intros p HF HU.
  - unfold rprod, total. cbn. replace (B2R p - B2R p * 1) with 0 by ring. rewrite Rabs_R0. lra.
  - destruct HU as [HU1 HU2]. change (fprod prec emax p (x :: l)) with (fprod prec emax (fmul p x) l) in *. specialize (IH _ HF HU2).
    assert (HM : is_finite (fmul p x) = true).
    { clear -HF. revert HF. generalize (fmul p x). induction l as [|y l IH]; intros q H; [exact H|]. apply (IH (fmul q y)) in H. now apply (mult_args prec emax q y) in H. }
    pose proof (mul_rel prec emax p x HM HU1) as HR. change (reals (x :: l)) with (B2R x :: reals l). change (rprod (B2R x :: reals l)) with (B2R x * rprod (reals l)).
    set (h := B2R (fmul p x)) in *. set (q := B2R p * B2R x) in *. set (w := rprod (reals l)) in *. replace (B2R p * (B2R x * w)) with (q * w) by (unfold q; ring). cbn [length pow].
    pose proof (u_pos prec) as U. pose proof (g_pos prec (length l)) as GP. unfold FloatAcc.g in GP. set (r := (1 + u) ^ length l) in *.
    assert (HH : Rabs (h * w) <= (1 + u) * Rabs (q * w)). { rewrite !Rabs_mult. assert (Rabs h <= (1 + u) * Rabs q). { replace h with (q + (h - q)) by ring. eapply Rle_trans; [apply Rabs_triang|]. lra. }
      rewrite <- Rmult_assoc. apply Rmult_le_compat_r; [apply Rabs_pos|assumption]. }
    assert (HD : Rabs (h * w - q * w) <= u * Rabs (q * w)). { replace (h * w - q * w) with ((h - q) * w) by ring. rewrite !Rabs_mult. rewrite <- Rmult_assoc. apply Rmult_le_compat_r; [apply Rabs_pos|assumption]. }
    replace (B2R (fprod prec emax (fmul p x) l) - q * w) with ((B2R (fprod prec emax (fmul p x) l) - h * w) + (h * w - q * w)) by ring. eapply Rle_trans; [apply Rabs_triang|].
    assert ((r - 1) * Rabs (h * w) <= (r - 1) * ((1 + u) * Rabs (q * w))) by (apply Rmult_le_compat_l; lra). lra.
Qed.
Theorem prod_acc A x l d v : yields A (map Ok (x :: l)) -> steps_no_underflow prec emax x l -> r_prod mulf A d = Ok v -> is_finite v = true ->
  Rabs (B2R v - rprod (reals (x :: l))) <= ((1 + u) ^ length l - 1) * Rabs (rprod (reals (x :: l))).
Proof.
  intros HA HU HV HF. unfold r_prod in HV. rewrite (fold_ok _ A _ d HA) in HV. cbn [map bind] in HV. unfold mul_f in HV. rewrite foldo_pure in HV. injection HV as HV.
  change (fprod prec emax x l = v) in HV. rewrite <- HV in HF |- *. exact (fprod_acc l x HF HU).
Qed.

(** polynomial. *)
Lemma horner_acc x s l : is_finite (fold_right (fun a s => fadd a (fmul s x)) s l) = true ->
  let X := B2R x in let h := fold_right (fun a s => a + s * X) (B2R s) (reals l) in let H := fold_right (fun a s => a + s * Rabs X) (Rabs (B2R s)) (map Rabs (reals l)) in
  let N := fold_right (fun a s => a + s * Rabs X) 0 (repeat 1 (length l)) in let p := (1 + u) ^ (2 * length l) in
  Rabs h <= H /\ 0 <= N /\ Rabs (B2R (fold_right (fun a s => fadd a (fmul s x)) s l) - h) <= (p - 1) * H + p * (eta * N).
Proof.
  intros HF. cbv zeta. set (X := B2R x). induction l as [|a l IH].
  - cbn. replace (B2R s - B2R s) with 0 by ring. rewrite Rabs_R0. split; [lra|]. split; [lra|]. lra.
  - cbn [fold_right] in HF. apply (plus_args prec emax) in HF as HF'. destruct HF' as [_ HM]. apply (mult_args prec emax) in HM as HM'. destruct HM' as [HT _]. specialize (IH HT). destruct IH as (I1 & I2 & I3).
    replace (2 * length (a :: l))%nat with (Datatypes.S (Datatypes.S (2 * length l))) by (cbn; lia). cbn [pow]. change (reals (a :: l)) with (B2R a :: reals l). cbn [map length repeat fold_right].
    set (t := fold_right (fun a s => fadd a (fmul s x)) s l) in *. set (h := fold_right (fun a s => a + s * X) (B2R s) (reals l)) in *. set (H := fold_right (fun a s => a + s * Rabs X) (Rabs (B2R s)) (map Rabs (reals l))) in *.
    set (N := fold_right (fun a s => a + s * Rabs X) 0 (repeat 1 (length l))) in *. pose proof (g_pos prec (2 * length l)) as GP. unfold FloatAcc.g in GP. set (p := (1 + u) ^ (2 * length l)) in *.
    pose proof (mul_abs t x HM) as M. unfold mul_close in M. fold X in M. pose proof (add_rel prec emax a (fmul t x) HF) as AD. set (w := B2R (fmul t x)) in *. set (r := B2R (fadd a (fmul t x))) in *. set (y := B2R a) in *. set (th := B2R t) in *.
    pose proof (u_pos prec) as U. pose proof eta_pos as ET. pose proof (Rabs_pos X) as X0. pose proof (Rabs_pos y) as Y0. pose proof (Rabs_pos h) as H0. set (z := Rabs X) in *. set (m := p * (H + eta * N)).
    assert (T1 : Rabs th <= m). { replace th with (h + (th - h)) by ring. eapply Rle_trans; [apply Rabs_triang|]. unfold m. lra. }
    assert (EN : 0 <= eta * N) by now apply Rmult_le_pos. assert (M0 : 0 <= m) by (apply Rmult_le_pos; lra).
    assert (W1 : Rabs (w - th * X) <= u * (m * z) + eta). { eapply Rle_trans; [exact M|]. rewrite Rabs_mult. fold z. apply Rplus_le_compat_r. apply Rmult_le_compat_l; [lra|]. apply Rmult_le_compat_r; assumption. }
    assert (W2 : Rabs (th * X - h * X) <= (m - H) * z). { replace (th * X - h * X) with ((th - h) * X) by ring. rewrite Rabs_mult. fold z. apply Rmult_le_compat_r; [assumption|]. unfold m. lra. }
    assert (W3 : Rabs (w - h * X) <= (1 + u) * (m * z) + eta - H * z). { replace (w - h * X) with ((w - th * X) + (th * X - h * X)) by ring. eapply Rle_trans; [apply Rabs_triang|]. lra. }
    assert (HX : Rabs (h * X) <= H * z) by (rewrite Rabs_mult; fold z; apply Rmult_le_compat_r; assumption).
    assert (W4 : Rabs w <= (1 + u) * (m * z) + eta). { replace w with (h * X + (w - h * X)) by ring. eapply Rle_trans; [apply Rabs_triang|]. lra. }
    split; [eapply Rle_trans; [apply Rabs_triang|]; lra|]. assert (NZ : 0 <= N * z) by (now apply Rmult_le_pos). split; [lra|].
    assert (AD' : Rabs (r - (y + w)) <= u * (Rabs y + Rabs w)). { eapply Rle_trans; [exact AD|]. apply Rmult_le_compat_l; [lra|apply Rabs_triang]. }
    replace (r - (y + h * X)) with ((r - (y + w)) + (w - h * X)) by ring. eapply Rle_trans; [apply Rabs_triang|].
    assert (UW : u * (Rabs y + Rabs w) <= u * (Rabs y + ((1 + u) * (m * z) + eta))) by (apply Rmult_le_compat_l; lra).
    apply Rle_trans with (u * Rabs y + (1 + u) * ((1 + u) * (m * z) + eta) - H * z); [lra|].
    replace (u * Rabs y + (1 + u) * ((1 + u) * (m * z) + eta) - H * z) with (u * Rabs y + ((1 + u) * ((1 + u) * p) - 1) * (H * z) + (1 + u) * ((1 + u) * p) * (eta * (N * z)) + (1 + u) * eta) by (unfold m; ring).
    set (p' := (1 + u) * ((1 + u) * p)) in *. assert (P1 : 1 + u <= p'). { unfold p'. assert (1 <= (1 + u) * p) by nra. nra. }
    assert (u * Rabs y <= (p' - 1) * Rabs y) by (apply Rmult_le_compat_r; lra). assert ((1 + u) * eta <= p' * eta) by (apply Rmult_le_compat_r; lra). lra.
Qed.
Theorem poly_acc c A l a x d v : yields A (map Ok (l ++ [a])) -> r_poly c addf mulf A x d = Ok v -> is_finite v = true ->
  let X := B2R x in let p := (1 + u) ^ (2 * length l) in
  Rabs (B2R v - rsum (poly_terms 1 Rmult X 0 (reals (l ++ [a])))) <=
  (p - 1) * norm1 (poly_terms 1 Rmult X 0 (reals (l ++ [a]))) + p * (eta * rsum (poly_terms 1 Rmult (Rabs X) 0 (repeat 1 (length l)))).
Proof.
  intros HA HV HF. cbv zeta. pose proof (poly_any c fadd fmul A l a x d HA) as E. change (r_poly c addf mulf A x d = Ok (fold_right (fun b s => fadd b (fmul s x)) a l)) in E. rewrite E in HV. apply ok_eq in HV. rewrite <- HV in HF |- *.
  destruct (horner_acc x a l HF) as (_ & _ & B). rewrite poly_R in B. rewrite poly_abs. unfold FloatSpec.reals in *. rewrite !map_app in *. cbn [map] in *. rewrite poly_R in B.
  eapply Rle_trans; [exact B|]. apply Req_le. do 3 f_equal. generalize (length l). intros n. rewrite poly_R. clear.
  assert (G : forall k x, rsum (poly_terms 1 Rmult x k (repeat 1 n ++ [0])) = rsum (poly_terms 1 Rmult x k (repeat 1 n))); [|apply G].
  induction n as [|n IH]; intros k z; cbn [repeat app poly_terms]; [unfold rsum, total; cbn; ring|]. rewrite !rsum_cons. now rewrite IH.
Qed.

(** matvec_prod. *)
Lemma fsum0_acc l : l <> [] -> is_finite (fsum fzero l) = true -> Rabs (B2R (fsum fzero l) - rsum (reals l)) <= ((1 + u) ^ (length l - 1) - 1) * norm1 (reals l).
Proof.
  intros HN HF. destruct l as [|x l]; [contradiction|]. pose proof (fsum_finite_all prec emax _ _ HF) as HS. change (fsum fzero (x :: l)) with (fsum (fadd fzero x) l) in *.
  pose proof (fsum_finite_all prec emax _ _ HF) as HS'. pose proof (fsum_acc prec emax l _ HS') as B. pose proof (sums_finite_head _ _ _ _ HS') as H0.
  assert (E : B2R (fadd fzero x) = B2R x).
  { destruct (plus_args prec emax fzero x H0) as [Z0 X0]. destruct (plus_inv prec emax fzero x Z0 X0 H0) as [E _]. change (fadd fzero x) with (nadd F fzero x). rewrite E. cbn [B2R FloatSpec.fzero]. rewrite Rplus_0_l. apply round_generic; [typeclasses eauto|]. apply generic_format_B2R. }
  rewrite E in B. cbn [length]. replace (Datatypes.S (length l) - 1)%nat with (length l) by lia. exact B.
Qed.
Theorem matvec_acc c (A : src2 flt) (x : src1 flt) m f l : yields2 A (mkmx m (zlen l) (fun i j => Ok (f i j))) -> yields x (map Ok l) -> (0 < m)%Z -> l <> [] ->
  exists R vs, x_matvec c fzero addf mulf A x = Ok R /\ yields R (map Ok vs) /\ zlen vs = m /\
  forall i v, znth vs i = Some v -> is_finite v = true -> let row := map (f i) (zseq 0 (length l)) in
  Rabs (B2R v - rsum (dots row l)) <= ((1 + u) ^ length l - 1) * norm1 (dots row l) + (1 + u) ^ (length l - 1) * (INR (length l) * eta).
Proof.
  intros HA HX HM HN. destruct (matvec_ok c fzero addf mulf A x _ _ HA ltac:(unfold plump; pose proof (nonempty_len l HN); cbn [mr mc]; lia) HX) as (R & E & HR); [cbn [mc]; now rewrite zlen_map|]. exists R.
  set (row := fun i => map (f i) (zseq 0 (length l))). exists (map (fun i => fsum fzero (products fmul (row i) l)) (zseq 0 (Z.to_nat m))). split; [exact E|].
  split; [|split].
  - rewrite map_map. cbn [mr] in HR. erewrite map_ext; [exact HR|]. intros i. symmetry. cbv beta. unfold mrow. cbn [mc mel]. 
    replace (Z.to_nat (zlen l)) with (length l) by (unfold zlen; lia). rewrite <- (map_map (f i) Ok). exact (dotl_any fadd fmul (row i) l fzero).
  - rewrite zlen_map, zlen_zseq. lia.
  - intros i v HV HF. cbv zeta. fold (row i). rewrite znth_map in HV. destruct (znth (zseq 0 (Z.to_nat m)) i) as [j|] eqn:EJ; [|discriminate]. cbn [option_map] in HV. injection HV as HV.
    assert (J : j = i) by (pose proof (znth_lt _ _ _ EJ) as LT; rewrite zlen_zseq in LT; rewrite znth_zseq in EJ by lia; injection EJ as <-; lia). subst j. rewrite <- HV in HF |- *.
    assert (LR : length (row i) = length l) by (unfold row; now rewrite map_length, zseq_length). assert (PN : products fmul (row i) l <> []). { apply products_nonempty; [unfold zlen; lia|]. intros H0. rewrite H0 in LR. destruct l; [contradiction|discriminate]. }
    pose proof (fsum0_acc _ PN HF) as B1. rewrite products_len in B1 by assumption. rewrite LR in B1. pose proof (fsum_terms_finite prec emax _ _ HF) as HT.
    pose proof (of_products eta _ _ (row i) l eta_pos (g_pos prec (length l - 1)) LR (close_abs _ _ HT) B1) as B2. unfold FloatAcc.g in B2. rewrite LR in B2.
    rewrite (pow_len _ l HN). set (q := (1 + u) ^ (length l - 1)) in *. eapply Rle_trans; [exact B2|]. apply Req_le. ring.
Qed.

(** ** semi_stable_sum *)
Lemma reals_app a b : reals (a ++ b) = reals a ++ reals b. Proof. apply map_app. Qed.
Lemma reals_rev a : reals (rev a) = rev (reals a). Proof. apply map_rev. Qed.
Lemma g_le a b : (a <= b)%nat -> g a <= g b.
Proof. intros H. unfold FloatAcc.g. pose proof (u_pos prec). apply Rplus_le_compat_r. apply Rle_pow; [lra|exact H]. Qed.
Lemma fsumz_acc l m : (length l <= m)%nat -> is_finite (fsum fzero l) = true -> Rabs (B2R (fsum fzero l) - rsum (reals l)) <= g m * norm1 (reals l).
Proof.
  intros HM HF. pose proof (fsum_acc prec emax l fzero (fsum_finite_all prec emax _ _ HF)) as B. cbn [B2R FloatSpec.fzero] in B. rewrite Rabs_R0, !Rplus_0_l in B.
  eapply Rle_trans; [exact B|]. apply Rmult_le_compat_r; [apply norm1_nonneg|]. now apply g_le.
Qed.
(** The blocks. *)
Lemma blocks_acc l nb : (64 * nb <= length l)%nat -> let bs := map (bsum F l) (zseq 0 nb) in Forall (fun h => is_finite h = true) bs ->
  Rabs (rsum (reals bs) - rsum (reals (firstn (64 * nb) l))) <= g 64 * norm1 (reals (firstn (64 * nb) l)) /\ norm1 (reals bs) <= (1 + g 64) * norm1 (reals (firstn (64 * nb) l)).
Proof.
  cbv zeta. induction nb as [|nb IH]; intros HB HF.
  - cbn. unfold norm1, rsum, total. cbn. replace (0 - 0) with 0 by ring. rewrite Rabs_R0. pose proof (g_pos prec 64). lra.
  - rewrite zseq_S, map_app in HF |- *. apply Forall_app in HF. destruct HF as [HF1 HF2]. destruct (IH ltac:(lia) HF1) as [I1 I2]. cbn [map] in HF2 |- *. rewrite Z.add_0_l in HF2 |- *. inversion HF2 as [|? ? HF3 _]; subst.
    assert (E : firstn (64 * Datatypes.S nb) l = firstn (64 * nb) l ++ block l (Z.of_nat nb)).
    { replace (64 * Datatypes.S nb)%nat with (64 * nb + 64)%nat by lia. unfold block. replace (Z.to_nat (64 * Z.of_nat nb)) with (64 * nb)%nat by lia. rewrite <- (firstn_skipn (64 * nb) l) at 1. rewrite firstn_app, firstn_firstn.
      replace (Nat.min (64 * nb + 64) (64 * nb)) with (64 * nb)%nat by lia. f_equal. rewrite firstn_length. f_equal. lia. }
    rewrite E, !reals_app, !rsum_app, !norm1_app. set (k := block l (Z.of_nat nb)) in *. change (bsum F l (Z.of_nat nb)) with (fsum fzero k) in *.
    pose proof (fsumz_acc k 64 ltac:(unfold k, block; rewrite firstn_length; lia) HF3) as B. change (reals [fsum fzero k]) with [B2R (fsum fzero k)]. rewrite rsum_cons, norm1_cons. change (rsum []) with 0. change (norm1 []) with 0. rewrite !Rplus_0_r.
    set (h := B2R (fsum fzero k)) in *. split.
    + match goal with |- Rabs (?a + h - (?b + ?d)) <= _ => replace (a + h - (b + d)) with ((a - b) + (h - d)) by ring end. eapply Rle_trans; [apply Rabs_triang|]. lra.
    + pose proof (rsum_norm1 (reals k)). assert (Rabs h <= norm1 (reals k) + g 64 * norm1 (reals k)). { replace h with (rsum (reals k) + (h - rsum (reals k))) by ring. eapply Rle_trans; [apply Rabs_triang|]. lra. } lra.
Qed.
Lemma stable_value_acc bs v : bs <> [] -> (zlen bs <= LONG_MAX)%Z -> fin F (fold_left (sum_step F) bs (nzero F, nzero F)) = v -> is_finite v = true ->
  Forall (fun h => is_finite h = true) bs /\ Rabs (B2R v - rsum (reals bs)) <= u * Rabs (rsum (reals bs)) + (1 + u) * (g (length bs) * g (length bs)) * norm1 (reals bs).
Proof.
  intros HN HM HV HF. pose proof (yields_list bs HM) as HY. pose proof (stable_sum_loop F _ _ fzero HY HN) as E. rewrite HV in E. split; [|exact (stable_sum_acc prec emax P2 _ bs fzero v HY HN E HF)].
  pose proof (stable_sum_finite prec emax P2 _ bs fzero v HY HN E HF) as HS. specialize (HS (length bs)). rewrite firstn_all in HS. exact (fsum_terms_finite prec emax bs fzero HS).
Qed.
Theorem semi_acc c A l d v : yields A (map Ok l) -> l <> [] -> (zlen l / 64 <= amax c)%Z -> semi_stable_sum F c A d = Ok v -> is_finite v = true ->
  let K := (1 + u) ^ Z.to_nat (zlen l / 64) - 1 in
  Rabs (B2R v - rsum (reals l)) <= ((1 + u) ^ 66 * (1 + K * K) - 1) * norm1 (reals l).
Proof.
  intros HA HN HM HV HF. cbv zeta. pose proof HA as (_ & HL & _). rewrite zlen_map in HL. rewrite (semi_stable_loop F c A l d HA HN HM) in HV. apply ok_eq in HV. unfold semi_value in HV.
  pose proof (u_pos prec) as U. set (nb := Z.to_nat (zlen l / 64)) in *. pose proof (zlen_nonneg l) as L0. assert (N0 : (zlen l / 64)%Z = Z.of_nat nb) by (unfold nb; pose proof (Z.div_pos (zlen l) 64 L0 ltac:(lia)); lia).
  assert (NB : zlen l = (64 * Z.of_nat nb + zlen l mod 64)%Z) by (rewrite <- N0; apply Z.div_mod; lia). pose proof (Z.mod_pos_bound (zlen l) 64 ltac:(lia)) as RM. set (rm := Z.to_nat (zlen l mod 64)) in *.
  assert (LN : length l = (64 * nb + rm)%nat) by (unfold rm; unfold zlen in *; lia). assert (R64 : (rm < 64)%nat) by (unfold rm; lia).
  rewrite firstn_rev_skip in HV by lia. replace (length l - rm)%nat with (64 * nb)%nat in HV by lia. set (tl := skipn (64 * nb) l) in *.
  assert (LT : length tl = rm) by (unfold tl; rewrite skipn_length; lia). change (fold_left (nadd F) (rev tl) (nzero F)) with (fsum fzero (rev tl)) in HV. set (r := fsum fzero (rev tl)) in *.
  assert (HR : is_finite r = true -> Rabs (B2R r - rsum (reals tl)) <= g 64 * norm1 (reals tl)).
  { intros H. pose proof (fsumz_acc (rev tl) 64 ltac:(rewrite rev_length; lia) H) as B. rewrite reals_rev, rsum_rev, norm1_rev in B. exact B. }
  assert (ES : rsum (reals l) = rsum (reals (firstn (64 * nb) l)) + rsum (reals tl)) by (rewrite <- rsum_app, <- reals_app; unfold tl; now rewrite firstn_skipn).
  assert (EN : norm1 (reals l) = norm1 (reals (firstn (64 * nb) l)) + norm1 (reals tl)) by (rewrite <- norm1_app, <- reals_app; unfold tl; now rewrite firstn_skipn).
  pose proof (norm1_nonneg (reals (firstn (64 * nb) l))) as T1. pose proof (norm1_nonneg (reals tl)) as T2. set (S1 := rsum (reals (firstn (64 * nb) l))) in *. set (S2 := rsum (reals tl)) in *. set (N1 := norm1 (reals (firstn (64 * nb) l))) in *. set (N2 := norm1 (reals tl)) in *.
  assert (P66 : (1 + u) ^ 66 = (1 + u) * ((1 + u) * (1 + g 64))) by (unfold FloatAcc.g; replace 66%nat with (2 + 64)%nat by reflexivity; rewrite pow_add; ring). rewrite P66, ES, EN. pose proof (g_pos prec 64) as G64. set (q := g 64) in *.
  destruct (Z.eqb_spec (zlen l / 64) 0) as [E0|E0].
  - assert (nb = O) by lia. assert (Z1 : N1 = 0) by (unfold N1; rewrite H; reflexivity). assert (Z2 : S1 = 0) by (unfold S1; rewrite H; reflexivity). rewrite Z1, Z2, !Rplus_0_l. rewrite <- HV in HF |- *. eapply Rle_trans; [exact (HR HF)|].
    apply Rmult_le_compat_r; [exact T2|]. rewrite H. cbn [pow]. replace (1 - 1) with 0 by ring. rewrite Rmult_0_l, Rplus_0_r, Rmult_1_r. clear - U G64. clearbody q. nra.
  - rewrite <- HV in HF |- *. set (bs := map (bsum F l) (zseq 0 nb)) in *. set (t := fin F (fold_left (sum_step F) bs (nzero F, nzero F))) in *. apply (plus_args prec emax t r) in HF as HF'. destruct HF' as [HT HR0]. specialize (HR HR0).
    assert (BL : length bs = nb) by (unfold bs; now rewrite map_length, zseq_length). assert (BN : bs <> []) by (intros H; rewrite H in BL; cbn in BL; lia).
    destruct (stable_value_acc bs t BN ltac:(unfold zlen in *; lia) eq_refl HT) as [BF B1]. destruct (blocks_acc l nb ltac:(lia) BF) as [B2 B3]. fold bs S1 N1 in B2, B3. rewrite BL in B1. fold q in B2, B3. clearbody q.
    pose proof (add_rel prec emax t r HF) as AD. change (nadd F t r) with (fadd t r). set (w := B2R (fadd t r)) in *. pose proof (rsum_norm1 (reals bs)) as RB. pose proof (norm1_nonneg (reals bs)) as NBP.
    set (K := (1 + u) ^ nb - 1) in *. change (g nb) with K in B1. set (k2 := K * K) in *. assert (K0 : 0 <= k2) by (unfold k2; nra). set (x := rsum (reals bs)) in *. set (m := norm1 (reals bs)) in *.
    assert (C1 : Rabs (B2R t - S1) <= ((1 + u) * (1 + q) * (1 + k2) - 1) * N1).
    { replace (B2R t - S1) with ((B2R t - x) + (x - S1)) by ring. eapply Rle_trans; [apply Rabs_triang|]. assert (u * Rabs x <= u * m) by (apply Rmult_le_compat_l; lra).
      assert (A1 : Rabs (B2R t - x) <= (u + (1 + u) * k2) * m) by lra. assert (A2 : (u + (1 + u) * k2) * m <= (u + (1 + u) * k2) * ((1 + q) * N1)) by (apply Rmult_le_compat_l; [nra|lra]). lra. }
    assert (C2 : Rabs (B2R r - S2) <= ((1 + u) * (1 + q) * (1 + k2) - 1) * N2). { eapply Rle_trans; [exact HR|]. apply Rmult_le_compat_r; [exact T2|]. assert (0 <= (1 + u) * (1 + q) * k2) by (apply Rmult_le_pos; nra). nra. }
    set (C := (1 + u) * (1 + q) * (1 + k2) - 1) in *. assert (C3 : Rabs (B2R t + B2R r - (S1 + S2)) <= C * (N1 + N2)). { replace (B2R t + B2R r - (S1 + S2)) with ((B2R t - S1) + (B2R r - S2)) by ring. eapply Rle_trans; [apply Rabs_triang|]. lra. }
    assert (C4 : Rabs (S1 + S2) <= N1 + N2). { rewrite <- EN, <- ES. apply rsum_norm1. }
    assert (C5 : Rabs (B2R t + B2R r) <= (1 + C) * (N1 + N2)). { replace (B2R t + B2R r) with ((S1 + S2) + (B2R t + B2R r - (S1 + S2))) by ring. eapply Rle_trans; [apply Rabs_triang|]. lra. }
    replace (w - (S1 + S2)) with ((w - (B2R t + B2R r)) + (B2R t + B2R r - (S1 + S2))) by ring. eapply Rle_trans; [apply Rabs_triang|].
    assert (u * Rabs (B2R t + B2R r) <= u * ((1 + C) * (N1 + N2))) by (apply Rmult_le_compat_l; lra). unfold C in *. lra.
Qed.
Lemma semi_terms c A l d v : yields A (map Ok l) -> l <> [] -> (zlen l / 64 <= amax c)%Z -> semi_stable_sum F c A d = Ok v -> is_finite v = true -> Forall (fun h => is_finite h = true) l.
Proof.
  intros HA HN HM HV HF. pose proof HA as (_ & HL & _). rewrite zlen_map in HL. rewrite (semi_stable_loop F c A l d HA HN HM) in HV. apply ok_eq in HV. unfold semi_value in HV.
  set (nb := Z.to_nat (zlen l / 64)) in *. pose proof (zlen_nonneg l) as L0. assert (N0 : (zlen l / 64)%Z = Z.of_nat nb) by (unfold nb; pose proof (Z.div_pos (zlen l) 64 L0 ltac:(lia)); lia).
  assert (NB : zlen l = (64 * Z.of_nat nb + zlen l mod 64)%Z) by (rewrite <- N0; apply Z.div_mod; lia). pose proof (Z.mod_pos_bound (zlen l) 64 ltac:(lia)) as RM. set (rm := Z.to_nat (zlen l mod 64)) in *.
  assert (LN : length l = (64 * nb + rm)%nat) by (unfold rm; unfold zlen in *; lia). rewrite firstn_rev_skip in HV by lia. replace (length l - rm)%nat with (64 * nb)%nat in HV by lia. set (tl := skipn (64 * nb) l) in *.
  change (fold_left (nadd F) (rev tl) (nzero F)) with (fsum fzero (rev tl)) in HV.
  assert (HT : is_finite (fsum fzero (rev tl)) = true -> Forall (fun h => is_finite h = true) tl). { intros H. apply fsum_terms_finite in H. apply Forall_rev in H. now rewrite rev_involutive in H. }
  destruct (Z.eqb_spec (zlen l / 64) 0) as [E0|E0].
  - rewrite <- HV in HF. specialize (HT HF). assert (E : nb = O) by lia. unfold tl in HT. rewrite E in HT. exact HT.
  - rewrite <- HV in HF. set (bs := map (bsum F l) (zseq 0 nb)) in *. apply (plus_args prec emax) in HF. destruct HF as [HF1 HF2]. rewrite <- (firstn_skipn (64 * nb) l). apply Forall_app. split; [|exact (HT HF2)].
    assert (BL : length bs = nb) by (unfold bs; now rewrite map_length, zseq_length). assert (BN : bs <> []) by (intros H; rewrite H in BL; cbn in BL; lia).
    destruct (stable_value_acc bs _ BN ltac:(unfold zlen in *; lia) eq_refl HF1) as [BF _]. clear - BF LN. assert (H : (64 * nb <= length l)%nat) by lia. unfold bs in BF. clear LN. induction nb as [|nb IH]; [constructor|].
    rewrite zseq_S, map_app in BF. apply Forall_app in BF. destruct BF as [B1 B2]. cbn [map] in B2. rewrite Z.add_0_l in B2. apply Forall_inv in B2. rename B2 into B3.
    assert (E : firstn (64 * Datatypes.S nb) l = firstn (64 * nb) l ++ block l (Z.of_nat nb)).
    { replace (64 * Datatypes.S nb)%nat with (64 * nb + 64)%nat by lia. unfold block. replace (Z.to_nat (64 * Z.of_nat nb)) with (64 * nb)%nat by lia. rewrite <- (firstn_skipn (64 * nb) l) at 1. rewrite firstn_app, firstn_firstn.
      replace (Nat.min (64 * nb + 64) (64 * nb)) with (64 * nb)%nat by lia. f_equal. rewrite firstn_length. f_equal. lia. }
    rewrite E. apply Forall_app. split; [apply IH; [exact B1|lia]|]. exact (fsum_terms_finite prec emax _ fzero B3).
Qed.
Lemma semi_dot_src {V} (N : num V) c (A B : src1 V) l k d : yields A (map Ok l) -> yields B (map Ok k) -> zlen l = zlen k -> l <> [] ->
  exists P, yields P (map Ok (products (nmul N) l k)) /\ semi_stable_dot_prod N c A B d = semi_stable_sum N c P (nzero N).
Proof.
  intros HA HB HL HN. pose proof HA as (EA & _). pose proof HB as (EB & _). rewrite zlen_map in EA, EB. destruct (products_ok c (nmul N) A B l k HA HB HL) as (P & EP & HP). exists P. split; [exact HP|].
  unfold semi_stable_dot_prod. rewrite EA, EB, HL, Z.eqb_refl, check_debug_true. cbn [bind]. rewrite <- HL. pose proof (nonempty_len l HN). replace (zlen l =? 0)%Z with false by lia. now rewrite EP.
Qed.
Theorem semi_dot_exact {V} (N : num V) c : exact_num N -> forall (A B : src1 V) l k d, yields A (map Ok l) -> yields B (map Ok k) -> zlen l = zlen k -> l <> [] -> (zlen l / 64 <= amax c)%Z ->
  semi_stable_dot_prod N c A B d = Ok (total (nadd N) (nzero N) (products (nmul N) l k)).
Proof.
  intros HX A B l k d HA HB HL HN HM. destruct (semi_dot_src N c A B l k d HA HB HL HN) as (P & HP & E). rewrite E. apply (semi_stable_exact N c HX); [exact HP|now apply products_nonempty|].
  unfold zlen in *. rewrite products_len by lia. exact HM.
Qed.
Theorem semi_dot_acc c A B l k d v : yields A (map Ok l) -> yields B (map Ok k) -> zlen l = zlen k -> l <> [] -> (zlen l / 64 <= amax c)%Z -> semi_stable_dot_prod F c A B d = Ok v -> is_finite v = true ->
  let K := (1 + u) ^ Z.to_nat (zlen l / 64) - 1 in
  Rabs (B2R v - rsum (dots l k)) <= ((1 + u) ^ 67 * (1 + K * K) - 1) * norm1 (dots l k) + (1 + u) ^ 66 * (1 + K * K) * (INR (length l) * eta).
Proof.
  intros HA HB HL HN HM HV HF. cbv zeta. destruct (semi_dot_src F c A B l k d HA HB HL HN) as (P & HP & E). rewrite E in HV. pose proof (products_nonempty (nmul F) l k HL HN) as PN. pose proof (zlen_length _ _ HL) as LL.
  assert (ZP : zlen (products (nmul F) l k) = zlen l) by (unfold zlen; now rewrite products_len). rewrite <- ZP in HM.
  pose proof (semi_acc c P _ _ v HP PN HM HV HF) as B1. cbv zeta in B1. pose proof (semi_terms c P _ _ v HP PN HM HV HF) as HT. rewrite ZP in B1. set (K := (1 + u) ^ Z.to_nat (zlen l / 64) - 1) in *.
  assert (C0 : 0 <= (1 + u) ^ 66 * (1 + K * K) - 1). { pose proof (g_pos prec 66) as GP. unfold FloatAcc.g in GP. assert (0 <= K * K) by nra. nra. }
  pose proof (of_products eta _ _ l k eta_pos C0 LL (close_abs l k HT) B1) as B2. replace ((1 + u) ^ 67) with ((1 + u) ^ 66 * (1 + u)) by (rewrite (tech_pow_Rmult (1 + u) 66) || (cbn [pow]; ring)).
  set (q := (1 + u) ^ 66) in *. eapply Rle_trans; [exact B2|]. apply Req_le. ring.
Qed.

(** ** Whole numbers *)
Notation big := (bpow radix2 prec).
Notation whole := (whole prec emax).
Lemma int_format z : Rabs (IZR z) <= big -> generic_format radix2 (SpecFloat.fexp prec emax) (IZR z).
Proof.
  intros HB. rewrite <- abs_IZR in HB. replace big with (IZR (2 ^ prec)) in HB by (rewrite <- IZR_Zpower by (unfold Prec_gt_0 in Hp; lia); reflexivity). apply le_IZR in HB.
  change (SpecFloat.fexp prec emax) with (FLT_exp (3 - emax - prec) prec). destruct (Z.eq_dec (Z.abs z) (2 ^ prec)) as [E|NE].
  - apply generic_format_abs_inv. rewrite <- abs_IZR, E. replace (IZR (2 ^ prec)) with big by (rewrite <- IZR_Zpower by (unfold Prec_gt_0 in Hp; lia); reflexivity). apply generic_format_bpow'; [typeclasses eauto|]. unfold FLT_exp, Prec_gt_0, Prec_lt_emax in *. lia.
  - apply generic_format_FLT. exists (Float radix2 z 0); [unfold F2R; cbn; ring|cbn [Fnum]; change (radix2 ^ prec)%Z with (2 ^ prec)%Z; lia|cbn [Fexp]; unfold Prec_gt_0, Prec_lt_emax in *; lia].
Qed.
Lemma big_top : big < bpow radix2 emax.
Proof. apply bpow_lt. unfold Prec_lt_emax in He. lia. Qed.
Lemma add_whole (x y : flt) : whole x -> whole y -> Rabs (B2R x + B2R y) <= big -> whole (fadd x y) /\ B2R (fadd x y) = B2R x + B2R y.
Proof.
  intros (X1 & zx & X2) (Y1 & zy & Y2) HB. pose proof big_top as BT. assert (E : rnd (B2R x + B2R y) = B2R x + B2R y).
  { apply round_generic; [typeclasses eauto|]. rewrite X2, Y2 in HB |- *. rewrite <- plus_IZR in HB |- *. now apply int_format. }
  destruct (plus_fin prec emax x y X1 Y1) as [P1 P3]; [rewrite E; lra|]. rewrite E in P1. change (nadd F x y) with (fadd x y) in P1, P3. split; [|exact P1]. split; [exact P3|]. exists (zx + zy)%Z. rewrite P1, X2, Y2. symmetry. apply plus_IZR.
Qed.
Lemma mul_whole (x y : flt) : whole x -> whole y -> Rabs (B2R x * B2R y) <= big -> whole (fmul x y) /\ B2R (fmul x y) = B2R x * B2R y.
Proof.
  intros (X1 & zx & X2) (Y1 & zy & Y2) HB. pose proof big_top as BT. assert (E : rnd (B2R x * B2R y) = B2R x * B2R y).
  { apply round_generic; [typeclasses eauto|]. rewrite X2, Y2 in HB |- *. rewrite <- mult_IZR in HB |- *. now apply int_format. }
  destruct (mult_fin prec emax x y X1 Y1) as [P1 P3]; [rewrite E; lra|]. rewrite E in P1. change (nmul F x y) with (fmul x y) in P1, P3. split; [|exact P1]. split; [exact P3|]. exists (zx * zy)%Z. rewrite P1, X2, Y2. symmetry. apply mult_IZR.
Qed.
Lemma zero_whole : whole fzero. Proof. split; [reflexivity|]. exists 0%Z. reflexivity. Qed.
Lemma fsum_whole l : forall s, whole s -> Forall whole l -> Rabs (B2R s) + norm1 (reals l) <= big -> whole (fsum s l) /\ B2R (fsum s l) = B2R s + rsum (reals l).
Proof.
  induction l as [|x l IH]; intros s HS HF HB; [split; [exact HS|]; change (rsum (reals [])) with 0; cbn; ring|]. inversion HF as [|? ? HX HF']; subst. change (reals (x :: l)) with (B2R x :: reals l) in *. rewrite norm1_cons in HB. rewrite rsum_cons.
  pose proof (Rabs_triang (B2R s) (B2R x)) as T. pose proof (norm1_nonneg (reals l)) as N0. destruct (add_whole s x HS HX ltac:(lra)) as [A1 A2]. change (fsum s (x :: l)) with (fsum (fadd s x) l).
  destruct (IH _ A1 HF' ltac:(rewrite A2; lra)) as [I1 I2]. split; [exact I1|]. rewrite I2, A2. ring.
Qed.
Lemma norm1_firstn k : forall l, norm1 (firstn k l) <= norm1 l.
Proof. induction k as [|k IH]; intros [|x l]; cbn [firstn]; try (change (norm1 []) with 0; try apply norm1_nonneg; lra). rewrite !norm1_cons. specialize (IH l). lra. Qed.
Lemma Forall_firstn {T} (P : T -> Prop) k : forall l, Forall P l -> Forall P (firstn k l).
Proof. induction k as [|k IH]; intros [|x l] H; cbn; auto. inversion H; subst. constructor; auto. Qed.
Lemma Forall_skipn {T} (P : T -> Prop) k : forall l, Forall P l -> Forall P (skipn k l).
Proof. induction k as [|k IH]; intros [|x l] H; cbn; auto. inversion H; subst. auto. Qed.
Lemma reals_firstn k l : reals (firstn k l) = firstn k (reals l). Proof. symmetry. apply firstn_map. Qed.
Lemma whole_sums s l : whole s -> Forall whole l -> Rabs (B2R s) + norm1 (reals l) <= big -> sums_finite prec emax s l.
Proof. intros HS HF HB k. apply (fsum_whole (firstn k l) s HS (Forall_firstn _ k l HF)). rewrite reals_firstn. pose proof (norm1_firstn k (reals l)). lra. Qed.
Lemma whole_errors l : forall s es, whole s -> Forall whole l -> Rabs (B2R s) + norm1 (reals l) <= big -> add_errors prec emax s l es -> Forall (fun e => is_finite e = true /\ B2R e = 0) es.
Proof.
  induction l as [|x l IH]; intros s [|e es] HS HF HB HE; cbn [add_errors] in HE; try contradiction; [constructor|]. inversion HF as [|? ? HX HF']; subst. change (reals (x :: l)) with (B2R x :: reals l) in *. rewrite norm1_cons in HB.
  pose proof (Rabs_triang (B2R s) (B2R x)) as T. pose proof (norm1_nonneg (reals l)) as N0. destruct (add_whole s x HS HX ltac:(lra)) as [A1 A2]. destruct HE as (E1 & E2 & E3). constructor.
  - split; [exact E1|]. unfold FloatSpec.fadd in *. lra.
  - apply (IH (fadd s x)); [exact A1|exact HF'|rewrite A2; lra|exact E3].
Qed.
Lemma zeros_whole es : Forall (fun e => is_finite e = true /\ B2R e = 0) es -> Forall whole es /\ norm1 (reals es) = 0 /\ rsum (reals es) = 0.
Proof.
  induction es as [|e es IH]; intros H; [repeat split; auto|]. inversion H as [|? ? [H1 H2] H3]; subst. destruct (IH H3) as (I1 & I2 & I3). change (reals (e :: es)) with (B2R e :: reals es). rewrite norm1_cons, rsum_cons, I2, I3, H2, Rabs_R0. repeat split; try ring.
  constructor; [|exact I1]. split; [exact H1|]. now exists 0%Z.
Qed.
Lemma stable_whole (bs : list flt) : Forall whole bs -> norm1 (reals bs) <= big -> bs <> [] -> let v := fin F (fold_left (sum_step F) bs (nzero F, nzero F)) in whole v /\ B2R v = rsum (reals bs).
Proof.
  intros HF HB HN. cbv zeta. change (nzero F) with fzero. assert (Z0 : Rabs (B2R fzero) = 0) by (cbn; apply Rabs_R0). pose proof (whole_sums fzero bs zero_whole HF ltac:(lra)) as HS.
  destruct (fold_steps prec emax P2 bs fzero fzero HS) as (es & E1 & E2). rewrite E1. unfold fin. cbn [fst snd]. destruct (fsum_whole bs fzero zero_whole HF ltac:(lra)) as [W1 W2]. cbn [B2R FloatSpec.fzero] in W2. rewrite Rplus_0_l in W2.
  destruct (zeros_whole es (whole_errors bs fzero es zero_whole HF ltac:(lra) E2)) as (V1 & V2 & V3). pose proof (bpow_ge_0 radix2 prec) as B0. destruct (fsum_whole es fzero zero_whole V1 ltac:(lra)) as [U1 U2]. rewrite V3 in U2. cbn [B2R FloatSpec.fzero] in U2. rewrite Rplus_0_r in U2.
  change (nadd F (fsum fzero bs) (fsum fzero es)) with (fadd (fsum fzero bs) (fsum fzero es)). pose proof (rsum_norm1 (reals bs)) as RN. destruct (add_whole _ _ W1 U1) as [Q1 Q2]; [rewrite W2, U2, Rplus_0_r; lra|]. split; [exact Q1|]. rewrite Q2, W2, U2. ring.
Qed.
Section WSUM.
Context (c : cfg) (A : src1 flt) (l : list flt) (HA : yields A (map Ok l)) (HN : l <> []) (HW : Forall whole l) (HB : norm1 (reals l) <= big).
Theorem sum_whole d : exists v, r_sum addf A d = Ok v /\ whole v /\ B2R v = rsum (reals l).
Proof.
  unfold r_sum. rewrite (fold_ok _ A _ d HA). destruct l as [|x k]; [contradiction|]. cbn [map bind]. unfold add_f. rewrite foldo_pure. eexists. split; [reflexivity|]. inversion HW as [|? ? W1 W2]; subst.
  change (fold_left (fun s x => Bplus mode_NE s x) k x) with (fsum x k). exact (fsum_whole k x W1 W2 HB).
Qed.
Theorem stable_sum_whole d : exists v, stable_sum F A d = Ok v /\ whole v /\ B2R v = rsum (reals l).
Proof. rewrite (stable_sum_loop F A l d HA HN). eexists. split; [reflexivity|]. now apply stable_whole. Qed.
Theorem semi_sum_whole d : (zlen l / 64 <= amax c)%Z -> exists v, semi_stable_sum F c A d = Ok v /\ whole v /\ B2R v = rsum (reals l).
Proof.
  intros HM. rewrite (semi_stable_loop F c A l d HA HN HM). eexists. split; [reflexivity|]. unfold semi_value.
  set (nb := Z.to_nat (zlen l / 64)) in *. pose proof (zlen_nonneg l) as L0. assert (N0 : (zlen l / 64)%Z = Z.of_nat nb) by (unfold nb; pose proof (Z.div_pos (zlen l) 64 L0 ltac:(lia)); lia).
  assert (NB : zlen l = (64 * Z.of_nat nb + zlen l mod 64)%Z) by (rewrite <- N0; apply Z.div_mod; lia). pose proof (Z.mod_pos_bound (zlen l) 64 ltac:(lia)) as RM. set (rm := Z.to_nat (zlen l mod 64)) in *.
  assert (LN : length l = (64 * nb + rm)%nat) by (unfold rm; unfold zlen in *; lia). rewrite firstn_rev_skip by lia. replace (length l - rm)%nat with (64 * nb)%nat by lia. set (tl := skipn (64 * nb) l) in *.
  change (fold_left (nadd F) (rev tl) (nzero F)) with (fsum fzero (rev tl)).
  assert (ES : rsum (reals l) = rsum (reals (firstn (64 * nb) l)) + rsum (reals tl)) by (rewrite <- rsum_app, <- reals_app; unfold tl; now rewrite firstn_skipn).
  assert (EN : norm1 (reals l) = norm1 (reals (firstn (64 * nb) l)) + norm1 (reals tl)) by (rewrite <- norm1_app, <- reals_app; unfold tl; now rewrite firstn_skipn).
  pose proof (norm1_nonneg (reals (firstn (64 * nb) l))) as T1. pose proof (norm1_nonneg (reals tl)) as T2. assert (Z0 : Rabs (B2R fzero) = 0) by (cbn; apply Rabs_R0).
  assert (HR : whole (fsum fzero (rev tl)) /\ B2R (fsum fzero (rev tl)) = rsum (reals tl)).
  { destruct (fsum_whole (rev tl) fzero zero_whole) as [R1 R2]; [apply Forall_rev, Forall_skipn, HW|rewrite reals_rev, norm1_rev; lra|]. split; [exact R1|]. rewrite R2, reals_rev, rsum_rev. cbn. ring. }
  destruct HR as [R1 R2]. destruct (Z.eqb_spec (zlen l / 64) 0) as [E0|E0].
  - split; [exact R1|]. rewrite R2, ES. assert (E : nb = O) by lia. rewrite E. change (rsum (reals (firstn (64 * 0) l))) with 0. ring.
  - assert (BW : Forall whole (map (bsum F l) (zseq 0 nb)) /\ rsum (reals (map (bsum F l) (zseq 0 nb))) = rsum (reals (firstn (64 * nb) l)) /\ norm1 (reals (map (bsum F l) (zseq 0 nb))) <= norm1 (reals (firstn (64 * nb) l))).
    { assert (H : (64 * nb <= length l)%nat) by lia. assert (Q : norm1 (reals (firstn (64 * nb) l)) <= big) by lra. clear - H HW Q Z0 P2. induction nb as [|nb IH]; [cbn; repeat split; auto; lra|].
      assert (E : firstn (64 * Datatypes.S nb) l = firstn (64 * nb) l ++ block l (Z.of_nat nb)).
      { replace (64 * Datatypes.S nb)%nat with (64 * nb + 64)%nat by lia. unfold block. replace (Z.to_nat (64 * Z.of_nat nb)) with (64 * nb)%nat by lia. rewrite <- (firstn_skipn (64 * nb) l) at 1. rewrite firstn_app, firstn_firstn.
        replace (Nat.min (64 * nb + 64) (64 * nb)) with (64 * nb)%nat by lia. f_equal. rewrite firstn_length. f_equal. lia. }
      rewrite E in Q |- *. rewrite reals_app, norm1_app in Q. set (k := block l (Z.of_nat nb)) in *. pose proof (norm1_nonneg (reals (firstn (64 * nb) l))) as Q1. pose proof (norm1_nonneg (reals k)) as Q2. destruct (IH ltac:(lia) ltac:(lra)) as (I1 & I2 & I3).
      rewrite zseq_S, map_app. cbn [map]. rewrite Z.add_0_l. change (bsum F l (Z.of_nat nb)) with (fsum fzero k). assert (WK : Forall whole k) by (unfold k, block; apply Forall_firstn, Forall_skipn, HW).
      destruct (fsum_whole k fzero zero_whole WK ltac:(lra)) as [K1 K2]. cbn [B2R FloatSpec.fzero] in K2. rewrite Rplus_0_l in K2. rewrite !reals_app, !rsum_app, !norm1_app, I2. change (reals [fsum fzero k]) with [B2R (fsum fzero k)]. rewrite rsum_cons, norm1_cons, K2. change (rsum []) with 0. change (norm1 []) with 0. pose proof (rsum_norm1 (reals k)).
      split; [apply Forall_app; split; auto|]. split; [ring|lra]. }
    destruct BW as (B1 & B2 & B3). set (bs := map (bsum F l) (zseq 0 nb)) in *. assert (BN : bs <> []) by (intros H; assert (length bs = nb) by (unfold bs; now rewrite map_length, zseq_length); rewrite H in H0; cbn in H0; lia).
    destruct (stable_whole bs B1 ltac:(lra) BN) as [S1 S2]. match goal with |- context [nadd F ?t ?r] => change (nadd F t r) with (fadd t r) end. destruct (add_whole _ _ S1 R1) as [Q1 Q2]; [rewrite S2, R2, B2, <- ES; pose proof (rsum_norm1 (reals l)); lra|]. split; [exact Q1|]. rewrite Q2, S2, R2, B2, ES. ring.
Qed.
End WSUM.
Lemma products_whole l : forall k, Forall whole l -> Forall whole k -> norm1 (dots l k) <= big -> Forall whole (products fmul l k) /\ reals (products fmul l k) = dots l k.
Proof.
  induction l as [|a l IH]; intros [|b k] HL HK HB; cbn [products]; try (split; [constructor|reflexivity]). inversion HL as [|? ? A1 A2]; subst. inversion HK as [|? ? B1 B2]; subst.
  change (reals (a :: l)) with (B2R a :: reals l) in *. change (reals (b :: k)) with (B2R b :: reals k) in *. cbn [products] in HB. rewrite norm1_cons in HB. pose proof (norm1_nonneg (dots l k)) as N0. pose proof (Rabs_pos (B2R a * B2R b)) as N1.
  destruct (IH k A2 B2 ltac:(lra)) as [I1 I2]. destruct (mul_whole a b A1 B1 ltac:(lra)) as [M1 M2]. split; [constructor; assumption|]. change (reals (fmul a b :: products fmul l k)) with (B2R (fmul a b) :: reals (products fmul l k)). cbn [products]. now rewrite M2, I2.
Qed.
Theorem dot_whole c A B l k d : yields A (map Ok l) -> yields B (map Ok k) -> zlen l = zlen k -> l <> [] -> Forall whole l -> Forall whole k -> norm1 (dots l k) <= big ->
  exists v, r_dot c addf mulf fzero A B d = Ok v /\ whole v /\ B2R v = rsum (dots l k).
Proof.
  intros HA HB HL HN W1 W2 H. destruct (dot_any c fadd fmul A B l k fzero d HA HB HL HN) as (P & HP & ED). change (r_dot c addf mulf fzero A B d = r_sum addf P fzero) in ED. rewrite ED.
  destruct (products_whole l k W1 W2 H) as [Q1 Q2]. rewrite <- Q2 in H |- *. apply sum_whole; [exact HP|now apply products_nonempty|exact Q1|exact H].
Qed.
End ACC.
