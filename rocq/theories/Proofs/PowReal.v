(** Second-order bounds for the compensated power, over the real numbers. *)
From Coq Require Import ZArith Reals Lra Lia.
From Verif Require Import Base.Outcome Spec.ReduceSpec Spec.NormSpec.
Local Open Scope R_scope.

Lemma rsum_app l k : rsum (l ++ k) = rsum l + rsum k.
Proof. unfold rsum, total. induction l as [|x l IH]; cbn; [lra|]. rewrite IH. lra. Qed.
Lemma norm1_app l k : norm1 (l ++ k) = norm1 l + norm1 k.
Proof. unfold norm1. rewrite map_app. apply rsum_app. Qed.
Lemma rsum_one x : rsum [x] = x.
Proof. unfold rsum, total. cbn. lra. Qed.
Lemma pow_up u m : 0 <= u -> (1 + u) ^ m * (1 - INR m * u) <= 1.
Proof.
  intros HU. induction m as [|m IH]; [cbn; lra|]. rewrite S_INR. change ((1 + u) ^ S m) with ((1 + u) * (1 + u) ^ m).
  assert (P : 0 < (1 + u) ^ m) by (apply pow_lt; lra). pose proof (pos_INR m) as NN.
  assert ((1 + u) * (1 - (INR m + 1) * u) <= 1 - INR m * u) by nra. nra.
Qed.
Lemma pow_43 u m : 0 <= u -> 4 * (INR m * u) <= 1 -> (1 + u) ^ m <= 4 / 3.
Proof. intros HU HM. pose proof (pow_up u m HU) as H. assert (P : 0 < (1 + u) ^ m) by (apply pow_lt; lra). nra. Qed.
Lemma pow_g u m : 0 <= u -> 4 * (INR m * u) <= 1 -> (1 + u) ^ m - 1 <= 4 / 3 * (INR m * u).
Proof. intros HU HM. pose proof (pow_up u m HU) as H. pose proof (pow_43 u m HU HM). pose proof (pos_INR m). assert (0 <= INR m * u) by nra. nra. Qed.
Lemma pow_dn u m : 0 <= u <= 1 -> 1 - INR m * u <= (1 - u) ^ m.
Proof.
  intros HU. induction m as [|m IH]; [cbn; lra|]. rewrite S_INR. change ((1 - u) ^ S m) with ((1 - u) * (1 - u) ^ m).
  destruct (Rle_or_lt 0 (1 - INR m * u)) as [H|H]; [pose proof (pos_INR m); nra|].
  assert (0 <= (1 - u) ^ m) by (apply pow_le; lra). pose proof (pos_INR m). nra.
Qed.

Section POW.
Context (u D r s : R) (n : nat) (rh sg : nat -> R).
Hypotheses (U : 0 < u <= 1) (HD : 0 <= D) (RS : r + s = D) (SB : Rabs s <= u * D) (R0 : rh O = 1) (R1 : rh 1%nat = r).
Hypothesis RR : forall k, (S (S k) <= n)%nat -> rh (S (S k)) + sg k = rh (S k) * r.
Hypothesis SG : forall k, (S (S k) <= n)%nat -> Rabs (sg k) <= u * Rabs (rh (S k) * r).
Definition Bq : R := (1 + u) * (1 + u) * D.
Lemma Bq_nonneg : 0 <= Bq.
Proof. unfold Bq. assert (0 <= (1 + u) * (1 + u)) by nra. nra. Qed.
Lemma D_le : D <= Bq.
Proof. unfold Bq. assert (1 <= (1 + u) * (1 + u)) by nra. nra. Qed.
Lemma r_eD : Rabs r <= (1 + u) * D.
Proof. replace r with (D + - s) by lra. eapply Rle_trans; [apply Rabs_triang|]. rewrite Rabs_Ropp, (Rabs_pos_eq D) by assumption. lra. Qed.
Lemma r_le : Rabs r <= Bq.
Proof. eapply Rle_trans; [apply r_eD|]. unfold Bq. assert (0 <= (1 + u) * D) by nra. nra. Qed.
Lemma s_le : Rabs s <= u * Bq.
Proof. pose proof D_le. nra. Qed.
Lemma Bk k : 0 <= Bq ^ k.
Proof. apply pow_le, Bq_nonneg. Qed.
Lemma rh_up k : (k <= n)%nat -> Rabs (rh k) <= Bq ^ k.
Proof.
  induction k as [|[|k] IH]; intros H.
  - rewrite R0. cbn. rewrite Rabs_R1. lra.
  - rewrite R1. cbn. rewrite Rmult_1_r. apply r_le.
  - specialize (IH ltac:(lia)). pose proof (RR k H) as E. pose proof (SG k H) as SK.
    replace (rh (S (S k))) with (rh (S k) * r + - sg k) by lra. eapply Rle_trans; [apply Rabs_triang|]. rewrite Rabs_Ropp.
    apply Rle_trans with ((1 + u) * Rabs (rh (S k) * r)); [lra|]. rewrite Rabs_mult. pose proof r_eD as RE. pose proof (Rabs_pos r). pose proof (Rabs_pos (rh (S k))). pose proof (Bk (S k)).
    assert (Rabs (rh (S k)) * Rabs r <= Bq ^ S k * ((1 + u) * D)) by (apply Rmult_le_compat; assumption).
    change (Bq ^ S (S k)) with (Bq * Bq ^ S k). unfold Bq at 1. replace ((1 + u) * (1 + u) * D * Bq ^ S k) with ((1 + u) * (Bq ^ S k * ((1 + u) * D))) by ring. apply Rmult_le_compat_l; lra.
Qed.
Lemma sg_up k : (S (S k) <= n)%nat -> Rabs (sg k) <= u * Bq ^ S (S k).
Proof.
  intros H. eapply Rle_trans; [apply SG, H|]. apply Rmult_le_compat_l; [lra|]. rewrite Rabs_mult. change (Bq ^ S (S k)) with (Bq * Bq ^ S k). rewrite (Rmult_comm Bq).
  apply Rmult_le_compat; try apply Rabs_pos; [apply rh_up; lia|apply r_le].
Qed.
(** r^k - rh k. *)
Lemma drift_up k : (k <= n)%nat -> Rabs (r ^ k - rh k) <= INR k * u * Bq ^ k.
Proof.
  induction k as [|[|k] IH]; intros H.
  - rewrite R0. cbn. rewrite Rminus_diag_eq by reflexivity. rewrite Rabs_R0. lra.
  - rewrite R1. replace (r ^ 1 - r) with 0 by ring. rewrite Rabs_R0. pose proof (Bk 1). cbn [INR]. nra.
  - specialize (IH ltac:(lia)). pose proof (RR k H) as E. pose proof (sg_up k H) as SK.
    replace (r ^ S (S k) - rh (S (S k))) with ((r ^ S k - rh (S k)) * r + sg k) by (change (r ^ S (S k)) with (r * r ^ S k); lra).
    eapply Rle_trans; [apply Rabs_triang|]. rewrite Rabs_mult, (S_INR (S k)). pose proof r_le. pose proof (Rabs_pos r). pose proof (Rabs_pos (r ^ S k - rh (S k))).
    assert (Rabs (r ^ S k - rh (S k)) * Rabs r <= INR (S k) * u * Bq ^ S k * Bq) by (apply Rmult_le_compat; assumption).
    change (Bq ^ S (S k)) with (Bq * Bq ^ S k) in *. lra.
Qed.
(** The binomial remainder. *)
Lemma binom_up m : Rabs (D ^ S m - r ^ S m - INR (S m) * r ^ m * s) <= INR (S m) * INR (S m) * (u * u) * Bq ^ S m.
Proof.
  induction m as [|m IH].
  - cbn [INR]. replace (D ^ 1 - r ^ 1 - 1 * r ^ 0 * s) with 0 by (cbn; lra). rewrite Rabs_R0. pose proof (Bk 1). nra.
  - set (T := D ^ S m - r ^ S m - INR (S m) * r ^ m * s) in *.
    replace (D ^ S (S m) - r ^ S (S m) - INR (S (S m)) * r ^ S m * s) with (D * T + INR (S m) * r ^ m * (s * s)).
    2:{ unfold T. rewrite <- RS. rewrite (S_INR (S m)). cbn [pow]. ring. }
    eapply Rle_trans; [apply Rabs_triang|]. rewrite !Rabs_mult, (Rabs_pos_eq D), (Rabs_pos_eq (INR (S m))) by (apply HD || apply pos_INR). rewrite <- RPow_abs.
    assert (A1 : D * Rabs T <= Bq * (INR (S m) * INR (S m) * (u * u) * Bq ^ S m)).
    { apply Rmult_le_compat; [exact HD|apply Rabs_pos|apply D_le|exact IH]. }
    assert (A2 : Rabs r ^ m <= Bq ^ m) by (apply pow_incr; split; [apply Rabs_pos|apply r_le]).
    assert (A3 : Rabs s * Rabs s <= (u * Bq) * (u * Bq)) by (apply Rmult_le_compat; try apply Rabs_pos; apply s_le).
    assert (A4 : INR (S m) * Rabs r ^ m * (Rabs s * Rabs s) <= INR (S m) * Bq ^ m * ((u * Bq) * (u * Bq))).
    { apply Rmult_le_compat; [apply Rmult_le_pos; [apply pos_INR|apply pow_le, Rabs_pos]|apply Rmult_le_pos; apply Rabs_pos|apply Rmult_le_compat_l; [apply pos_INR|exact A2]|exact A3]. }
    rewrite (S_INR (S m)). set (N := INR (S m)) in *. assert (0 <= N) by apply pos_INR. change (Bq ^ S (S m)) with (Bq * (Bq * Bq ^ m)). change (Bq ^ S m) with (Bq * Bq ^ m) in A1.
    set (Q := Bq * (Bq * Bq ^ m)) in *. assert (0 <= Q) by (unfold Q; pose proof (Bk m); pose proof Bq_nonneg; apply Rmult_le_pos; [assumption|]; apply Rmult_le_pos; assumption).
    replace (Bq * (N * N * (u * u) * (Bq * Bq ^ m))) with (N * N * (u * u) * Q) in A1 by (unfold Q; ring).
    replace (N * Bq ^ m * (u * Bq * (u * Bq))) with (N * (u * u) * Q) in A4 by (unfold Q; ring).
    assert (0 <= (u * u) * Q) by (apply Rmult_le_pos; nra). nra.
Qed.
(** The sum of the residues times powers of r, and times the rounded powers. *)
Definition terms (f : nat -> R) (j m : nat) : list R := map (fun i => f i * sg (j - i)) (seq 0 m).
Lemma terms_S f j m : terms f j (S m) = terms f j m ++ [f m * sg (j - m)].
Proof. unfold terms. rewrite seq_S, map_app. reflexivity. Qed.
Lemma shift j m : rsum (terms (pow r) (S j) (S m)) = rsum (terms (pow r) j m) * r + sg (S j).
Proof.
  induction m as [|m IH].
  - rewrite terms_S, rsum_app, rsum_one. unfold terms. cbn. ring.
  - rewrite terms_S, rsum_app, IH, rsum_one, (terms_S _ j m), rsum_app, rsum_one. cbn [Nat.sub pow]. ring.
Qed.
Lemma drift_sum k : (S (S k) <= n)%nat -> r ^ S (S k) - rh (S (S k)) = rsum (terms (pow r) k (S k)).
Proof.
  induction k as [|k IH]; intros H.
  - rewrite terms_S, rsum_app, rsum_one. unfold terms. pose proof (RR 0 H) as E. rewrite R1 in E. cbn. lra.
  - rewrite shift, <- IH by lia. pose proof (RR (S k) H) as E. change (r ^ S (S (S k))) with (r * r ^ S (S k)). lra.
Qed.
Lemma loc_norm k m : (S (S k) <= n)%nat -> (m <= S k)%nat -> norm1 (terms rh k m) <= INR m * (u * Bq ^ S (S k)).
Proof.
  intros HK. induction m as [|m IH]; intros H.
  - unfold terms, norm1, rsum, total. cbn. lra.
  - rewrite terms_S, norm1_app, S_INR. specialize (IH ltac:(lia)). change (norm1 [rh m * sg (k - m)]) with (rsum [Rabs (rh m * sg (k - m))]). rewrite rsum_one, Rabs_mult.
    assert (Rabs (rh m) * Rabs (sg (k - m)) <= Bq ^ m * (u * Bq ^ S (S (k - m)))) by (apply Rmult_le_compat; try apply Rabs_pos; [apply rh_up; lia|apply sg_up; lia]).
    replace (Bq ^ S (S k)) with (Bq ^ m * Bq ^ S (S (k - m))) in * by (rewrite <- pow_add; f_equal; lia). lra.
Qed.
Lemma loc_diff k m : (S (S k) <= n)%nat -> (m <= S k)%nat ->
  Rabs (rsum (terms (pow r) k m) - rsum (terms rh k m)) <= INR m * INR m * (u * u) * Bq ^ S (S k).
Proof.
  intros HK. induction m as [|m IH]; intros H.
  - unfold terms, rsum, total. cbn. rewrite Rminus_diag_eq by reflexivity. rewrite Rabs_R0. lra.
  - rewrite !terms_S, !rsum_app, !rsum_one, S_INR. specialize (IH ltac:(lia)).
    replace (rsum (terms (pow r) k m) + r ^ m * sg (k - m) - (rsum (terms rh k m) + rh m * sg (k - m))) with ((rsum (terms (pow r) k m) - rsum (terms rh k m)) + (r ^ m - rh m) * sg (k - m)) by ring.
    eapply Rle_trans; [apply Rabs_triang|]. rewrite (Rabs_mult (r ^ m - rh m)).
    assert (A : Rabs (r ^ m - rh m) * Rabs (sg (k - m)) <= (INR m * u * Bq ^ m) * (u * Bq ^ S (S (k - m)))) by (apply Rmult_le_compat; try apply Rabs_pos; [apply drift_up; lia|apply sg_up; lia]).
    pose proof (Bk (S (S k))) as P. replace (INR m * u * Bq ^ m * (u * Bq ^ S (S (k - m)))) with (INR m * (u * u) * Bq ^ S (S k)) in A.
    2:{ replace (Bq ^ S (S k)) with (Bq ^ m * Bq ^ S (S (k - m))) by (rewrite <- pow_add; f_equal; lia). ring. }
    set (Q := Bq ^ S (S k)) in *. set (M := INR m) in *. assert (0 <= M) by apply pos_INR. assert (0 <= u * u * Q) by (apply Rmult_le_pos; nra). nra.
Qed.
(** The main term: D^n up to second order. *)
Theorem first_order m : n = S (S m) ->
  Rabs (D ^ n - (rh n + (INR n * rh (S m) * s + rsum (terms rh m (S m))))) <= 3 * (INR n * INR n) * (u * u) * Bq ^ n.
Proof.
  intros EN. pose proof (binom_up (S m)) as H1. pose proof (drift_sum m ltac:(lia)) as H2. pose proof (loc_diff m (S m) ltac:(lia) (Nat.le_refl _)) as H3.
  pose proof (drift_up (S m) ltac:(lia)) as H4. rewrite <- H2 in H3. rewrite EN.
  replace (D ^ S (S m) - (rh (S (S m)) + (INR (S (S m)) * rh (S m) * s + rsum (terms rh m (S m))))) with
    ((D ^ S (S m) - r ^ S (S m) - INR (S (S m)) * r ^ S m * s) + (r ^ S (S m) - rh (S (S m)) - rsum (terms rh m (S m))) + INR (S (S m)) * ((r ^ S m - rh (S m)) * s)) by ring.
  eapply Rle_trans; [apply Rabs_triang|]. apply Rle_trans with (Rabs (D ^ S (S m) - r ^ S (S m) - INR (S (S m)) * r ^ S m * s) + Rabs (r ^ S (S m) - rh (S (S m)) - rsum (terms rh m (S m))) + INR (S (S m)) * (Rabs (r ^ S m - rh (S m)) * Rabs s)).
  { rewrite (Rabs_mult (INR _)), (Rabs_mult (r ^ S m - rh (S m))), (Rabs_pos_eq (INR (S (S m)))) by apply pos_INR. apply Rplus_le_compat_r. apply Rabs_triang. }
  assert (A : Rabs (r ^ S m - rh (S m)) * Rabs s <= (INR (S m) * u * Bq ^ S m) * (u * Bq)) by (apply Rmult_le_compat; try apply Rabs_pos; [exact H4|apply s_le]).
  replace (INR (S m) * u * Bq ^ S m * (u * Bq)) with (INR (S m) * (u * u) * Bq ^ S (S m)) in A by (cbn [pow]; ring).
  pose proof (Bk (S (S m))) as P. set (Q := Bq ^ S (S m)) in *. assert (Q2 : 0 <= u * u * Q) by (apply Rmult_le_pos; nra).
  assert (N1 : INR (S m) <= INR (S (S m))) by (apply le_INR; lia). pose proof (pos_INR (S m)) as N2.
  set (a := INR (S m)) in *. set (b := INR (S (S m))) in *.
  assert (b * (Rabs (r ^ S m - rh (S m)) * Rabs s) <= b * (b * (u * u * Q))) by (apply Rmult_le_compat_l; [lra|]; nra).
  assert (a * a <= b * b) by nra. assert (a * a * (u * u * Q) <= b * b * (u * u * Q)) by (apply Rmult_le_compat_r; assumption). lra.
Qed.
End POW.

(** Collecting the rounding errors of the correction. *)
Section TAIL.
Context (u N P M eta A0 L : R).
Hypotheses (U : 0 < u) (N2 : 2 <= N) (NU : 16 * (N * u) <= 1) (P0 : 0 <= P) (M0 : 0 <= M <= 4 / 3 * (N * u * P)).
Hypotheses (E0 : 0 <= eta) (E1 : 2 * eta <= u * u * P) (HA : Rabs A0 <= M) (HL : Rabs L <= M).
Let q := N * u.
Let w := q * q * P.
Lemma q_pos : 0 < q. Proof. unfold q. nra. Qed.
Lemma w_pos : 0 <= w. Proof. unfold w. pose proof q_pos. assert (0 <= q * q) by nra. nra. Qed.
Lemma u_le_q : 2 * u <= q. Proof. unfold q. nra. Qed.
Lemma u_32 : 32 * u <= 1. Proof. pose proof u_le_q. fold q in NU. lra. Qed.
Lemma qM : q * M <= 4 / 3 * w.
Proof. pose proof q_pos. unfold w. fold q in M0. assert (q * M <= q * (4 / 3 * (q * P))) by (apply Rmult_le_compat_l; lra). lra. Qed.
Lemma uM : 3 * (u * M) <= 2 * w.
Proof. pose proof qM. pose proof u_le_q. assert (2 * u * M <= q * M) by (apply Rmult_le_compat_r; lra). lra. Qed.
Lemma uw : 32 * (u * w) <= w.
Proof. pose proof w_pos. pose proof u_32. assert (32 * u * w <= 1 * w) by (apply Rmult_le_compat_r; lra). lra. Qed.
Lemma uuP : 4 * (u * u * P) <= w.
Proof. pose proof u_le_q. unfold w. assert (4 * (u * u) <= q * q) by nra. assert (4 * (u * u) * P <= q * q * P) by (apply Rmult_le_compat_r; assumption). lra. Qed.
Lemma eta_w : 8 * eta <= w.
Proof. pose proof uuP. lra. Qed.
Lemma Neta_w : 4 * (N * eta) <= w.
Proof.
  assert (N * (2 * eta) <= N * (u * u * P)) by (apply Rmult_le_compat_l; lra). pose proof u_le_q.
  assert (2 * (q * u * P) <= w). { unfold w. assert (q * (2 * u) <= q * q) by (pose proof q_pos; apply Rmult_le_compat_l; lra). assert (q * (2 * u) * P <= q * q * P) by (apply Rmult_le_compat_r; assumption). lra. }
  unfold q in *. lra.
Qed.
Context (A S : R).
Hypotheses (HS : Rabs (S - L) <= 2 * (N * u) * M + 2 * (N * eta)).
Lemma S_w : Rabs (S - L) <= 19 / 6 * w.
Proof. pose proof qM. pose proof Neta_w. fold q in HS. lra. Qed.
Lemma ab_le (x y a b : R) : Rabs (x - y) <= a -> Rabs y <= b -> Rabs x <= a + b.
Proof. intros H1 H2. replace x with ((x - y) + y) by ring. eapply Rle_trans; [apply Rabs_triang|]. lra. Qed.
Lemma even_tail rho d sr : Rabs (d - (rho + (A0 + L))) <= 4 * w -> Rabs (A - A0) <= 3 * (u * M) + eta -> Rabs (sr - (A + S)) <= u * Rabs (A + S) ->
  Rabs (rho + sr - d) <= 16 * w.
Proof.
  intros H1 H2 H3. pose proof S_w as H4. pose proof uM as H5. pose proof uw as H6. pose proof eta_w as H7. pose proof w_pos as H8.
  assert (HB : Rabs (A + S) <= 2 * M + 6 * w).
  { eapply Rle_trans; [apply Rabs_triang|]. assert (Rabs A <= 3 * (u * M) + eta + M) by (apply ab_le with A0; assumption). assert (Rabs S <= 19 / 6 * w + M) by (apply ab_le with L; assumption). lra. }
  assert (HC : u * Rabs (A + S) <= u * (2 * M + 6 * w)) by (apply Rmult_le_compat_l; lra).
  replace (rho + sr - d) with ((sr - (A + S)) + (A - A0) + (S - L) + - (d - (rho + (A0 + L)))) by ring.
  eapply Rle_trans; [apply Rabs_triang|]. rewrite Rabs_Ropp. pose proof (Rabs_triang (sr - (A + S) + (A - A0)) (S - L)) as T1. pose proof (Rabs_triang (sr - (A + S)) (A - A0)) as T2. lra.
Qed.
Lemma odd_tail x rho d Q t B C sr : 2 * eta <= u * u * (Rabs x * P) -> Rabs (d - (rho + (A0 + L))) <= 4 * w -> Rabs rho <= 4 / 3 * P ->
  Q + t = rho * x -> Rabs t <= u * Rabs (rho * x) ->
  Rabs (A - x * A0) <= 4 * (u * (Rabs x * M)) + eta -> Rabs (B - x * S) <= u * Rabs (x * S) + eta ->
  Rabs (C - (A + B)) <= u * Rabs (A + B) -> Rabs (sr - (C + t)) <= u * Rabs (C + t) ->
  Rabs (Q + sr - x * d) <= 16 * (Rabs x * w).
Proof.
  intros H0 H1 HR HQ HT H2 H3 HC HSr. pose proof S_w as H4. pose proof uM as H5. pose proof uw as H6. pose proof w_pos as H8. pose proof uuP as H9.
  set (X := Rabs x) in *. assert (X0 : 0 <= X) by apply Rabs_pos.
  assert (S1 : X * Rabs (S - L) <= X * (19 / 6 * w)) by (apply Rmult_le_compat_l; assumption).
  assert (S2 : X * (3 * (u * M)) <= X * (2 * w)) by (apply Rmult_le_compat_l; assumption).
  assert (S3 : X * (32 * (u * w)) <= X * w) by (apply Rmult_le_compat_l; assumption).
  assert (S4 : X * (4 * (u * u * P)) <= X * w) by (apply Rmult_le_compat_l; assumption).
  assert (S5 : X * Rabs (d - (rho + (A0 + L))) <= X * (4 * w)) by (apply Rmult_le_compat_l; assumption).
  assert (S6 : X * Rabs A0 <= X * M) by (apply Rmult_le_compat_l; assumption).
  assert (S7 : X * Rabs rho <= X * (4 / 3 * P)) by (apply Rmult_le_compat_l; assumption).
  assert (S8 : X * Rabs S <= X * (19 / 6 * w + M)) by (apply Rmult_le_compat_l; [assumption|]; apply ab_le with L; assumption).
  assert (S9 : 0 <= X * w) by (apply Rmult_le_pos; assumption).
  assert (ET : 8 * eta <= X * w) by lra.
  rewrite Rabs_mult, (Rmult_comm _ (Rabs x)) in HT. fold X in HT. rewrite (Rabs_mult x S) in H3. fold X in H3.
  assert (T0 : Rabs t <= u * (X * (4 / 3 * P))) by (eapply Rle_trans; [exact HT|]; apply Rmult_le_compat_l; lra).
  assert (B1 : Rabs (B - x * S) <= u * (X * (19 / 6 * w + M)) + eta) by (eapply Rle_trans; [exact H3|]; apply Rplus_le_compat_r, Rmult_le_compat_l; lra).
  assert (A2 : Rabs A <= 4 * (u * (X * M)) + eta + X * M) by (apply ab_le with (x * A0); [assumption|]; rewrite Rabs_mult; fold X; lra).
  assert (B2 : Rabs B <= u * (X * (19 / 6 * w + M)) + eta + X * (19 / 6 * w + M)) by (apply ab_le with (x * S); [assumption|]; rewrite Rabs_mult; fold X; lra).
  assert (AB : Rabs (A + B) <= 2 * (X * M) + 8 * (X * w)) by (eapply Rle_trans; [apply Rabs_triang|]; lra).
  assert (C1 : u * Rabs (A + B) <= u * (2 * (X * M) + 8 * (X * w))) by (apply Rmult_le_compat_l; lra).
  assert (C2 : Rabs C <= u * Rabs (A + B) + Rabs (A + B)) by (apply ab_le with (A + B); lra).
  assert (CT : Rabs (C + t) <= 2 * (X * M) + 10 * (X * w) + u * (X * (4 / 3 * P))) by (eapply Rle_trans; [apply Rabs_triang|]; lra).
  assert (D1 : u * Rabs (C + t) <= u * (2 * (X * M) + 10 * (X * w) + u * (X * (4 / 3 * P)))) by (apply Rmult_le_compat_l; lra).
  replace (Q + sr - x * d) with ((sr - (C + t)) + (C - (A + B)) + (A - x * A0) + (B - x * S) + x * (S - L) + - (x * (d - (rho + (A0 + L)))) + (Q + t - rho * x)) by ring.
  replace (Q + t - rho * x) with 0 by lra. rewrite Rplus_0_r.
  set (a1 := sr - (C + t)) in *. set (a2 := C - (A + B)) in *. set (a3 := A - x * A0) in *. set (a4 := B - x * S) in *. set (a5 := x * (S - L)) in *. set (a6 := x * (d - (rho + (A0 + L)))) in *.
  assert (F5 : Rabs a5 <= X * (19 / 6 * w)) by (unfold a5; rewrite Rabs_mult; exact S1). assert (F6 : Rabs a6 <= X * (4 * w)) by (unfold a6; rewrite Rabs_mult; exact S5).
  pose proof (Rabs_triang (a1 + a2 + a3 + a4 + a5) (- a6)) as T1. rewrite Rabs_Ropp in T1. pose proof (Rabs_triang (a1 + a2 + a3 + a4) a5) as T2. pose proof (Rabs_triang (a1 + a2 + a3) a4) as T3.
  pose proof (Rabs_triang (a1 + a2) a3) as T4. pose proof (Rabs_triang a1 a2) as T5. lra.
Qed.
End TAIL.
