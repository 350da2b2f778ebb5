(** Accuracy of pow_prods in floating point. *)
From Coq Require Import ZArith Reals Lra Lia.
From Flocq Require Import Core BinarySingleNaN Relative.
From Verif Require Import Base.Outcome Base.ZList Model.IntModel Model.Index Model.Array1D Model.StableOps Model.FloatModel.
From Verif Require Import Spec.ReduceSpec Spec.NormSpec Spec.FloatSpec.
From Verif Require Import Proofs.PowProofs Proofs.PowReal Proofs.FloatProofs Proofs.FloatSum Proofs.FloatAcc.
Local Open Scope R_scope.

Section POW.
Context (prec emax : Z) {Hp : Prec_gt_0 prec} {He : Prec_lt_emax prec emax}.
Hypothesis P2 : (1 < prec)%Z.
Hypothesis P3 : (prec + 3 <= emax)%Z.
Notation flt := (binary_float prec emax).
Notation F := (fnum prec emax).
Notation u := (uro prec).
Notation emin := (3 - emax - prec)%Z.
Notation tp := (two_prods F).
Notation T0 := (bpow radix2 (2 - emax + prec)).
Notation val := (@B2R prec emax).
Notation fin a := (is_finite a = true).
Definition eta : R := bpow radix2 emin / 2.
Lemma eta_pos : 0 < eta. Proof. unfold eta. pose proof (bpow_gt_0 radix2 emin). lra. Qed.
Lemma u_small : 4 * u <= 1.
Proof. unfold uro. change 1 with (bpow radix2 0). change 4 with (bpow radix2 2). rewrite <- bpow_plus. apply bpow_le. lia. Qed.
Lemma u_bounds : 0 < u <= 1. Proof. pose proof u_small. pose proof (u_pos prec). lra. Qed.
Lemma eta_T0 v : 2 * T0 <= v -> 2 * eta <= u * u * v.
Proof.
  intros H. pose proof (u_pos prec) as U. assert (2 * eta <= u * u * (2 * T0)); [|assert (u * u * (2 * T0) <= u * u * v) by (apply Rmult_le_compat_l; nra); lra].
  replace (2 * T0) with (bpow radix2 (1 + (2 - emax + prec))) by (rewrite bpow_plus; reflexivity). unfold eta, uro. rewrite <- !bpow_plus. apply Rle_trans with (bpow radix2 emin); [lra|]. apply bpow_le. lia.
Qed.

Lemma T0_half : 2 * T0 <= 1.
Proof. replace (2 * T0) with (bpow radix2 (1 + (2 - emax + prec))) by (rewrite bpow_plus; reflexivity). change 1 with (bpow radix2 0). apply bpow_le. lia. Qed.
Lemma mul_abs (a b : flt) : fin (nmul F a b) -> Rabs (val (nmul F a b) - val a * val b) <= u * Rabs (val a * val b) + eta.
Proof.
  intros H. destruct (mult_args prec emax a b H) as [Ha Hb]. destruct (mult_inv prec emax a b Ha Hb H) as [E _]. rewrite E.
  destruct (error_N_FLT radix2 emin prec Hp (fun v => negb (Z.even v)) (val a * val b)) as (eps & et & B1 & B2 & _ & E3).
  change (round radix2 (FLT_exp emin prec) (Znearest (fun v : Z => negb (Z.even v))) (val a * val b)) with (round radix2 (SpecFloat.fexp prec emax) ZnearestE (val a * val b)) in E3. rewrite E3.
  replace (val a * val b * (1 + eps) + et - val a * val b) with (eps * (val a * val b) + et) by ring. eapply Rle_trans; [apply Rabs_triang|]. rewrite Rabs_mult.
  fold (u_ro radix2 prec) in B1. rewrite u_ro_u in B1. apply Rplus_le_compat; [apply Rmult_le_compat_r; [apply Rabs_pos|exact B1]|]. unfold eta. lra.
Qed.
Lemma tp_spec (a b : flt) : fin (nmul F a b) -> no_underflow prec emax a b ->
  fin (snd (tp a b)) /\ val (nmul F a b) + val (snd (tp a b)) = val a * val b /\ Rabs (val (snd (tp a b))) <= u * Rabs (val a * val b).
Proof.
  intros H HU. destruct (mult_args prec emax a b H) as [Ha Hb]. destruct (two_prods_ok prec emax P2 a b Ha Hb H HU) as (r & s & E & A & B & C & D).
  rewrite E. cbn [snd]. assert (r = nmul F a b) as -> by (apply (f_equal fst) in E; now symmetry). split; [exact B|]. split; [exact D|].
  pose proof (mul_rel prec emax a b H HU) as HR. change (fmul prec emax a b) with (nmul F a b) in HR. rewrite <- Rabs_Ropp. replace (- val s) with (val (nmul F a b) - val a * val b) by lra. exact HR.
Qed.
Lemma ofZ_exact z : (0 <= z)%Z -> IZR z * u <= 1 -> val (nofZ F z) = IZR z /\ fin (nofZ F z).
Proof.
  intros HZ H. assert (HB : (z <= 2 ^ prec)%Z).
  { apply le_IZR. replace (IZR (2 ^ prec)) with (bpow radix2 prec). 2:{ rewrite <- IZR_Zpower by (unfold Prec_gt_0 in Hp; lia). reflexivity. }
    apply Rmult_le_reg_r with u; [apply u_pos|]. unfold uro at 2. rewrite <- bpow_plus, Z.add_opp_diag_r. exact H. }
  assert (FI : generic_format radix2 (SpecFloat.fexp prec emax) (IZR z)).
  { change (SpecFloat.fexp prec emax) with (FLT_exp emin prec). destruct (Z.eq_dec z (2 ^ prec)) as [->|NE].
    - replace (IZR (2 ^ prec)) with (bpow radix2 prec) by (rewrite <- IZR_Zpower by (unfold Prec_gt_0 in Hp; lia); reflexivity). apply generic_format_bpow'; [typeclasses eauto|]. unfold FLT_exp, Prec_gt_0 in *. lia.
    - apply generic_format_FLT. exists (Float radix2 z 0); [unfold F2R; cbn; ring|cbn [Fnum]; change (radix2 ^ prec)%Z with (2 ^ prec)%Z; lia|cbn [Fexp]; unfold Prec_gt_0 in *; lia]. }
  generalize (binary_normalize_correct prec emax Hp He mode_NE z 0 false). cbn [round_mode]. replace (F2R (Float radix2 z 0)) with (IZR z) by (unfold F2R; cbn; ring).
  rewrite round_generic by (exact FI || typeclasses eauto). rewrite Rlt_bool_true; [intros (A & B & _); split; assumption|].
  rewrite Rabs_pos_eq by now apply IZR_le. apply Rle_lt_trans with (bpow radix2 prec); [|apply bpow_lt; lia].
  replace (bpow radix2 prec) with (IZR (2 ^ prec)) by (rewrite <- IZR_Zpower by (unfold Prec_gt_0 in Hp; lia); reflexivity). now apply IZR_le.
Qed.

(** ** The chain of powers *)
Section CHAIN.
Context (x : flt) (n : nat).
Notation r := (nmul F x x).
Notation s := (snd (tp x x)).
Notation rho := (rho F tp r).
Notation sg := (sg F tp r).
Definition D : R := val x * val x.
Hypothesis HN : (2 <= n)%nat.
Hypothesis HU : 16 * (INR n * u) <= 1.
Hypothesis HD : forall j, (1 <= j <= n)%nat -> 2 * T0 <= D ^ j.
Hypothesis HF : fin (rho n).
Lemma D_nonneg : 0 <= D. Proof. unfold D. nra. Qed.
Lemma fin_down k : (1 <= k <= n)%nat -> fin (rho k).
Proof.
  intros H. remember (n - k)%nat as d eqn:Ed. revert k H Ed. induction d as [|d IH]; intros k H Ed; [replace k with n by lia; exact HF|].
  specialize (IH (S k) ltac:(lia) ltac:(lia)). destruct k as [|k]; [lia|]. rewrite rho_SS in IH. apply (mult_args prec emax) in IH. apply IH.
Qed.
Lemma fin_r : fin r. Proof. apply (fin_down 1). lia. Qed.
Lemma nu_x : no_underflow prec emax x x.
Proof. right. pose proof (HD 1 ltac:(lia)) as H. rewrite pow_1 in H. fold D. rewrite (Rabs_pos_eq D) by apply D_nonneg. pose proof (bpow_gt_0 radix2 (2 - emax + prec)). lra. Qed.
Lemma s_spec : fin s /\ val r + val s = D /\ Rabs (val s) <= u * D.
Proof. destruct (tp_spec x x fin_r nu_x) as (A & B & C). fold D in B, C. rewrite (Rabs_pos_eq D) in C by apply D_nonneg. repeat split; assumption. Qed.
Definition bl : R := (1 - u) * (1 - u) * D.
Lemma bl_nonneg : 0 <= bl. Proof. unfold bl. pose proof u_small. pose proof D_nonneg. pose proof (u_pos prec). assert (0 <= (1 - u) * (1 - u)) by nra. nra. Qed.
Lemma r_low : (1 - u) * D <= Rabs (val r).
Proof. destruct s_spec as (_ & A & B). replace (val r) with (D - val s) by lra. pose proof (Rabs_triang_inv D (val s)) as H. rewrite (Rabs_pos_eq D) in H by apply D_nonneg. lra. Qed.
Lemma bl_T0 j : (1 <= j <= n)%nat -> T0 <= bl ^ j.
Proof.
  intros H. unfold bl. rewrite Rpow_mult_distr. replace ((1 - u) * (1 - u)) with ((1 - u) ^ 2) by ring. rewrite <- pow_mult.
  pose proof u_bounds as UB. pose proof (pow_dn u (2 * j) ltac:(lra)) as L. rewrite mult_INR in L. change (INR 2) with 2 in L.
  assert (INR j <= INR n) by (apply le_INR; lia). assert (INR j * u <= INR n * u) by (apply Rmult_le_compat_r; lra).
  pose proof (HD j H). pose proof (bpow_gt_0 radix2 (2 - emax + prec)). assert (1 / 2 <= (1 - u) ^ (2 * j)) by lra. nra.
Qed.
Lemma chain k : (S (S k) <= n)%nat -> bl ^ S k <= Rabs (val (rho (S k))) /\ no_underflow prec emax (rho (S k)) r.
Proof.
  pose proof r_low as RL. pose proof bl_nonneg as BN. pose proof u_bounds as UB. pose proof D_nonneg as DN. pose proof u_small as US.
  assert (RB : bl <= Rabs (val r)). { eapply Rle_trans; [|exact RL]. unfold bl. assert (0 <= (1 - u) * D) by nra. nra. }
  assert (NUF : forall j, (S (S j) <= n)%nat -> bl ^ S j <= Rabs (val (rho (S j))) -> no_underflow prec emax (rho (S j)) r).
  { intros j Hj H. right. rewrite Rabs_mult. eapply Rle_trans; [apply (bl_T0 (S (S j))); lia|]. change (bl ^ S (S j)) with (bl * bl ^ S j). rewrite (Rmult_comm bl). apply Rmult_le_compat; [apply pow_le|..]; assumption. }
  induction k as [|k IH]; intros H.
  - assert (B : bl ^ 1 <= Rabs (val (rho 1))) by (rewrite pow_1; exact RB). split; [exact B|]. now apply NUF.
  - destruct (IH ltac:(lia)) as [I1 I2]. assert (FN : fin (nmul F (rho (S k)) r)) by (change (fin (rho (S (S k)))); apply fin_down; lia).
    destruct (tp_spec (rho (S k)) r FN I2) as (_ & A & B).
    assert (BL : bl ^ S (S k) <= Rabs (val (rho (S (S k))))).
    { rewrite rho_SS. change (fst (tp (rho (S k)) r)) with (nmul F (rho (S k)) r). replace (val (nmul F (rho (S k)) r)) with (val (rho (S k)) * val r - val (snd (tp (rho (S k)) r))) by lra.
      pose proof (Rabs_triang_inv (val (rho (S k)) * val r) (val (snd (tp (rho (S k)) r)))) as T. apply Rle_trans with ((1 - u) * Rabs (val (rho (S k)) * val r)); [|lra].
      change (bl ^ S (S k)) with (bl * bl ^ S k). unfold bl at 1. rewrite Rabs_mult. assert (bl ^ S k * ((1 - u) * D) <= Rabs (val (rho (S k))) * Rabs (val r)) by (apply Rmult_le_compat; [now apply pow_le|nra|assumption|assumption]).
      replace ((1 - u) * (1 - u) * D * bl ^ S k) with ((1 - u) * (bl ^ S k * ((1 - u) * D))) by ring. apply Rmult_le_compat_l; lra. }
    split; [exact BL|]. now apply NUF.
Qed.
Lemma bl_half j : (j <= n)%nat -> D ^ j / 2 <= bl ^ j.
Proof.
  intros H. unfold bl. rewrite Rpow_mult_distr. replace ((1 - u) * (1 - u)) with ((1 - u) ^ 2) by ring. rewrite <- pow_mult.
  pose proof u_bounds as UB. pose proof (pow_dn u (2 * j) ltac:(lra)) as L. rewrite mult_INR in L. change (INR 2) with 2 in L.
  assert (INR j <= INR n) by (apply le_INR; lia). assert (INR j * u <= INR n * u) by (apply Rmult_le_compat_r; lra).
  assert (0 <= D ^ j) by apply pow_le, D_nonneg. assert (1 / 2 <= (1 - u) ^ (2 * j)) by lra. nra.
Qed.
Notation rh := (fun k => val (rho k)).
Notation sgr := (fun k => val (sg k)).
Lemma one_val : val (none_ F) = 1. Proof. apply Bone_correct. Qed.
Lemma step_spec k : (S (S k) <= n)%nat -> fin (sg k) /\ rh (S (S k)) + sgr k = rh (S k) * val r /\ Rabs (sgr k) <= u * Rabs (rh (S k) * val r).
Proof. intros H. destruct (chain k H) as [_ C]. apply (tp_spec (rho (S k)) r); [|exact C]. change (fin (rho (S (S k)))). apply fin_down. lia. Qed.
Notation Bn := (Bq u D ^ n).
Lemma Bn_43 : Bn <= 4 / 3 * D ^ n.
Proof.
  unfold Bq. rewrite Rpow_mult_distr. replace ((1 + u) * (1 + u)) with ((1 + u) ^ 2) by ring. rewrite <- pow_mult. apply Rmult_le_compat_r; [apply pow_le, D_nonneg|].
  apply pow_43; [pose proof (u_pos prec); lra|]. rewrite mult_INR. change (INR 2) with 2. lra.
Qed.
Lemma Bq_n : 0 <= Bq u D. Proof. apply Bq_nonneg; [apply u_bounds|apply D_nonneg]. Qed.
Definition Mx : R := INR n * u * Bn.
Lemma Mx_bound : 0 <= Mx <= 4 / 3 * (INR n * u * D ^ n).
Proof.
  pose proof Bn_43. pose proof (u_pos prec). pose proof (pos_INR n). assert (0 <= INR n * u) by nra. assert (0 <= Bn) by (apply pow_le, Bq_n). unfold Mx. split; [nra|].
  assert (INR n * u * Bn <= INR n * u * (4 / 3 * D ^ n)) by (apply Rmult_le_compat_l; assumption). lra.
Qed.
Definition A0 : R := INR n * rh (n - 1)%nat * val s.
Definition Lx : R := rsum (terms sgr rh (n - 2) (n - 1)).
Notation RU := (rh_up u D (val r) (val s) n rh sgr u_bounds D_nonneg (proj1 (proj2 s_spec)) (proj2 (proj2 s_spec)) one_val eq_refl (fun k H => proj1 (proj2 (step_spec k H))) (fun k H => proj2 (proj2 (step_spec k H)))).
Lemma rho_up k : (k <= n)%nat -> Rabs (rh k) <= Bq u D ^ k.
Proof. apply RU. Qed.
Lemma A0_bound : Rabs A0 <= Mx.
Proof.
  unfold A0, Mx. rewrite !Rabs_mult, (Rabs_pos_eq (INR n)) by apply pos_INR. pose proof (rho_up (n - 1) ltac:(lia)) as H. pose proof (s_le u D (val s) u_bounds D_nonneg (proj2 (proj2 s_spec))) as SS.
  assert (Rabs (rh (n - 1)%nat) * Rabs (val s) <= Bq u D ^ (n - 1) * (u * Bq u D)) by (apply Rmult_le_compat; try apply Rabs_pos; assumption).
  replace (Bq u D ^ n) with (Bq u D * Bq u D ^ (n - 1)). 2:{ change (Bq u D * Bq u D ^ (n - 1)) with (Bq u D ^ S (n - 1)). f_equal. lia. }
  assert (0 <= INR n) by apply pos_INR. rewrite Rmult_assoc. apply Rle_trans with (INR n * (Bq u D ^ (n - 1) * (u * Bq u D))); [apply Rmult_le_compat_l; assumption|]. apply Req_le. ring.
Qed.
Lemma L_norm : norm1 (terms sgr rh (n - 2) (n - 1)) <= Mx.
Proof.
  pose proof (loc_norm u D (val r) (val s) n rh sgr u_bounds D_nonneg (proj1 (proj2 s_spec)) (proj2 (proj2 s_spec)) one_val eq_refl (fun k H => proj1 (proj2 (step_spec k H))) (fun k H => proj2 (proj2 (step_spec k H))) (n - 2) (n - 1) ltac:(lia) ltac:(lia)) as H.
  replace (S (S (n - 2))) with n in H by lia. unfold Mx. eapply Rle_trans; [exact H|]. assert (INR (n - 1) <= INR n) by (apply le_INR; lia). pose proof (u_pos prec). assert (0 <= Bn) by (apply pow_le, Bq_n).
  rewrite Rmult_assoc. apply Rmult_le_compat_r; [nra|assumption].
Qed.
Lemma rsum_norm l : Rabs (rsum l) <= norm1 l.
Proof. induction l as [|a l IH]; [unfold norm1, rsum, total; cbn; rewrite Rabs_R0; lra|]. rewrite norm1_cons, rsum_cons. eapply Rle_trans; [apply Rabs_triang|]. lra. Qed.
Lemma L_bound : Rabs Lx <= Mx.
Proof. eapply Rle_trans; [apply rsum_norm|apply L_norm]. Qed.
Lemma main_bound : Rabs (D ^ n - (rh n + (A0 + Lx))) <= 4 * (INR n * u * (INR n * u) * D ^ n).
Proof.
  pose proof (first_order u D (val r) (val s) n rh sgr u_bounds D_nonneg (proj1 (proj2 s_spec)) (proj2 (proj2 s_spec)) one_val eq_refl (fun k H => proj1 (proj2 (step_spec k H))) (fun k H => proj2 (proj2 (step_spec k H))) (n - 2) ltac:(lia)) as H.
  replace (S (n - 2)) with (n - 1)%nat in H by lia. fold Lx in H. fold A0 in H. eapply Rle_trans; [exact H|]. pose proof Bn_43 as B. assert (0 <= INR n * u * (INR n * u)) by (pose proof (pos_INR n); pose proof (u_pos prec); assert (0 <= INR n * u) by nra; nra).
  assert (INR n * u * (INR n * u) * Bn <= INR n * u * (INR n * u) * (4 / 3 * D ^ n)) by (apply Rmult_le_compat_l; assumption). lra.
Qed.
Lemma rho_n_43 : Rabs (rh n) <= 4 / 3 * D ^ n.
Proof. eapply Rle_trans; [apply rho_up; lia|apply Bn_43]. Qed.
Lemma eta_D : 2 * eta <= u * u * D ^ n.
Proof. apply eta_T0. apply HD. lia. Qed.
(** ** The rounded correction *)
Lemma n_IZR : IZR (Z.of_nat n) = INR n. Proof. symmetry. apply INR_IZR_INZ. Qed.
Lemma n_2 : 2 <= INR n. Proof. change 2 with (INR 2). now apply le_INR. Qed.
Lemma u_n : 32 * u <= 1. Proof. pose proof n_2. pose proof (u_pos prec). nra. Qed.
Lemma ofn : val (nofZ F (Z.of_nat n)) = INR n.
Proof. rewrite <- n_IZR. apply ofZ_exact; [lia|]. rewrite n_IZR. pose proof (u_pos prec). pose proof n_2. lra. Qed.
Lemma rho_T0 : T0 <= Rabs (rh (n - 1)%nat).
Proof. destruct (chain (n - 2) ltac:(lia)) as [H _]. replace (S (n - 2)) with (n - 1)%nat in H by lia. eapply Rle_trans; [|exact H]. apply bl_T0. lia. Qed.
Definition Ae : flt := nmul F (nmul F (nofZ F (Z.of_nat n)) (rho (n - 1))) s.
Lemma Ae_bound : fin Ae -> Rabs (val Ae - A0) <= 3 * (u * Mx) + eta.
Proof.
  intros H. unfold Ae in *. destruct (mult_args prec emax _ _ H) as [H1 _]. pose proof (mul_abs _ _ H) as E2. pose proof n_2 as N2. pose proof u_n as UN. pose proof (u_pos prec) as UP.
  assert (NU : no_underflow prec emax (nofZ F (Z.of_nat n)) (rho (n - 1))).
  { right. rewrite ofn, Rabs_mult, (Rabs_pos_eq (INR n)) by lra. pose proof rho_T0. pose proof (bpow_gt_0 radix2 (2 - emax + prec)). nra. }
  pose proof (mul_rel prec emax _ _ H1 NU) as E1. change (fmul prec emax) with (nmul F) in E1. rewrite ofn in E1. set (a1 := val (nmul F (nofZ F (Z.of_nat n)) (rho (n - 1)))) in *.
  set (y := INR n * val (rho (n - 1))) in *. assert (HA : Rabs (y * val s) <= Mx) by exact A0_bound. change A0 with (y * val s).
  assert (E3 : Rabs (a1 * val s - y * val s) <= u * Rabs (y * val s)). { replace (a1 * val s - y * val s) with ((a1 - y) * val s) by ring. rewrite !Rabs_mult, <- Rmult_assoc. apply Rmult_le_compat_r; [apply Rabs_pos|exact E1]. }
  assert (E4 : Rabs (a1 * val s) <= u * Rabs (y * val s) + Rabs (y * val s)) by (apply ab_le with (y * val s); [exact E3|apply Rle_refl]).
  assert (E5 : u * Rabs (a1 * val s) <= u * (u * Rabs (y * val s) + Rabs (y * val s))) by (apply Rmult_le_compat_l; lra).
  assert (E6 : u * Rabs (y * val s) <= u * Mx) by (apply Rmult_le_compat_l; lra). assert (E7 : 0 <= Rabs (y * val s)) by apply Rabs_pos.
  set (z := val (nmul F (nmul F (nofZ F (Z.of_nat n)) (rho (n - 1))) s)) in *. replace (z - y * val s) with ((z - a1 * val s) + (a1 * val s - y * val s)) by ring.
  eapply Rle_trans; [apply Rabs_triang|]. assert (u * (u * Rabs (y * val s)) <= u * (1 * Rabs (y * val s))) by (apply Rmult_le_compat_l; [lra|apply Rmult_le_compat_r; lra]). lra.
Qed.
Lemma zseq_seq k : zseq 0 k = map Z.of_nat (seq 0 k).
Proof. induction k as [|k IH]; [reflexivity|]. rewrite zseq_S, seq_S, map_app, IH. reflexivity. Qed.
Lemma fold_map {X Y Z} (f : X -> Y -> X) (g : Z -> Y) l : forall a, fold_left (fun v i => f v (g i)) l a = fold_left f (map g l) a.
Proof. induction l as [|i l IH]; intros a; [reflexivity|]. cbn. apply IH. Qed.
Definition Sx : flt := sum_loc F tp r (Z.of_nat n - 1).
Lemma Sx_fsum : Sx = fsum prec emax (fzero prec emax) (map (fun i => nmul F (rho i) (sg (n - 2 - i))) (seq 0 (n - 1))).
Proof. clear HU HD HF.
  unfold Sx, sum_loc. rewrite (fold_map (nadd F) (fun i => nmul F (rho (Z.to_nat i)) (sg (Z.to_nat (Z.of_nat n - 1 - 1 - i)%Z)))). replace (Z.to_nat (Z.of_nat n - 1)) with (n - 1)%nat by lia.
  rewrite zseq_seq, map_map. unfold fsum. f_equal. apply map_ext_in. intros i Hi. apply in_seq in Hi. rewrite Nat2Z.id. do 2 f_equal. lia.
Qed.
Lemma prods_abs (a b : nat -> flt) l : Forall (fun h => fin h) (map (fun i => nmul F (a i) (b i)) l) ->
  let t := reals prec emax (map (fun i => nmul F (a i) (b i)) l) in let e := map (fun i => val (a i) * val (b i)) l in
  Rabs (rsum t - rsum e) <= u * norm1 e + INR (length l) * eta /\ norm1 t <= (1 + u) * norm1 e + INR (length l) * eta.
Proof.
  induction l as [|i l IH]; intros H t e.
  - subst t e. unfold norm1, rsum, total. cbn. rewrite Rminus_diag_eq by reflexivity. rewrite Rabs_R0. lra.
  - inversion H as [|h k H1 H2]; subst. destruct (IH H2) as [I1 I2]. clear IH. pose proof (mul_abs _ _ H1) as E. subst t e. cbn [map]. unfold reals in *. cbn [map]. rewrite !rsum_cons, !norm1_cons. cbn [length]. rewrite S_INR.
    set (v := val (nmul F (a i) (b i))) in *. set (y := val (a i) * val (b i)) in *. set (e := map (fun i : nat => val (a i) * val (b i)) l) in *. match type of I2 with norm1 ?t0 <= _ => set (t := t0) in * end. split.
    + replace (v + rsum t - (y + rsum e)) with ((v - y) + (rsum t - rsum e)) by ring. eapply Rle_trans; [apply Rabs_triang|]. lra.
    + pose proof (ab_le v y _ _ E (Rle_refl _)). lra.
Qed.
Lemma Sx_bound : fin Sx -> Rabs (val Sx - Lx) <= 2 * (INR n * u) * Mx + 2 * (INR n * eta).
Proof.
  intros H. rewrite Sx_fsum in *. set (l := map _ _) in *. pose proof (fsum_terms_finite prec emax l _ H) as HT. pose proof (fsum_acc prec emax l _ (fsum_finite_all prec emax _ _ H)) as HA.
  destruct (prods_abs _ _ _ HT) as [E1 E2]. change (map (fun i => val (rho i) * val (sg (n - 2 - i))) (seq 0 (n - 1))) with (terms sgr rh (n - 2) (n - 1)) in E1, E2. fold Lx in E1. fold l in E1, E2. rewrite seq_length in E1, E2.
  assert (LL : length l = (n - 1)%nat) by (unfold l; rewrite map_length, seq_length; reflexivity). rewrite LL in HA. set (S0 := val (fsum prec emax _ l)) in *. set (R0 := rsum (reals prec emax l)) in *. set (N0 := norm1 (reals prec emax l)) in *. cbn [B2R FloatSpec.fzero] in HA. rewrite Rabs_R0, !Rplus_0_l in HA.
  pose proof L_norm as LN. set (K := norm1 (terms sgr rh (n - 2) (n - 1))) in *. assert (K0 : 0 <= K) by apply norm1_nonneg. pose proof n_2 as N2. pose proof u_n as UN. pose proof (u_pos prec) as UP. pose proof eta_pos as EP.
  assert (G1 : g prec (n - 1) <= 4 / 3 * (INR n * u)).
  { unfold g. assert (L1 : INR (n - 1) <= INR n) by (apply le_INR; lia). assert (INR (n - 1) * u <= INR n * u) by (apply Rmult_le_compat_r; lra). eapply Rle_trans; [apply pow_g; lra|]. lra. }
  assert (L1 : INR (n - 1) * eta <= INR n * eta) by (apply Rmult_le_compat_r; [lra|apply le_INR; lia]).
  assert (QU : 2 * u <= INR n * u) by (apply Rmult_le_compat_r; lra). assert (MX : 0 <= Mx) by (apply Mx_bound).
  assert (NE : 0 <= INR n * eta) by (apply Rmult_le_pos; lra).
  assert (NB : N0 <= 33 / 32 * Mx + INR n * eta). { eapply Rle_trans; [exact E2|]. assert ((1 + u) * K <= 33 / 32 * Mx) by (apply Rmult_le_compat; lra). lra. }
  assert (NB0 : 0 <= N0) by apply norm1_nonneg. pose proof (g_pos prec (n - 1)) as GP.
  assert (GN : g prec (n - 1) * N0 <= 4 / 3 * (INR n * u) * (33 / 32 * Mx + INR n * eta)) by (apply Rmult_le_compat; assumption).
  assert (UK : u * K <= u * Mx) by (apply Rmult_le_compat_l; lra). assert (UM : 2 * (u * Mx) <= INR n * u * Mx) by (rewrite <- Rmult_assoc; apply Rmult_le_compat_r; assumption).
  assert (QE : INR n * u * (INR n * eta) <= 1 / 16 * (INR n * eta)) by (apply Rmult_le_compat_r; lra). assert (QM : 0 <= INR n * u * Mx) by (apply Rmult_le_pos; lra).
  replace (S0 - Lx) with ((S0 - R0) + (R0 - Lx)) by ring. eapply Rle_trans; [apply Rabs_triang|]. lra.
Qed.
Theorem even_float S : Rabs (val S - Lx) <= 2 * (INR n * u) * Mx + 2 * (INR n * eta) -> fin (nadd F Ae S) ->
  Rabs (rh n + val (nadd F Ae S) - D ^ n) <= 16 * (INR n * u * (INR n * u) * D ^ n).
Proof.
  intros HS H. destruct (plus_args prec emax _ _ H) as [H1 H2]. pose proof eta_pos as EP.
  apply (even_tail u (INR n) (D ^ n) Mx eta A0 Lx (u_pos prec) n_2 HU (pow_le _ _ D_nonneg) Mx_bound eta_D A0_bound L_bound (val Ae) (val S) HS).
  - apply main_bound.
  - now apply Ae_bound.
  - exact (add_rel prec emax Ae S H).
Qed.
(** ** Odd powers *)
Notation X := (Rabs (val x)).
Lemma XX : X * X = D. Proof. unfold D. rewrite <- Rabs_mult. apply Rabs_pos_eq. apply D_nonneg. Qed.
Lemma x_T0 : T0 <= X.
Proof.
  pose proof (HD 1 ltac:(lia)) as H. rewrite pow_1, <- XX in H. pose proof T0_half. pose proof (bpow_gt_0 radix2 (2 - emax + prec)). pose proof (Rabs_pos (val x)).
  destruct (Rle_or_lt 1 X); [lra|]. nra.
Qed.
Lemma x_rho_T0 : T0 <= X * Rabs (rh (n - 1)%nat).
Proof.
  pose proof rho_T0 as H1. pose proof (Rabs_pos (val x)) as X0. pose proof (bpow_gt_0 radix2 (2 - emax + prec)) as B0. destruct (Rle_or_lt 1 X) as [H|H]; [nra|].
  destruct (chain (n - 2) ltac:(lia)) as [HC _]. replace (S (n - 2)) with (n - 1)%nat in HC by lia. pose proof (bl_T0 n ltac:(lia)) as HB. replace n with (S (n - 1)) in HB at 1 by lia. change (bl ^ S (n - 1)) with (bl * bl ^ (n - 1)) in HB.
  eapply Rle_trans; [exact HB|]. apply Rmult_le_compat; [apply bl_nonneg|apply pow_le, bl_nonneg| |exact HC].
  unfold bl. pose proof XX as E. pose proof D_nonneg. pose proof u_bounds. assert (D <= X) by nra. assert ((1 - u) * (1 - u) <= 1) by nra. assert (0 <= (1 - u) * (1 - u)) by nra. nra.
Qed.
Lemma rho_n_low : D ^ n / 2 <= Rabs (rh n).
Proof.
  eapply Rle_trans; [apply (bl_half n); lia|]. destruct (chain (n - 2) ltac:(lia)) as [HC NU]. destruct (step_spec (n - 2) ltac:(lia)) as (_ & A & B). cbn beta in A, B.
  replace (S (S (n - 2))) with n in * by lia. replace (S (n - 2)) with (n - 1)%nat in * by lia.
  replace (rh n) with (rh (n - 1)%nat * val r - val (sg (n - 2))) by (cbn beta; lra). pose proof (Rabs_triang_inv (val (rho (n - 1)) * val r) (val (sg (n - 2)))) as T. apply Rle_trans with ((1 - u) * Rabs (val (rho (n - 1)) * val r)); [|cbn beta; lra].
  replace (bl ^ n) with (bl * bl ^ (n - 1)) by (change (bl * bl ^ (n - 1)) with (bl ^ S (n - 1)); f_equal; lia). unfold bl at 1. rewrite Rabs_mult. pose proof u_bounds. pose proof D_nonneg.
  assert (bl ^ (n - 1) * ((1 - u) * D) <= Rabs (val (rho (n - 1))) * Rabs (val r)) by (apply Rmult_le_compat; [apply pow_le, bl_nonneg|nra|assumption|apply r_low]).
  replace ((1 - u) * (1 - u) * D * bl ^ (n - 1)) with ((1 - u) * (bl ^ (n - 1) * ((1 - u) * D))) by ring. apply Rmult_le_compat_l; lra.
Qed.
Definition Ao : flt := nmul F (nmul F (nmul F (nofZ F (Z.of_nat n)) x) (rho (n - 1))) s.
Lemma Ao_bound : fin Ao -> Rabs (val Ao - val x * A0) <= 4 * (u * (X * Mx)) + eta.
Proof.
  intros H. unfold Ao in *. destruct (mult_args prec emax _ _ H) as [H1 _]. destruct (mult_args prec emax _ _ H1) as [H0 _]. pose proof (mul_abs _ _ H) as E3. pose proof n_2 as N2. pose proof u_n as UN. pose proof (u_pos prec) as UP. pose proof (bpow_gt_0 radix2 (2 - emax + prec)) as TP.
  assert (NU0 : no_underflow prec emax (nofZ F (Z.of_nat n)) x). { right. rewrite ofn, Rabs_mult, (Rabs_pos_eq (INR n)) by lra. pose proof x_T0. nra. }
  pose proof (mul_rel prec emax _ _ H0 NU0) as E1. change (fmul prec emax) with (nmul F) in E1. rewrite ofn in E1. set (a0 := nmul F (nofZ F (Z.of_nat n)) x) in *.
  rewrite Rabs_mult, (Rabs_pos_eq (INR n)) in E1 by lra. assert (X0 : 0 <= X) by apply Rabs_pos.
  assert (LA : X <= Rabs (val a0)). { pose proof (Rabs_triang_inv (INR n * val x) (INR n * val x - val a0)) as T. replace (INR n * val x - (INR n * val x - val a0)) with (val a0) in T by ring. rewrite (Rabs_minus_sym _ (val a0)), Rabs_mult, (Rabs_pos_eq (INR n)) in T by lra. assert (u * (INR n * X) <= 1 / 32 * (INR n * X)) by (apply Rmult_le_compat_r; [apply Rmult_le_pos; lra|lra]). assert (2 * X <= INR n * X) by (apply Rmult_le_compat_r; lra). lra. }
  assert (NU1 : no_underflow prec emax a0 (rho (n - 1))). { right. rewrite Rabs_mult. eapply Rle_trans; [apply x_rho_T0|]. apply Rmult_le_compat_r; [apply Rabs_pos|exact LA]. }
  pose proof (mul_rel prec emax _ _ H1 NU1) as E2. change (fmul prec emax) with (nmul F) in E2. set (a1 := val (nmul F a0 (rho (n - 1)))) in *.
  set (y := val (rho (n - 1)) * val s). set (w := INR n * val x) in *.
  assert (EY : val x * A0 = w * y) by (unfold A0, w, y; ring). assert (HA : Rabs (w * y) <= X * Mx). { rewrite <- EY, Rabs_mult. apply Rmult_le_compat_l; [exact X0|apply A0_bound]. }
  assert (F1 : Rabs (val a0 * y - w * y) <= u * Rabs (w * y)). { replace (val a0 * y - w * y) with ((val a0 - w) * y) by ring. rewrite (Rabs_mult _ y), (Rabs_mult w y), <- Rmult_assoc. apply Rmult_le_compat_r; [apply Rabs_pos|]. unfold w at 2. rewrite Rabs_mult, (Rabs_pos_eq (INR n)) by lra. exact E1. }
  assert (F2 : Rabs (a1 * val s - val a0 * y) <= u * Rabs (val a0 * y)). { unfold y. replace (a1 * val s - val a0 * (val (rho (n - 1)) * val s)) with ((a1 - val a0 * val (rho (n - 1))) * val s) by ring. rewrite <- Rmult_assoc, (Rabs_mult (_ * _) (val s)), (Rabs_mult _ (val s)), <- Rmult_assoc. apply Rmult_le_compat_r; [apply Rabs_pos|exact E2]. }
  rewrite EY. set (z := val (nmul F (nmul F a0 (rho (n - 1))) s)) in *. set (b0 := Rabs (w * y)) in *. assert (B0 : 0 <= b0) by apply Rabs_pos.
  assert (UB : u * b0 <= 1 / 32 * b0) by (apply Rmult_le_compat_r; lra). assert (UU : 0 <= u * b0) by (apply Rmult_le_pos; lra).
  assert (F3 : Rabs (val a0 * y) <= u * b0 + b0) by (apply ab_le with (w * y); [exact F1|apply Rle_refl]).
  assert (F4 : u * Rabs (val a0 * y) <= u * (u * b0 + b0)) by (apply Rmult_le_compat_l; lra).
  assert (F5 : Rabs (a1 * val s) <= u * Rabs (val a0 * y) + Rabs (val a0 * y)) by (apply ab_le with (val a0 * y); [exact F2|apply Rle_refl]).
  assert (F6 : u * Rabs (a1 * val s) <= u * (u * (u * b0 + b0) + (u * b0 + b0))) by (apply Rmult_le_compat_l; lra).
  assert (F7 : u * b0 <= u * (X * Mx)) by (apply Rmult_le_compat_l; lra).
  assert (F8 : u * (u * b0) <= 1 / 32 * (u * b0)) by (apply Rmult_le_compat_r; lra).
  assert (F9 : u * (u * (u * b0)) <= 1 / 32 * (u * (u * b0))) by (apply Rmult_le_compat_r; [apply Rmult_le_pos; lra|lra]).
  replace (z - w * y) with ((z - a1 * val s) + (a1 * val s - val a0 * y) + (val a0 * y - w * y)) by ring.
  eapply Rle_trans; [apply Rabs_triang|]. pose proof (Rabs_triang (z - a1 * val s) (a1 * val s - val a0 * y)). lra.
Qed.
Theorem odd_float S : 2 * T0 <= X * D ^ n -> Rabs (val S - Lx) <= 2 * (INR n * u) * Mx + 2 * (INR n * eta) ->
  let q := nmul F (rho n) x in let t := snd (tp (rho n) x) in let sr := nadd F (nadd F Ao (nmul F x S)) t in fin q -> fin sr ->
  Rabs (val q + val sr - val x * D ^ n) <= 16 * (X * (INR n * u * (INR n * u) * D ^ n)).
Proof.
  intros HX HS q t sr Hq H. destruct (plus_args prec emax _ _ H) as [H1 H2]. destruct (plus_args prec emax _ _ H1) as [H3 H4]. pose proof eta_pos as EP.
  assert (NU : no_underflow prec emax (rho n) x). { right. rewrite Rabs_mult, Rmult_comm. pose proof rho_n_low as L. assert (X * (D ^ n / 2) <= X * Rabs (rh n)) by (apply Rmult_le_compat_l; [apply Rabs_pos|exact L]). cbn beta in *. lra. }
  destruct (tp_spec (rho n) x Hq NU) as (T1 & T2 & T3).
  apply (odd_tail u (INR n) (D ^ n) Mx eta A0 Lx (u_pos prec) n_2 HU (pow_le _ _ D_nonneg) Mx_bound eta_D A0_bound L_bound (val Ao) (val S) HS (val x) (rh n) (D ^ n) (val q) (val t) (val (nmul F x S)) (val (nadd F Ao (nmul F x S)))).
  - now apply eta_T0.
  - apply main_bound.
  - apply rho_n_43.
  - exact T2.
  - exact T3.
  - now apply Ao_bound.
  - now apply mul_abs.
  - exact (add_rel prec emax Ao (nmul F x S) H1).
  - exact (add_rel prec emax (nadd F Ao (nmul F x S)) t H).
Qed.
End CHAIN.
(** ** All powers *)
Lemma zmul (a b : flt) : fin (nmul F a b) -> val a * val b = 0 -> val (nmul F a b) = 0.
Proof. intros H E. pose proof (mul_rel prec emax a b H (or_introl E)) as HR. change (fmul prec emax a b) with (nmul F a b) in HR. rewrite E, Rminus_0_r, Rabs_R0 in HR. pose proof (Rabs_pos (val (nmul F a b))) as HQ. destruct (Req_dec (val (nmul F a b)) 0) as [Z0|Z0]; [exact Z0|]. pose proof (Rabs_pos_lt _ Z0). lra. Qed.
Lemma zadd (a b : flt) : fin (nadd F a b) -> val a = 0 -> val b = 0 -> val (nadd F a b) = 0.
Proof. intros H E1 E2. pose proof (add_rel prec emax a b H) as HR. change (fadd prec emax a b) with (nadd F a b) in HR. rewrite E1, E2, Rplus_0_l, Rminus_0_r, Rabs_R0 in HR. pose proof (Rabs_pos (val (nadd F a b))) as HQ. destruct (Req_dec (val (nadd F a b)) 0) as [Z0|Z0]; [exact Z0|]. pose proof (Rabs_pos_lt _ Z0). lra. Qed.
Lemma ztp (a b : flt) : fin (nmul F a b) -> val a * val b = 0 -> val (snd (tp a b)) = 0.
Proof. intros H E. destruct (tp_spec a b H (or_introl E)) as (_ & A & _). rewrite (zmul a b H E), E in A. lra. Qed.
Lemma fold_zero l : forall v : flt, fin (fsum prec emax v l) -> val v = 0 -> Forall (fun y => val y = 0) l -> val (fsum prec emax v l) = 0.
Proof.
  induction l as [|y l IH]; intros v H E HF; [exact E|]. inversion HF as [|y' l' Hy Hl]; subst. apply IH; [exact H| |exact Hl]. apply zadd; [|assumption|assumption].
  destruct (is_finite (nadd F v y)) eqn:K; [reflexivity|]. cbn in H. change (fin (fsum prec emax (nadd F v y) l)) in H. rewrite (fsum_nonfinite prec emax l _ K) in H. discriminate.
Qed.
Lemma zero_chain (x : flt) n : val x = 0 -> (1 <= n)%nat -> fin (rho F tp (nmul F x x) n) -> forall k, (1 <= k <= n)%nat -> val (rho F tp (nmul F x x) k) = 0 /\ fin (rho F tp (nmul F x x) k).
Proof.
  intros E Hn H k Hk. assert (FK : fin (rho F tp (nmul F x x) k)).
  { remember (n - k)%nat as d eqn:Ed. revert k Hk Ed. induction d as [|d IH]; intros k Hk Ed; [replace k with n by lia; exact H|].
    specialize (IH (S k) ltac:(lia) ltac:(lia)). destruct k as [|k]; [lia|]. rewrite rho_SS in IH. apply (mult_args prec emax) in IH. apply IH. }
  split; [|exact FK]. clear Hn H. destruct k as [|k]; [lia|]. clear Hk. revert FK. induction k as [|k IH]; intros FK.
  - apply zmul; [exact FK|]. rewrite E. ring.
  - rewrite rho_SS in *. apply zmul; [exact FK|]. apply (mult_args prec emax) in FK. rewrite IH by apply FK. ring.
Qed.
Lemma odd_or_even p : (0 <= p)%Z -> (p = 2 * (p / 2) /\ p mod 2 = 0 \/ p = 2 * (p / 2) + 1 /\ p mod 2 = 1)%Z.
Proof. intros H. pose proof (Z.div_mod p 2 ltac:(lia)). pose proof (Z.mod_pos_bound p 2 ltac:(lia)). lia. Qed.
Lemma tp_pair (a b : flt) : tp a b = (nmul F a b, snd (tp a b)). Proof. reflexivity. Qed.
Lemma Ok_pair {A B} (a a' : A) (b b' : B) : Ok (a, b) = Ok (a', b') -> a' = a /\ b' = b.
Proof. intros H. injection H as -> ->. easy. Qed.
Lemma pow_zero c (x : flt) p r s : (1 <= p <= LONG_MAX)%Z -> val x = 0 -> pow_prods F c x p = Ok (r, s) -> fin r -> fin s -> val r = 0 /\ val s = 0.
Proof.
  intros HP E HV Fr Fs. unfold pow_prods in HV. destruct (Z_lt_le_dec p 6) as [L|L].
  - assert (HC : (p = 1 \/ p = 2 \/ p = 3 \/ p = 4 \/ p = 5)%Z) by lia. clear HP L. unfold pow_prods_tp in HV.
    destruct HC as [->|[->|[->|[->| ->]]]]; cbn [Z.ltb Z.eqb Z.compare Pos.compare Pos.compare_cont Pos.eqb] in HV; rewrite check_debug_true in HV; cbn [bind] in HV.
    + apply Ok_pair in HV; destruct HV as [-> ->]. split; [exact E|reflexivity].
    + unfold two_prods in HV. apply Ok_pair in HV; destruct HV as [-> ->]. split; [apply zmul|apply (ztp x x)]; try assumption; rewrite E; ring.
    + unfold two_prods in HV. apply Ok_pair in HV; destruct HV as [-> ->]. destruct (mult_args prec emax _ _ Fr) as [F1 _]. assert (E1 : val (nmul F x x) = 0) by (apply zmul; [exact F1|rewrite E; ring]).
      split; [apply zmul; [exact Fr|rewrite E; ring]|]. destruct (plus_args prec emax _ _ Fs) as [G1 G2]. apply zadd; [exact Fs|apply zmul; [exact G1|rewrite E; ring]|apply (ztp (nmul F x x) x); [exact Fr|rewrite E; ring]].
    + unfold two_prods in HV. apply Ok_pair in HV; destruct HV as [-> ->]. destruct (mult_args prec emax _ _ Fr) as [F1 _]. assert (E1 : val (nmul F x x) = 0) by (apply zmul; [exact F1|rewrite E; ring]).
      split; [apply zmul; [exact Fr|rewrite E1; ring]|]. destruct (plus_args prec emax _ _ Fs) as [G1 G2]. apply zadd; [exact Fs|apply zmul; [exact G1|]|apply (ztp (nmul F x x) (nmul F x x)); [exact Fr|rewrite E1; ring]].
      change (nfma F x x (nneg F (nmul F x x))) with (snd (tp x x)). rewrite (ztp x x F1) by (rewrite E; ring). ring.
    + unfold two_prods in HV. apply Ok_pair in HV; destruct HV as [-> ->]. destruct (mult_args prec emax _ _ Fr) as [F2 _]. destruct (mult_args prec emax _ _ F2) as [F1 _]. assert (E1 : val (nmul F x x) = 0) by (apply zmul; [exact F1|rewrite E; ring]).
      split; [apply zmul; [exact Fr|rewrite E; ring]|]. destruct (plus_args prec emax _ _ Fs) as [G1 G2]. destruct (plus_args prec emax _ _ G1) as [G3 G4].
      apply zadd; [exact Fs| |apply (ztp (nmul F (nmul F x x) (nmul F x x)) x); [exact Fr|rewrite E; ring]]. apply zadd; [exact G1|apply zmul; [exact G3|]|apply zmul; [exact G4|rewrite E; ring]].
      change (nfma F x x (nneg F (nmul F x x))) with (snd (tp x x)). rewrite (ztp x x F1) by (rewrite E; ring). ring.
  - destruct (Z_le_gt_dec (2 * (p / 2 - 1)) (amax c)) as [HM|HM]; [|rewrite (pow_too_long F c tp x p) in HV by lia; discriminate].
    rewrite pow_value in HV by lia. rewrite (tp_pair x x) in HV. cbv beta iota zeta in HV. rewrite (tp_pair (rho _ _ _ _) x) in HV. set (n := (p / 2)%Z) in *. set (m := Z.to_nat n) in *. assert (Hm : (3 <= m)%nat) by (unfold m, n; pose proof (Z.div_le_lower_bound p 2 3); lia).
    set (R := rho F tp (nmul F x x)) in *. set (sl := sum_loc F tp (nmul F x x) (n - 1)) in *.
    assert (FR : fin (R m)). { destruct (p mod 2 =? 0)%Z; apply Ok_pair in HV; destruct HV as [-> ->]; [exact Fr|]. now destruct (mult_args prec emax _ _ Fr). }
    pose proof (zero_chain x m E ltac:(lia) FR) as ZC. fold R in ZC. assert (F1 : fin (nmul F x x)) by (apply (ZC 1%nat); lia). assert (ES : val (snd (tp x x)) = 0) by (apply ztp; [exact F1|rewrite E; ring]).
    assert (SG : forall k, (S (S k) <= m)%nat -> val (sg F tp (nmul F x x) k) = 0).
    { intros k Hk. apply (ztp (R (S k)) (nmul F x x)); [change (fin (R (S (S k)))); apply ZC; lia|]. destruct (ZC (S k) ltac:(lia)) as [-> _]. ring. }
    assert (ESL : fin sl -> val sl = 0).
    { intros Hsl. assert (EQ : sl = Sx x m) by (unfold sl, Sx; f_equal; unfold m, n; rewrite Z2Nat.id; [reflexivity|]; pose proof (Z.div_pos p 2); lia). rewrite EQ in Hsl |- *. rewrite (Sx_fsum x m ltac:(lia)) in Hsl |- *. apply fold_zero; [exact Hsl|reflexivity|]. pose proof (fsum_terms_finite prec emax _ _ Hsl) as HT. rewrite Forall_map in HT. rewrite Forall_map.
      rewrite Forall_forall in HT. rewrite Forall_forall. intros i Hi. specialize (HT i Hi). apply in_seq in Hi. apply zmul; [exact HT|]. rewrite SG by lia. ring. }
    destruct (p mod 2 =? 0)%Z; apply Ok_pair in HV; destruct HV as [-> ->].
    + split; [apply ZC; lia|]. destruct (plus_args prec emax _ _ Fs) as [G1 G2]. apply zadd; [exact Fs|apply zmul; [exact G1|rewrite ES; ring]|now apply ESL].
    + destruct (plus_args prec emax _ _ Fs) as [G1 G2]. destruct (plus_args prec emax _ _ G1) as [G3 G4]. split; [apply zmul; [exact Fr|rewrite E; ring]|].
      apply zadd; [exact Fs| |apply (ztp (R m) x); [exact Fr|rewrite E; ring]]. apply zadd; [exact G1|apply zmul; [exact G3|rewrite ES; ring]|apply zmul; [exact G4|rewrite E; ring]].
Qed.
Section ACC.
Context (x : flt) (p : nat).
Notation X := (Rabs (val x)).
Hypothesis HU : 8 * (INR p * u) <= 1.
Hypothesis HX : 2 * T0 <= X ^ p.
Lemma X_low j : (1 <= j <= p)%nat -> 2 * T0 <= X ^ j.
Proof.
  intros Hj. pose proof (Rabs_pos (val x)) as X0. pose proof T0_half. destruct (Rle_lt_dec 1 X) as [G|G].
  - apply Rle_trans with 1; [lra|]. now apply pow_R1_Rle.
  - eapply Rle_trans; [exact HX|]. replace p with (j + (p - j))%nat by lia. rewrite pow_add. assert (0 <= X ^ j) by now apply pow_le. assert (X ^ (p - j) <= 1) by (rewrite <- (pow1 (p - j)); apply pow_incr; lra). nra.
Qed.
Lemma D_low n j : (2 * n <= p)%nat -> (1 <= j <= n)%nat -> 2 * T0 <= D x ^ j.
Proof. intros Hn Hj. rewrite <- (XX x), Rpow_mult_distr, <- pow_add. apply X_low. lia. Qed.
Lemma n_small n : (2 * n <= p)%nat -> 16 * (INR n * u) <= 1.
Proof. intros Hn. apply le_INR in Hn. rewrite mult_INR in Hn. cbn [INR] in Hn. pose proof (u_pos prec). nra. Qed.
Definition goal_ (v : R) : Prop := Rabs (v - val x ^ p) <= 4 * (INR p * u * (INR p * u) * X ^ p).
Lemma pow_even n : p = (n + n)%nat -> val x ^ p = D x ^ n /\ X ^ p = D x ^ n.
Proof. intros ->. rewrite !pow_add, <- !Rpow_mult_distr, (XX x). split; reflexivity. Qed.
Lemma pow_odd n : p = (n + n + 1)%nat -> val x ^ p = val x * D x ^ n /\ X ^ p = X * D x ^ n.
Proof. intros ->. rewrite !pow_add, <- !Rpow_mult_distr, (XX x). fold (D x). rewrite !pow_1. split; ring. Qed.
Lemma acc_even n v : p = (n + n)%nat -> Rabs (v - D x ^ n) <= 16 * (INR n * u * (INR n * u) * D x ^ n) -> goal_ v.
Proof. intros E H. unfold goal_. destruct (pow_even n E) as [-> ->]. replace (INR p) with (INR n + INR n) by (rewrite E, plus_INR; reflexivity). eapply Rle_trans; [exact H|]. right. ring. Qed.
Lemma acc_odd n v : p = (n + n + 1)%nat -> Rabs (v - val x * D x ^ n) <= 16 * (X * (INR n * u * (INR n * u) * D x ^ n)) -> goal_ v.
Proof.
  intros E H. unfold goal_. destruct (pow_odd n E) as [-> ->]. replace (INR p) with (INR n + INR n + 1) by (rewrite E, !plus_INR; reflexivity). eapply Rle_trans; [exact H|].
  assert (0 <= X * D x ^ n) by (apply Rmult_le_pos; [apply Rabs_pos|apply pow_le, (D_nonneg x)]). pose proof (u_pos prec). pose proof (pos_INR n).
  set (w := u) in *. set (k := INR n) in *. set (q := X * D x ^ n) in *. replace (X * (k * w * (k * w) * D x ^ n)) with (k * w * (k * w) * q) by (unfold q; ring).
  replace (4 * ((k + k + 1) * w * ((k + k + 1) * w) * q)) with (16 * (k * w * (k * w) * q) + (16 * k + 4) * (w * w * q)) by ring. assert (0 <= (16 * k + 4) * (w * w * q)) by (apply Rmult_le_pos; [lra|apply Rmult_le_pos; [nra|assumption]]). lra.
Qed.
Lemma acc_cube : p = 3%nat -> let r := nmul F x x in let s := snd (tp x x) in let q := nmul F r x in let v := nadd F (nmul F x s) (snd (tp r x)) in
  fin q -> fin v -> goal_ (val q + val v).
Proof.
  intros E r s q v Fq Fv. destruct (mult_args prec emax _ _ Fq) as [Fr _]. pose proof (u_pos prec) as U. pose proof u_small as U4. pose proof (Rabs_pos (val x)) as X0. pose proof (XX x) as EX. pose proof (D_nonneg x) as DN.
  assert (X2 := X_low 2 ltac:(lia)). assert (X3 := X_low 3 ltac:(lia)). set (P := X ^ 3) in *. assert (EP : P = X * D x) by (unfold P; rewrite <- EX; ring). replace (X ^ 2) with (D x) in X2 by (rewrite <- EX; ring).
  destruct (tp_spec x x Fr) as (Fs & A & B). { right. fold (D x). rewrite Rabs_pos_eq by assumption. pose proof (bpow_gt_0 radix2 (2 - emax + prec)). lra. }
  fold r s (D x) in A, B, Fs. rewrite (Rabs_pos_eq (D x)) in B by assumption.
  assert (RL : (1 - u) * D x <= Rabs (val r) <= (1 + u) * D x).
  { replace (val r) with (D x - val s) by lra. split.
    - pose proof (Rabs_triang_inv (D x) (val s)) as T. rewrite (Rabs_pos_eq (D x)) in T by assumption. lra.
    - unfold Rminus. eapply Rle_trans; [apply Rabs_triang|]. rewrite Rabs_Ropp, (Rabs_pos_eq (D x)) by assumption. lra. }
  assert (RX : (1 - u) * P <= Rabs (val r * val x) <= (1 + u) * P) by (rewrite Rabs_mult, EP; nra).
  destruct (tp_spec r x Fq) as (Ft & A' & B'). { right. assert (0 <= P) by (rewrite EP; nra). nra. }
  fold q in A'. set (t := snd (tp r x)) in *. destruct (plus_args prec emax _ _ Fv) as [Fm _]. pose proof (add_rel prec emax _ _ Fv) as H1. change (fadd prec emax (nmul F x s) t) with v in H1.
  pose proof (mul_abs x s Fm) as H2. set (m := nmul F x s) in *. unfold goal_. rewrite E. fold P. replace (val x ^ 3) with (val x * D x) by (unfold D; ring).
  assert (P0 : 0 <= P) by (rewrite EP; nra). assert (XS : Rabs (val x * val s) <= u * P) by (rewrite Rabs_mult, EP; nra). pose proof (eta_T0 P X3) as ET.
  replace (val q + val v - val x * D x) with ((val v - (val m + val t)) + (val m - val x * val s)) by (rewrite <- A; replace (val q) with (val r * val x - val t) by lra; ring).
  assert (M1 : Rabs (val m) <= (1 + u) * (u * P) + eta).
  { replace (val m) with ((val m - val x * val s) + val x * val s) by ring. eapply Rle_trans; [apply Rabs_triang|]. nra. }
  assert (T1 : Rabs (val t) <= u * ((1 + u) * P)) by nra. assert (S1 : Rabs (val m + val t) <= 2 * (u * ((1 + u) * P)) + eta) by (eapply Rle_trans; [apply Rabs_triang|]; lra).
  eapply Rle_trans; [apply Rabs_triang|]. set (w := u) in *. assert (W : 0 <= w * w * P) by (apply Rmult_le_pos; [nra|assumption]).
  assert (Z1 : Rabs (val v - (val m + val t)) <= w * (2 * (w * ((1 + w) * P)) + eta)) by (eapply Rle_trans; [exact H1|]; apply Rmult_le_compat_l; lra).
  assert (Z2 : Rabs (val m - val x * val s) <= w * (w * P) + eta) by (eapply Rle_trans; [exact H2|]; nra).
  assert (Z3 : w * eta <= eta) by (pose proof eta_pos; nra). assert (Z4 : w * (w * w * P) <= w * w * P) by nra. cbn [INR]. nra.
Qed.
Lemma Sg0 n : n = 2%nat -> (2 * n <= p)%nat -> Rabs (val (snd (tp (nmul F x x) (nmul F x x))) - Lx x n) <= 2 * (INR n * u) * Mx x n + 2 * (INR n * eta).
Proof.
  intros E Hn. pose proof (Mx_bound x n (n_small n Hn)) as [M0 _]. pose proof (pos_INR n). pose proof (u_pos prec). pose proof eta_pos.
  assert (EL : Lx x n = val (none_ F) * val (snd (tp (nmul F x x) (nmul F x x))) + 0) by (rewrite E; reflexivity).
  rewrite EL, one_val, Rmult_1_l, Rplus_0_r, Rminus_diag_eq, Rabs_R0 by reflexivity. assert (0 <= INR n * u) by nra. nra.
Qed.
Theorem pow_main c r s : (Z.of_nat p <= LONG_MAX)%Z -> pow_prods F c x (Z.of_nat p) = Ok (r, s) -> fin r -> fin s -> goal_ (val r + val s).
Proof.
  intros HL HV Fr Fs. pose proof (u_pos prec) as U. assert (X0 : 0 <= X ^ p) by (apply pow_le, Rabs_pos). assert (G0 : forall v, v = val x ^ p -> goal_ v).
  { intros v ->. unfold goal_. rewrite Rminus_diag_eq, Rabs_R0 by reflexivity. pose proof (pos_INR p). assert (0 <= INR p * u) by nra. assert (0 <= INR p * u * (INR p * u)) by nra. nra. }
  unfold pow_prods in HV. destruct (le_lt_dec 6 p) as [L|L].
  - destruct (Z_le_gt_dec (2 * (Z.of_nat p / 2 - 1)) (amax c)) as [HM|HM]; [|rewrite (pow_too_long F c tp x _) in HV by lia; discriminate].
    rewrite pow_value in HV by lia. rewrite (tp_pair x x) in HV. cbv beta iota zeta in HV. rewrite (tp_pair (PowProofs.rho _ _ _ _) x) in HV.
    destruct (odd_or_even (Z.of_nat p) ltac:(lia)) as [[E1 E2]|[E1 E2]]; rewrite E2 in HV; cbn [Z.eqb] in HV; apply Ok_pair in HV; destruct HV as [-> ->];
      set (n := Z.to_nat (Z.of_nat p / 2)) in *; assert (EN : (Z.of_nat p / 2 = Z.of_nat n)%Z) by (unfold n; rewrite Z2Nat.id; [reflexivity|]; apply Z.div_pos; lia); rewrite EN in *.
    + apply (acc_even n); [lia|]. apply (even_float x n ltac:(lia) (n_small n ltac:(lia)) (fun j => D_low n j ltac:(lia)) Fr); [|exact Fs]. apply Sx_bound; [lia|apply n_small; lia|intros j; apply (D_low n); lia|exact Fr|].
      now destruct (plus_args prec emax _ _ Fs).
    + destruct (mult_args prec emax _ _ Fr) as [FR _]. apply (acc_odd n); [lia|]. apply (odd_float x n ltac:(lia) (n_small n ltac:(lia)) (fun j => D_low n j ltac:(lia)) FR); [|apply Sx_bound; [lia|apply n_small; lia|intros j; apply (D_low n); lia|exact FR|]|exact Fr|exact Fs].
      * destruct (pow_odd n ltac:(lia)) as [_ <-]. exact HX.
      * destruct (plus_args prec emax _ _ Fs) as [G1 _]. destruct (plus_args prec emax _ _ G1) as [_ G2]. now destruct (mult_args prec emax _ _ G2).
  - assert (HC : (p = 0 \/ p = 1 \/ p = 2 \/ p = 3 \/ p = 4 \/ p = 5)%nat) by lia. clear HL L. unfold pow_prods_tp in HV.
    replace (-1 <? Z.of_nat p)%Z with true in HV by lia. rewrite check_debug_true in HV. cbn [bind] in HV.
    destruct HC as [E|[E|[E|[E|[E|E]]]]]; rewrite E in HV; cbv beta iota delta [Z.of_nat Pos.of_succ_nat Pos.succ] in HV; cbn [Z.eqb Pos.eqb] in HV.
    + apply Ok_pair in HV. destruct HV as [-> ->]. apply G0. rewrite E, one_val. replace (val (nzero F)) with 0 by reflexivity. cbn [pow]. ring.
    + apply Ok_pair in HV. destruct HV as [-> ->]. apply G0. rewrite E, pow_1. replace (val (nzero F)) with 0 by reflexivity. cbn [pow]. ring.
    + rewrite (tp_pair x x) in HV. apply Ok_pair in HV. destruct HV as [-> ->]. apply G0. rewrite E. destruct (tp_spec x x Fr) as (_ & A & _); [|rewrite A; ring].
      right. assert (H := X_low 2 ltac:(lia)). rewrite Rabs_mult. pose proof (bpow_gt_0 radix2 (2 - emax + prec)). cbn [pow] in H. rewrite Rmult_1_r in H. lra.
    + rewrite (tp_pair x x) in HV. cbv beta iota zeta in HV. rewrite (tp_pair (nmul F x x) x) in HV. cbv beta iota zeta in HV. apply Ok_pair in HV. destruct HV as [-> ->]. now apply acc_cube.
    + rewrite (tp_pair x x) in HV. cbv beta iota zeta in HV. rewrite (tp_pair (nmul F x x) (nmul F x x)) in HV. cbv beta iota zeta in HV. apply Ok_pair in HV. destruct HV as [-> ->].
      apply (acc_even 2); [lia|]. apply (even_float x 2 ltac:(lia) (n_small 2 ltac:(lia)) (fun j => D_low 2 j ltac:(lia)) Fr); [|exact Fs]. apply Sg0; lia.
    + rewrite (tp_pair x x) in HV. cbv beta iota zeta in HV. rewrite (tp_pair (nmul F x x) (nmul F x x)) in HV. cbv beta iota zeta in HV. rewrite (tp_pair (nmul F (nmul F x x) (nmul F x x)) x) in HV. cbv beta iota zeta in HV. apply Ok_pair in HV. destruct HV as [-> ->].
      destruct (mult_args prec emax _ _ Fr) as [FR _]. apply (acc_odd 2); [lia|]. apply (odd_float x 2 ltac:(lia) (n_small 2 ltac:(lia)) (fun j => D_low 2 j ltac:(lia)) FR); [|apply Sg0; lia|exact Fr|exact Fs].
      destruct (pow_odd 2 ltac:(lia)) as [_ <-]. exact HX.
Qed.
Lemma q_bound (a : flt) Y : 2 * T0 <= X * Y -> Rabs (val a) <= 4 / 3 * Y -> fin (nmul F a x) -> Rabs (val (nmul F a x)) <= 2 * (X * Y).
Proof.
  intros H1 H2 H3. pose proof (mul_abs a x H3) as M. pose proof (eta_T0 _ H1) as ET. pose proof u_small. pose proof (u_pos prec) as U. rewrite Rabs_mult in M. pose proof (Rabs_pos (val x)) as X0.
  pose proof (bpow_gt_0 radix2 (2 - emax + prec)). assert (P0 : 0 <= X * Y) by lra. assert (AX : Rabs (val a) * X <= 4 / 3 * (X * Y)) by nra. pose proof (Rabs_pos (val a)). assert (0 <= Rabs (val a) * X) by nra.
  replace (val (nmul F a x)) with ((val (nmul F a x) - val a * val x) + val a * val x) by ring. eapply Rle_trans; [apply Rabs_triang|]. rewrite (Rabs_mult (val a)). set (w := u) in *.
  assert (w * w * (X * Y) <= 1 / 16 * (X * Y)) by (apply Rmult_le_compat_r; nra). assert (w * (Rabs (val a) * X) <= 1 / 4 * (Rabs (val a) * X)) by (apply Rmult_le_compat_r; lra). lra.
Qed.
Theorem pow_r c r s : (Z.of_nat p <= LONG_MAX)%Z -> pow_prods F c x (Z.of_nat p) = Ok (r, s) -> fin r -> Rabs (val r) <= 2 * X ^ p.
Proof.
  intros HL HV Fr. assert (X0 : 0 <= X ^ p) by (apply pow_le, Rabs_pos).
  unfold pow_prods in HV. destruct (le_lt_dec 6 p) as [L|L].
  - destruct (Z_le_gt_dec (2 * (Z.of_nat p / 2 - 1)) (amax c)) as [HM|HM]; [|rewrite (pow_too_long F c tp x _) in HV by lia; discriminate].
    rewrite pow_value in HV by lia. rewrite (tp_pair x x) in HV. cbv beta iota zeta in HV. rewrite (tp_pair (PowProofs.rho _ _ _ _) x) in HV.
    destruct (odd_or_even (Z.of_nat p) ltac:(lia)) as [[E1 E2]|[E1 E2]]; rewrite E2 in HV; cbn [Z.eqb] in HV; apply Ok_pair in HV; destruct HV as [-> _];
      set (n := Z.to_nat (Z.of_nat p / 2)) in *; assert (EN : (Z.of_nat p / 2 = Z.of_nat n)%Z) by (unfold n; rewrite Z2Nat.id; [reflexivity|]; apply Z.div_pos; lia); rewrite EN in *.
    + pose proof (rho_n_43 x n ltac:(lia) (n_small n ltac:(lia)) (fun j => D_low n j ltac:(lia)) Fr) as H. destruct (pow_even n ltac:(lia)) as [_ EX]. rewrite EX in *. cbn beta in H. lra.
    + destruct (mult_args prec emax _ _ Fr) as [FR _]. pose proof (rho_n_43 x n ltac:(lia) (n_small n ltac:(lia)) (fun j => D_low n j ltac:(lia)) FR) as H. destruct (pow_odd n ltac:(lia)) as [_ EX]. rewrite EX in *. now apply q_bound.
  - assert (HC : (p = 0 \/ p = 1 \/ p = 2 \/ p = 3 \/ p = 4 \/ p = 5)%nat) by lia. clear HL L. unfold pow_prods_tp in HV.
    replace (-1 <? Z.of_nat p)%Z with true in HV by lia. rewrite check_debug_true in HV. cbn [bind] in HV.
    assert (SQ : (2 <= p)%nat -> fin (nmul F x x) -> Rabs (val (nmul F x x)) <= 4 / 3 * D x).
    { intros H2 FR. assert (H := X_low 2 ltac:(lia)). replace (X ^ 2) with (D x) in H by (rewrite <- (XX x); ring). pose proof (mul_abs x x FR) as M. fold (D x) in M. pose proof (eta_T0 _ H) as ET. pose proof (n_small 1 ltac:(lia)) as U. cbn [INR] in U. pose proof (u_pos prec). pose proof (D_nonneg x). rewrite (Rabs_pos_eq (D x)) in M by assumption.
      replace (val (nmul F x x)) with ((val (nmul F x x) - D x) + D x) by ring. eapply Rle_trans; [apply Rabs_triang|]. rewrite (Rabs_pos_eq (D x)) by assumption. set (w := u) in *. assert (w * D x <= 1 / 16 * D x) by (apply Rmult_le_compat_r; lra). assert (w * w * D x <= 1 / 16 * D x) by (apply Rmult_le_compat_r; nra). lra. }
    destruct HC as [E|[E|[E|[E|[E|E]]]]]; rewrite E in HV; cbv beta iota delta [Z.of_nat Pos.of_succ_nat Pos.succ] in HV; cbn [Z.eqb Pos.eqb] in HV.
    + apply Ok_pair in HV. destruct HV as [-> _]. rewrite E, one_val, Rabs_R1. cbn [pow]. lra.
    + apply Ok_pair in HV. destruct HV as [-> _]. rewrite E, pow_1. pose proof (Rabs_pos (val x)). lra.
    + rewrite (tp_pair x x) in HV. apply Ok_pair in HV. destruct HV as [-> _]. destruct (pow_even 1 ltac:(lia)) as [_ EX]. rewrite EX, pow_1 in *. specialize (SQ ltac:(lia) Fr). lra.
    + rewrite (tp_pair x x) in HV. cbv beta iota zeta in HV. rewrite (tp_pair (nmul F x x) x) in HV. cbv beta iota zeta in HV. apply Ok_pair in HV. destruct HV as [-> _].
      destruct (mult_args prec emax _ _ Fr) as [FR _]. destruct (pow_odd 1 ltac:(lia)) as [_ EX]. rewrite EX, pow_1 in *. apply q_bound; [assumption| |assumption]. apply SQ; [lia|assumption].
    + rewrite (tp_pair x x) in HV. cbv beta iota zeta in HV. rewrite (tp_pair (nmul F x x) (nmul F x x)) in HV. cbv beta iota zeta in HV. apply Ok_pair in HV. destruct HV as [-> _].
      pose proof (rho_n_43 x 2 ltac:(lia) (n_small 2 ltac:(lia)) (fun j => D_low 2 j ltac:(lia)) Fr) as H. destruct (pow_even 2 ltac:(lia)) as [_ EX]. rewrite EX in *. eapply Rle_trans; [exact H|]. lra.
    + rewrite (tp_pair x x) in HV. cbv beta iota zeta in HV. rewrite (tp_pair (nmul F x x) (nmul F x x)) in HV. cbv beta iota zeta in HV. rewrite (tp_pair (nmul F (nmul F x x) (nmul F x x)) x) in HV. cbv beta iota zeta in HV. apply Ok_pair in HV. destruct HV as [-> _].
      destruct (mult_args prec emax _ _ Fr) as [FR _]. pose proof (rho_n_43 x 2 ltac:(lia) (n_small 2 ltac:(lia)) (fun j => D_low 2 j ltac:(lia)) FR) as H. destruct (pow_odd 2 ltac:(lia)) as [_ EX]. rewrite EX in *. now apply q_bound.
Qed.
End ACC.
Theorem pow_acc c x p r s : (0 <= p <= LONG_MAX)%Z -> 8 * (IZR p * u) <= 1 -> val x = 0 \/ bpow radix2 (3 - emax + prec) <= Rabs (val x) ^ Z.to_nat p ->
  pow_prods F c x p = Ok (r, s) -> fin r -> fin s ->
  Rabs (val r + val s - val x ^ Z.to_nat p) <= 4 * (IZR p * u * (IZR p * u) * Rabs (val x) ^ Z.to_nat p) /\ Rabs (val r) <= 2 * Rabs (val x) ^ Z.to_nat p.
Proof.
  intros HP HU HX HV Fr Fs. set (n := Z.to_nat p) in *. assert (EP : p = Z.of_nat n) by (unfold n; lia). rewrite EP in *. rewrite <- INR_IZR_INZ in *.
  assert (2 * T0 <= Rabs (val x) ^ n -> Rabs (val r + val s - val x ^ n) <= 4 * (INR n * u * (INR n * u) * Rabs (val x) ^ n) /\ Rabs (val r) <= 2 * Rabs (val x) ^ n) as MAIN.
  { intros HX'. split; [apply (pow_main x n HU HX' c r s)|apply (pow_r x n HU HX' c r s)]; assumption || lia. }
  destruct HX as [HX|HX]; [|apply MAIN; eapply Rle_trans; [|exact HX]; right; change 2 with (bpow radix2 1); rewrite <- bpow_plus; f_equal; lia].
  destruct n as [|m] eqn:En; [apply MAIN; cbn [pow]; apply T0_half|].
  destruct (pow_zero c x (Z.of_nat (S m)) r s ltac:(lia) HX HV Fr Fs) as [-> ->]. rewrite HX, Rabs_R0. cbn [pow]. rewrite !Rmult_0_l, Rmult_0_r, Rmult_0_r, Rplus_0_l, Rminus_0_r, Rabs_R0. split; lra.
Qed.
End POW.
