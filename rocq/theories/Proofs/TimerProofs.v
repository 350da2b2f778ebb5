(** Timers. *)
From Coq Require Import ZArith Reals Lra Lia List.
From Flocq Require Import Core BinarySingleNaN.
From Verif Require Import Base.Outcome Model.IntModel Model.StableOps Model.FloatModel Model.Scalars Model.Timer Spec.TimerSpec.
Import ListNotations.
Local Open Scope R_scope.

#[local] Instance p53 : Prec_gt_0 53 := eq_refl.
Lemma near_le x y : x <= y -> nearest x <= nearest y.
Proof. apply round_le; typeclasses eauto. Qed.
Lemma format_Z z : (Z.abs z <= 2 ^ 53)%Z -> generic_format radix2 (FLT_exp (-1074) 53) (IZR z).
Proof.
  intros H. destruct (Z.eq_dec (Z.abs z) (2 ^ 53)) as [E|E].
  - assert (z = 2 ^ 53 \/ z = - 2 ^ 53)%Z as [->| ->] by lia.
    + change (IZR (2 ^ 53)) with (bpow radix2 53). apply generic_format_bpow. unfold FLT_exp. lia.
    + rewrite opp_IZR. apply generic_format_opp. change (IZR (2 ^ 53)) with (bpow radix2 53). apply generic_format_bpow. unfold FLT_exp. lia.
  - apply generic_format_FLT. exists (Float radix2 z 0); [unfold F2R; cbn; ring| |cbn; lia]. cbn [Fnum]. change (radix2 ^ 53)%Z with (2 ^ 53)%Z. lia.
Qed.
Lemma near_Z z : (Z.abs z <= 2 ^ 53)%Z -> nearest (IZR z) = IZR z.
Proof. intros H. apply round_generic; [typeclasses eauto|]. now apply format_Z. Qed.
Lemma near_bound x e : (-1000 <= e)%Z -> Rabs x <= bpow radix2 e -> Rabs (nearest x) <= bpow radix2 e.
Proof. intros He H. apply abs_round_le_generic; try typeclasses eauto; [|exact H]. apply generic_format_bpow. unfold FLT_exp. lia. Qed.
Lemma abs64 d : fits64 d -> Rabs (IZR d) <= bpow radix2 63.
Proof. intros H. unfold fits64 in H. rewrite <- abs_IZR. change (bpow radix2 63) with (IZR (2 ^ 63)). apply IZR_le. lia. Qed.
Lemma conv_value d : fits64 d -> B2R (int_to_flt F64 d) = nearest (IZR d) /\ is_finite (int_to_flt F64 d) = true.
Proof.
  intros H. generalize (binary_normalize_correct (fprec F64) (femax F64) (fprec_gt F64) (fprec_lt F64) mode_NE d 0 false). cbn [round_mode].
  replace (F2R (Float radix2 d 0)) with (IZR d) by (unfold F2R; cbn; ring).
  change (round radix2 (SpecFloat.fexp (fprec F64) (femax F64)) ZnearestE (IZR d)) with (nearest (IZR d)).
  rewrite Rlt_bool_true; [intros (A & B & _); split; assumption|]. apply Rle_lt_trans with (bpow radix2 63).
  - apply near_bound; [lia|]. now apply abs64.
  - apply bpow_lt. reflexivity.
Qed.
Lemma giga : B2R (int_to_flt F64 1000000000) = 1000000000 /\ is_finite (int_to_flt F64 1000000000) = true.
Proof. destruct (conv_value 1000000000) as (A & B); [unfold fits64; lia|]. split; [|exact B]. rewrite A. apply near_Z. lia. Qed.
Theorem seconds_value d : fits64 d -> is_finite (seconds d) = true /\ B2R (seconds d) = nearest (nearest (IZR d) / 1000000000).
Proof.
  intros H. destruct (conv_value d H) as (A & B). destruct giga as (G & _).
  assert (B2R (int_to_flt F64 1000000000) <> 0) as NZ by (rewrite G; lra).
  generalize (Bdiv_correct (fprec F64) (femax F64) (fprec_gt F64) (fprec_lt F64) mode_NE (int_to_flt F64 d) _ NZ). cbn [round_mode]. rewrite A, G.
  change (round radix2 (SpecFloat.fexp (fprec F64) (femax F64)) ZnearestE (nearest (IZR d) / 1000000000)) with (nearest (nearest (IZR d) / 1000000000)).
  rewrite Rlt_bool_true.
  - intros (E & F & _). split; [|exact E]. rewrite B in F. exact F.
  - apply Rle_lt_trans with (bpow radix2 63); [|apply bpow_lt; reflexivity]. apply near_bound; [lia|]. unfold Rdiv. rewrite Rabs_mult.
    apply Rle_trans with (bpow radix2 63 * 1); [|lra]. apply Rmult_le_compat; try apply Rabs_pos; [apply near_bound; [lia|now apply abs64]|].
    rewrite Rabs_pos_eq; lra.
Qed.
Theorem seconds_exact d : (Z.abs d <= 2 ^ 53)%Z -> B2R (seconds d) = nearest (IZR d / 1000000000).
Proof. intros H. destruct (seconds_value d) as (_ & ->); [unfold fits64; lia|]. now rewrite near_Z. Qed.
Theorem seconds_le d d' : fits64 d -> fits64 d' -> (d <= d')%Z -> B2R (seconds d) <= B2R (seconds d').
Proof.
  intros H H' L. destruct (seconds_value d H) as (_ & ->), (seconds_value d' H') as (_ & ->). apply near_le. apply Rmult_le_compat_r; [lra|]. apply near_le. now apply IZR_le.
Qed.
(** A whole number of seconds is reported exactly. *)
Theorem seconds_whole n : (Z.abs n <= 9007199)%Z -> B2R (seconds (n * 1000000000)) = IZR n.
Proof.
  intros H. rewrite seconds_exact by lia. rewrite mult_IZR. replace (IZR n * 1000000000 / 1000000000) with (IZR n) by field. apply near_Z. lia.
Qed.
Theorem seconds_sign d : fits64 d -> (B2R (seconds d) < 0 <-> (d < 0)%Z) /\ (B2R (seconds d) = 0 <-> d = 0%Z).
Proof.
  intros H.
  assert (P0 : B2R (seconds 0) = 0) by exact (seconds_whole 0 ltac:(lia)).
  assert (TINY : generic_format radix2 (FLT_exp (-1074) 53) (bpow radix2 (-30))) by (apply generic_format_bpow; unfold FLT_exp; lia).
  assert (B30 : bpow radix2 (-30) = / 1073741824) by reflexivity.
  assert (P1 : 0 < B2R (seconds 1)).
  { rewrite seconds_exact by lia. apply Rlt_le_trans with (bpow radix2 (-30)); [apply bpow_gt_0|]. rewrite <- (round_generic radix2 (FLT_exp (-1074) 53) ZnearestE (bpow radix2 (-30)) TINY). apply near_le. rewrite B30. lra. }
  assert (N1 : B2R (seconds (-1)) < 0).
  { rewrite seconds_exact by lia. apply Rle_lt_trans with (- bpow radix2 (-30)); [|pose proof (bpow_gt_0 radix2 (-30)); lra].
    rewrite <- (round_generic radix2 (FLT_exp (-1074) 53) ZnearestE (- bpow radix2 (-30)) (generic_format_opp _ _ _ TINY)). apply near_le. rewrite B30. lra. }
  assert (fits64 0 /\ fits64 1 /\ fits64 (-1)) as (F0 & F1 & F2) by (unfold fits64; lia).
  destruct (Z_lt_le_dec d 0) as [L|L].
  - pose proof (seconds_le d (-1) H F2 ltac:(lia)). repeat split; intros; try lia; lra.
  - destruct (Z.eq_dec d 0) as [->|N]; [repeat split; intros; try lia; lra|].
    pose proof (seconds_le 1 d F1 H ltac:(lia)). repeat split; intros; try lia; lra.
Qed.
(** Timers in programs. *)
Lemma upd_nth l k v j : nth_error (upd l k v) j = if Nat.eqb j k then match nth_error l j with Some _ => Some v | None => None end else nth_error l j.
Proof. revert k j. induction l as [|x l IH]; intros [|k] [|j]; cbn; try reflexivity; [now destruct (Nat.eqb j k)|apply IH]. Qed.
Section R.
Context (clk : nat -> Z).
Lemma run_app p q s : run clk (p ++ q) s = (s' <- run clk p s ;; run clk q s').
Proof. revert s. induction p as [|a p IH]; intros s; cbn [run app bind]; [reflexivity|]. destruct (step clk a s); cbn [bind]; auto. Qed.
Lemma step_keeps a s s' : step clk a s = Ok s' -> calls s' = (calls s + reads [a])%nat /\
  forall k v, a <> Restart k -> nth_error (starts s) k = Some v -> nth_error (starts s') k = Some v.
Proof.
  assert (forall (l : list Z) w k v, nth_error l k = Some v -> nth_error (l ++ [w]) k = Some v) as A.
  { intros l w k v E. rewrite nth_error_app1; [exact E|]. apply nth_error_Some. congruence. }
  destruct a as [|k|k|k]; cbn [step reads].
  - intros [= <-]. cbn. split; [lia|]. auto.
  - destruct (nth_error (starts s) k); [|discriminate]. intros [= <-]. cbn. split; [lia|]. auto.
  - destruct (nth_error (starts s) k) eqn:E; [|discriminate]. intros [= <-]. cbn. split; [lia|]. intros j v N Ej. rewrite upd_nth. destruct (Nat.eqb_spec j k) as [->|]; [contradiction|exact Ej].
  - destruct (nth_error (starts s) k) eqn:E; [|discriminate]. destruct (elapsed _ _); cbn [bind]; try discriminate. intros [= <-]. cbn. split; [lia|]. auto.
Qed.
Lemma run_keeps p s s' : run clk p s = Ok s' -> calls s' = (calls s + reads p)%nat /\
  forall k v, ~ In (Restart k) p -> nth_error (starts s) k = Some v -> nth_error (starts s') k = Some v.
Proof.
  revert s. induction p as [|a p IH]; intros s; cbn [run bind].
  - intros [= <-]. cbn. split; [lia|auto].
  - destruct (step clk a s) as [s1|f|] eqn:E; cbn [bind]; try discriminate. intros R. destruct (step_keeps _ _ _ E) as (C1 & K1). destruct (IH _ R) as (C2 & K2).
    split.
    + rewrite C2, C1. destruct a; cbn [reads]; lia.
    + intros k v N E1. apply K2; [intros I; apply N; now right|]. apply K1; [|exact E1]. intros ->. apply N. now left.
Qed.
Lemma upd_len l k v : length (upd l k v) = length l.
Proof. revert k. induction l as [|x l IH]; intros [|k]; cbn; auto. Qed.
Lemma run_timers p s s' : run clk p s = Ok s' -> length (starts s') = (length (starts s) + timers p)%nat.
Proof.
  revert s. induction p as [|a p IH]; intros s; cbn [run].
  - intros [= <-]. cbn. lia.
  - destruct (step clk a s) as [s1|f|] eqn:E; cbn [bind]; try discriminate. intros R. rewrite (IH _ R). destruct a as [|k|k|k]; cbn [step timers] in *.
    + injection E as <-. cbn. rewrite app_length. cbn. lia.
    + destruct (nth_error (starts s) k); [|discriminate]. injection E as <-. cbn. rewrite app_length. cbn. lia.
    + destruct (nth_error (starts s) k); [|discriminate]. injection E as <-. cbn. now rewrite upd_len.
    + destruct (nth_error (starts s) k); [|discriminate]. destruct (elapsed _ _); cbn [bind] in E; try discriminate. injection E as <-. reflexivity.
Qed.
Lemma nth_last (l : list Z) v : nth_error (l ++ [v]) (length l) = Some v.
Proof. rewrite nth_error_app2 by lia. now rewrite Nat.sub_diag. Qed.
(** A timer whose start is b measures since b. *)
Lemma measured after k b s2 s : nth_error (starts s2) k = Some b -> run clk (after ++ [Wall k]) s2 = Ok s -> ~ In (Restart k) after ->
  exists out d, shown s = out ++ [seconds d] /\ fits64 d /\ d = (clk (calls s2 + reads after) - b)%Z.
Proof.
  intros N2. rewrite run_app. destruct (run clk after s2) as [s3|f|] eqn:E3; cbn [bind run]; try discriminate. intros E4 N. destruct (run_keeps _ _ _ E3) as (C3 & K3).
  specialize (K3 k _ N N2). cbn [step] in E4. rewrite K3 in E4. unfold elapsed, isub, arith in E4. cbn [signed] in E4.
  destruct (inr I64 (clk (calls s3) - b)) eqn:EI; cbn [bind] in E4; [|discriminate]. injection E4 as <-. cbn [shown].
  exists (shown s3), (clk (calls s3) - b)%Z. split; [reflexivity|]. unfold inr in EI. apply andb_prop in EI. destruct EI as (I1 & I2). apply Z.leb_le in I1, I2. cbn in I1, I2.
  split; [unfold fits64; lia|]. now rewrite C3.
Qed.
Theorem measures_new before after s : let k := timers before in run clk (before ++ Make :: after ++ [Wall k]) (mkts 0 [] []) = Ok s -> ~ In (Restart k) after ->
  exists out d, shown s = out ++ [seconds d] /\ fits64 d /\ d = (clk (S (reads before + reads after)) - clk (reads before))%Z.
Proof.
  cbv zeta. rewrite run_app. destruct (run clk before _) as [s1|f|] eqn:E1; cbn [bind run step]; try discriminate. destruct (run_keeps _ _ _ E1) as (C1 & _). cbn in C1.
  pose proof (run_timers _ _ _ E1) as L1. cbn in L1. intros R N. rewrite <- C1. eapply (measured _ _ _ _ _) in R; [exact R| |exact N]. cbn. rewrite <- L1. apply nth_last.
Qed.
Theorem measures_copy before mid after j s : let k := timers (before ++ Restart j :: mid) in
  run clk (before ++ Restart j :: mid ++ Copy j :: after ++ [Wall k]) (mkts 0 [] []) = Ok s -> ~ In (Restart j) mid -> ~ In (Restart k) after ->
  exists out d, shown s = out ++ [seconds d] /\ fits64 d /\ d = (clk (S (reads before + reads mid + reads after)) - clk (reads before))%Z.
Proof.
  cbv zeta. replace (before ++ Restart j :: mid ++ Copy j :: after ++ [Wall (timers (before ++ Restart j :: mid))]) with ((before ++ Restart j :: mid) ++ Copy j :: after ++ [Wall (timers (before ++ Restart j :: mid))]) by (rewrite <- app_assoc; reflexivity).
  rewrite run_app. destruct (run clk (before ++ Restart j :: mid) _) as [s3|f|] eqn:E; cbn [bind]; try discriminate.
  pose proof (run_timers _ _ _ E) as L3. cbn in L3. intros R N N'.
  rewrite run_app in E. destruct (run clk before _) as [s1|f|] eqn:E1; cbn [bind run] in E; try discriminate. destruct (run_keeps _ _ _ E1) as (C1 & _). cbn in C1.
  destruct (step clk (Restart j) s1) as [s2|f|] eqn:E2; cbn [bind] in E; try discriminate. destruct (run_keeps _ _ _ E) as (C3 & K3).
  assert (nth_error (starts s2) j = Some (clk (calls s1)) /\ calls s2 = S (calls s1)) as (N2 & C2).
  { cbn [step] in E2. destruct (nth_error (starts s1) j) eqn:EN; [|discriminate]. injection E2 as <-. cbn. rewrite upd_nth, Nat.eqb_refl, EN. auto. }
  specialize (K3 j _ N N2). cbn [run step] in R. rewrite K3 in R. cbn [bind] in R. rewrite <- C1.
  eapply (measured _ _ (clk (calls s1)) _ _) in R; [|cbn; rewrite <- L3; apply nth_last|exact N'].
  cbn [calls] in R. rewrite C3, C2 in R. exact R.
Qed.
Theorem measures before after k s : run clk (before ++ Restart k :: after ++ [Wall k]) (mkts 0 [] []) = Ok s -> ~ In (Restart k) after ->
  exists out d, shown s = out ++ [seconds d] /\ fits64 d /\ d = (clk (S (reads before + reads after)) - clk (reads before))%Z.
Proof.
  rewrite run_app. destruct (run clk before _) as [s1|f|] eqn:E1; cbn [bind run]; try discriminate. destruct (run_keeps _ _ _ E1) as (C1 & _). cbn in C1.
  destruct (step clk (Restart k) s1) as [s2|f|] eqn:E2; cbn [bind]; try discriminate. rewrite run_app.
  destruct (run clk after s2) as [s3|f|] eqn:E3; cbn [bind run]; try discriminate. intros E4 N. destruct (run_keeps _ _ _ E3) as (C3 & K3).
  assert (nth_error (starts s2) k = Some (clk (calls s1)) /\ calls s2 = S (calls s1)) as (N2 & C2).
  { cbn [step] in E2. destruct (nth_error (starts s1) k) eqn:EN; [|discriminate]. injection E2 as <-. cbn. rewrite upd_nth, Nat.eqb_refl, EN. auto. }
  specialize (K3 k _ N N2). cbn [step] in E4. rewrite K3 in E4. unfold elapsed, isub, arith in E4. cbn [signed] in E4.
  destruct (inr I64 (clk (calls s3) - clk (calls s1))) eqn:EI; cbn [bind] in E4; [|discriminate]. injection E4 as <-. cbn [shown].
  exists (shown s3), (clk (calls s3) - clk (calls s1))%Z. split; [reflexivity|]. unfold inr in EI. apply andb_prop in EI. destruct EI as (I1 & I2). apply Z.leb_le in I1, I2. cbn in I1, I2.
  split; [unfold fits64; lia|]. rewrite C3, C2, C1. reflexivity.
Qed.
Theorem runs p s : (forall n, 0 <= clk n < 2 ^ 63)%Z -> Forall (fun b => 0 <= b < 2 ^ 63)%Z (starts s) -> names (length (starts s)) p ->
  exists s', run clk p s = Ok s' /\ length (shown s') = (length (shown s) + length (filter (fun a => match a with Wall _ => true | _ => false end) p))%nat.
Proof.
  intros HC. revert s. induction p as [|a p IH]; intros s HF HN; cbn [run filter]; [exists s; split; [reflexivity|cbn; lia]|].
  assert (forall k, (k < length (starts s))%nat -> exists v, nth_error (starts s) k = Some v /\ (0 <= v < 2 ^ 63)%Z) as G.
  { intros k L. destruct (nth_error (starts s) k) as [v|] eqn:E; [|apply nth_error_None in E; lia]. exists v. split; [reflexivity|]. rewrite Forall_forall in HF. apply HF. eapply nth_error_In, E. }
  destruct a as [|k|k|k]; cbn [names step] in *.
  - cbn [bind]. apply (IH (mkts (S (calls s)) (starts s ++ [clk (calls s)]) (shown s))); cbn [starts shown]; [|rewrite app_length, Nat.add_1_r; exact HN]. apply Forall_app. split; [exact HF|]. constructor; [apply HC|constructor].
  - destruct HN as (L & HN). destruct (G k L) as (v & -> & HV). cbn [bind]. apply (IH (mkts (calls s) (starts s ++ [v]) (shown s))); cbn [starts shown]; [|rewrite app_length, Nat.add_1_r; exact HN]. apply Forall_app. split; [exact HF|]. constructor; [exact HV|constructor].
  - destruct HN as (L & HN). destruct (G k L) as (v & -> & HV). cbn [bind]. apply (IH (mkts (S (calls s)) (upd (starts s) k (clk (calls s))) (shown s))); cbn [starts shown]; [|rewrite upd_len; exact HN]. pose proof (HC (calls s)) as HCs. clear IH HN G HV L v. generalize k. induction HF as [|x l Hx HF IHF]; intros [|q]; cbn; constructor; auto.
  - destruct HN as (L & HN). destruct (G k L) as (v & -> & HV). pose proof (HC (calls s)). unfold elapsed, isub, arith. cbn [signed].
    replace (inr I64 (clk (calls s) - v)) with true by (symmetry; unfold inr; apply andb_true_intro; split; apply Z.leb_le; cbn; lia). cbn [bind].
    destruct (IH (mkts (S (calls s)) (starts s) (shown s ++ [seconds (clk (calls s) - v)])) HF HN) as (s' & -> & E). exists s'. split; [reflexivity|]. rewrite E. cbn [shown length]. rewrite app_length. cbn [length]. lia.
Qed.
End R.
