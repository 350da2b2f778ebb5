(** Floating-point grids: sequence and linspace. *)
From Coq Require Import ZArith Reals Lra Lia Psatz.
From Flocq Require Import Core BinarySingleNaN Relative Plus_error.
From Verif Require Import Base.Outcome Base.ZList Model.IntModel Model.Index Model.Array1D Model.Expr Model.StableOps Model.FloatModel.
From Verif Require Import Spec.ExprSpec Spec.FloatSpec Spec.PlainSpec.
From Verif Require Import Proofs.ExprProofs Proofs.FloatProofs Proofs.FloatSum Proofs.FloatAcc Proofs.StableNorms Proofs.PlainAcc.
Local Open Scope R_scope.

Section GRID.
Context (prec emax : Z) {Hp : Prec_gt_0 prec} {He : Prec_lt_emax prec emax} (P2 : (1 < prec)%Z).
Notation flt := (binary_float prec emax).
Notation F := (fnum prec emax).
Notation rnd := (round radix2 (SpecFloat.fexp prec emax) ZnearestE).
Notation top := (bpow radix2 emax).
Notation big := (bpow radix2 prec).
Notation u := (uro prec).
Notation eta := (tiny prec emax).
Notation val := (@B2R prec emax).
Notation fin x := (is_finite x = true).
Notation add := (add_f prec emax).
Notation sub := (sub_f prec emax).
Notation mul := (mul_f prec emax).
Notation div := (div_f prec emax).
Notation cast := (cast_f prec emax).
Notation whole := (whole prec emax).
Notation cz i := (nofZ F i).

(** ** Conversions from integers *)
Lemma cast_in z : Rabs (rnd (IZR z)) < top -> fin (cz z) /\ val (cz z) = rnd (IZR z).
Proof.
  intros H. generalize (binary_normalize_correct prec emax Hp He mode_NE z 0 false). cbn [round_mode]. replace (F2R (Float radix2 z 0)) with (IZR z) by (unfold F2R; cbn; ring).
  rewrite Rlt_bool_true by exact H. intros (B1 & B2 & _). split; assumption.
Qed.
Lemma cast_out z : fin (cz z) -> Rabs (rnd (IZR z)) < top.
Proof.
  intros HF. generalize (binary_normalize_correct prec emax Hp He mode_NE z 0 false). cbn [round_mode]. replace (F2R (Float radix2 z 0)) with (IZR z) by (unfold F2R; cbn; ring).
  case Rlt_bool_spec; [auto|]. intros _ H. change (binary_normalize prec emax Hp He mode_NE z 0 false) with (cz z) in H. destruct (cz z); cbn in HF, H; discriminate.
Qed.
Lemma cast_small z : Rabs (IZR z) <= big -> fin (cz z) /\ val (cz z) = IZR z.
Proof.
  intros H. pose proof (big_top prec emax) as BT. assert (E : rnd (IZR z) = IZR z) by (apply round_generic; [typeclasses eauto|now apply (int_format prec emax P2)]). rewrite <- E. apply cast_in. rewrite E. lra.
Qed.
Lemma cast_whole z : Rabs (IZR z) <= big -> whole (cz z) /\ val (cz z) = IZR z.
Proof. intros H. destruct (cast_small z H) as [H1 H2]. split; [split; [exact H1|now exists z]|exact H2]. Qed.
Lemma one_big : 1 <= big.
Proof. change 1 with (bpow radix2 0). apply bpow_le. unfold Prec_gt_0 in Hp. lia. Qed.
Lemma cast_pos z : (1 <= z)%Z -> fin (cz z) -> 1 <= val (cz z).
Proof.
  intros HZ HF. destruct (cast_in z (cast_out z HF)) as [_ ->]. pose proof one_big.
  assert (E : rnd 1 = 1). { apply round_generic; [typeclasses eauto|]. apply (int_format prec emax P2 1). rewrite Rabs_pos_eq; lra. }
  rewrite <- E. apply round_le; try typeclasses eauto. apply IZR_le in HZ. exact HZ.
Qed.
Lemma cast_zero : fin (cz 0) /\ val (cz 0) = 0.
Proof. apply (cast_small 0). rewrite Rabs_R0. apply bpow_ge_0. Qed.
Lemma rnd_val (x : flt) : rnd (val x) = val x.
Proof. apply round_generic; [typeclasses eauto|apply generic_format_B2R]. Qed.
Lemma rnd0 : rnd 0 = 0. Proof. apply round_0. typeclasses eauto. Qed.
Lemma val_top (x : flt) : Rabs (val x) < top.
Proof. apply abs_B2R_lt_emax. Qed.

(** ** The element of index i *)
Definition pt (a h : flt) (i : Z) : flt := nadd F a (nmul F h (cz i)).
Lemma pt_fin a h i : fin (pt a h i) -> fin a /\ fin h /\ Rabs (rnd (IZR i)) < top /\ Rabs (rnd (val h * rnd (IZR i))) < top /\ val (pt a h i) = rnd (val a + rnd (val h * rnd (IZR i))).
Proof.
  intros H. unfold pt in *. destruct (plus_args prec emax _ _ H) as [H1 H2]. destruct (mult_args prec emax _ _ H2) as [H3 H4]. pose proof (cast_out i H4) as HC. destruct (cast_in i HC) as [_ EC].
  destruct (mult_inv prec emax _ _ H3 H4 H2) as [EM HM]. destruct (plus_inv prec emax _ _ H1 H2 H) as [EP _]. rewrite EP, EM, EC in *. repeat split; assumption.
Qed.
Lemma pt_of a h i : fin a -> fin h -> Rabs (rnd (IZR i)) < top -> Rabs (rnd (val h * rnd (IZR i))) < top -> Rabs (rnd (val a + rnd (val h * rnd (IZR i)))) < top ->
  fin (pt a h i) /\ val (pt a h i) = rnd (val a + rnd (val h * rnd (IZR i))).
Proof.
  intros HA HH H1 H2 H3. unfold pt. destruct (cast_in i H1) as [C1 C2]. rewrite <- C2 in H2, H3. destruct (mult_fin prec emax _ _ HH C1 H2) as [M1 M2]. rewrite <- M1 in H3. destruct (plus_fin prec emax _ _ HA M2 H3) as [P1 P3].
  split; [exact P3|]. now rewrite P1, M1, C2.
Qed.
Lemma pt_first a h : fin a -> fin h -> fin (pt a h 0) /\ val (pt a h 0) = val a.
Proof.
  intros HA HH. pose proof (bpow_gt_0 radix2 emax) as T. assert (E : rnd (IZR 0) = 0) by exact rnd0. assert (E2 : rnd (val h * rnd (IZR 0)) = 0) by now rewrite E, Rmult_0_r, rnd0.
  assert (E3 : rnd (val a + rnd (val h * rnd (IZR 0))) = val a) by now rewrite E2, Rplus_0_r, rnd_val.
  rewrite <- E3. apply pt_of; auto; [rewrite E, Rabs_R0; lra|rewrite E2, Rabs_R0; lra|rewrite E3; apply val_top].
Qed.
Lemma abs_between x y z T : x <= y <= z -> Rabs x < T -> Rabs z < T -> Rabs y < T.
Proof. intros [A B] H1 H2. apply Rabs_def2 in H1, H2. apply Rabs_def1; lra. Qed.
(** Points before a finite one are finite, and ordered by index. *)
Lemma pt_mono a h i j : (0 <= i <= j)%Z -> fin (pt a h j) -> fin (pt a h i) /\
  (0 <= val h -> val a <= val (pt a h i) <= val (pt a h j)) /\ (val h <= 0 -> val (pt a h j) <= val (pt a h i) <= val a).
Proof.
  intros Hij HJ. destruct (pt_fin a h j HJ) as (HA & HH & HC & HM & EJ). pose proof (bpow_gt_0 radix2 emax) as T. pose proof (val_top a) as TA. pose proof (val_top (pt a h j)) as TJ. rewrite EJ in TJ.
  assert (C0 : 0 <= rnd (IZR i)). { rewrite <- rnd0. apply round_le; try typeclasses eauto. apply IZR_le. lia. }
  assert (C1 : rnd (IZR i) <= rnd (IZR j)). { apply round_le; try typeclasses eauto. apply IZR_le. lia. }
  set (ci := rnd (IZR i)) in *. set (cj := rnd (IZR j)) in *.
  assert (TC : Rabs ci < top) by (apply (abs_between 0 ci cj); [lra|rewrite Rabs_R0; lra|exact HC]).
  destruct (Rle_or_lt 0 (val h)) as [HP|HN].
  - assert (M0 : 0 <= rnd (val h * ci)). { rewrite <- rnd0. apply round_le; try typeclasses eauto. now apply Rmult_le_pos. }
    assert (M1 : rnd (val h * ci) <= rnd (val h * cj)). { apply round_le; try typeclasses eauto. now apply Rmult_le_compat_l. }
    assert (S0 : val a <= rnd (val a + rnd (val h * ci))). { rewrite <- (rnd_val a) at 1. apply round_le; try typeclasses eauto. lra. }
    assert (S1 : rnd (val a + rnd (val h * ci)) <= rnd (val a + rnd (val h * cj))). { apply round_le; try typeclasses eauto. lra. }
    destruct (pt_of a h i HA HH TC) as [FI EI]; [apply (abs_between 0 _ (rnd (val h * cj))); [split; assumption|rewrite Rabs_R0; lra|exact HM]|apply (abs_between (val a) _ (rnd (val a + rnd (val h * cj)))); auto|].
    split; [exact FI|]. rewrite EI, EJ. fold ci cj. split; intros; [lra|]. assert (H0 : val h = 0) by lra. rewrite H0, !Rmult_0_l, !rnd0, !Rplus_0_r, !rnd_val. lra.
  - assert (M0 : rnd (val h * ci) <= 0). { rewrite <- rnd0. apply round_le; try typeclasses eauto. nra. }
    assert (M1 : rnd (val h * cj) <= rnd (val h * ci)). { apply round_le; try typeclasses eauto. nra. }
    assert (S0 : rnd (val a + rnd (val h * ci)) <= val a). { rewrite <- (rnd_val a) at 2. apply round_le; try typeclasses eauto. lra. }
    assert (S1 : rnd (val a + rnd (val h * cj)) <= rnd (val a + rnd (val h * ci))). { apply round_le; try typeclasses eauto. lra. }
    destruct (pt_of a h i HA HH TC) as [FI EI]; [apply (abs_between (rnd (val h * cj)) _ 0); [split; assumption|exact HM|rewrite Rabs_R0; lra]|apply (abs_between (rnd (val a + rnd (val h * cj))) _ (val a)); auto|].
    split; [exact FI|]. rewrite EI, EJ. fold ci cj. split; intros; [lra|]. split; assumption.
Qed.
(** ** Errors *)
Lemma sub_rel (x y : flt) : fin (nsub F x y) -> Rabs (val (nsub F x y) - (val x - val y)) <= u * Rabs (val x - val y).
Proof.
  intros H. destruct (minus_args prec emax x y H) as [Hx Hy]. destruct (minus_inv prec emax x y Hx Hy H) as [E _]. rewrite E. clear E H.
  destruct (FLT_plus_error_N_ex radix2 (3 - emax - prec) prec (fun v => negb (Z.even v)) (val x) (- val y)) as (eps & B & R).
  - apply generic_format_B2R.
  - apply generic_format_opp, generic_format_B2R.
  - change (round radix2 (FLT_exp (3 - emax - prec) prec) (Znearest (fun v : Z => negb (Z.even v))) (val x + - val y)) with (rnd (val x - val y)) in R. rewrite R. change (val x + - val y) with (val x - val y).
    replace ((val x - val y) * (1 + eps) - (val x - val y)) with (eps * (val x - val y)) by ring. rewrite Rabs_mult. apply Rmult_le_compat_r; [apply Rabs_pos|].
    rewrite u_ro_u in B. pose proof (u_pos prec). apply Rle_trans with (1 := B). apply Rmult_le_reg_r with (1 + u); [lra|]. unfold Rdiv. rewrite Rmult_assoc, Rinv_l by lra. nra.
Qed.
Lemma small_int i : (0 <= i)%Z -> IZR i <= big -> Rabs (IZR i) <= big.
Proof. intros H. apply IZR_le in H. now rewrite Rabs_pos_eq. Qed.
(** A point whose step is known up to e. *)
Lemma pt_err a h i s e : (0 <= i)%Z -> IZR i <= big -> fin (pt a h i) -> Rabs (val h - s) <= e ->
  Rabs (val (pt a h i) - (val a + IZR i * s)) <= u * Rabs (val a + IZR i * s) + (1 + u) * (u * (IZR i * Rabs s) + (1 + u) * (IZR i * e) + eta).
Proof.
  intros HI HB HF HE. destruct (cast_small i (small_int i HI HB)) as [C1 C2]. assert (I0 : 0 <= IZR i) by now apply IZR_le.
  pose proof (plus_args prec emax _ _ HF) as [F1 F2]. pose proof (mult_args prec emax _ _ F2) as [F3 F4]. destruct (mult_inv prec emax _ _ F3 F4 F2) as [EM _]. rewrite C2 in EM.
  pose proof (add_rel prec emax a (nmul F h (cz i)) HF) as RA. 
  change (val (pt a h i)) with (val (nadd F a (nmul F h (cz i)))). set (P := val (nmul F h (cz i))) in *. set (V := val (nadd F a (nmul F h (cz i)))) in *.
  assert (EP : Rabs (P - IZR i * s) <= u * (IZR i * Rabs s) + (1 + u) * (IZR i * e) + eta).
  { rewrite EM. replace (IZR i * Rabs s) with (Rabs (IZR i * s)) by (rewrite Rabs_mult, (Rabs_pos_eq (IZR i)) by assumption; reflexivity). apply quot_err; [exact Hp|].
    replace (val h * IZR i - IZR i * s) with (IZR i * (val h - s)) by ring. rewrite Rabs_mult, (Rabs_pos_eq (IZR i)) by assumption. now apply Rmult_le_compat_l. }
  set (E := u * (IZR i * Rabs s) + (1 + u) * (IZR i * e) + eta) in *. set (t := val a + IZR i * s). pose proof (u_pos prec) as U.
  assert (T : Rabs (val a + P) <= Rabs t + E). { replace (val a + P) with (t + (P - IZR i * s)) by (unfold t; ring). eapply Rle_trans; [apply Rabs_triang|]. lra. }
  replace (V - t) with ((V - (val a + P)) + (P - IZR i * s)) by (unfold t; ring). eapply Rle_trans; [apply Rabs_triang|].
  assert (u * Rabs (val a + P) <= u * (Rabs t + E)) by (apply Rmult_le_compat_l; lra). 
  assert (Rabs (V - (val a + P)) <= u * Rabs (val a + P)) by exact RA. lra.
Qed.

(** ** sequence *)
Lemma seq_is c n a h R : x_seq c add mul cast n a h = Ok R -> ssize R = n /\ forall i, sun R i = Ok (pt a h i).
Proof. unfold x_seq. destruct (check_debug c _) as [[]| |]; cbn [bind]; intros H; try discriminate. injection H as <-. split; reflexivity. Qed.
Theorem seq_defined c n a h : (0 <= n)%Z -> exists R, x_seq c add mul cast n a h = Ok R /\ ssize R = n.
Proof. intros H. unfold x_seq. replace (-1 <? n)%Z with true by lia. rewrite check_debug_true. cbn [bind]. eexists. split; reflexivity. Qed.
Theorem seq_first c n a h R : x_seq c add mul cast n a h = Ok R -> fin a -> fin h -> exists v, sun R 0 = Ok v /\ fin v /\ val v = val a.
Proof. intros H HA HH. destruct (seq_is _ _ _ _ _ H) as [_ E]. exists (pt a h 0). split; [apply E|]. now apply pt_first. Qed.
Theorem seq_ordered c n a h R : x_seq c add mul cast n a h = Ok R -> forall j w, (0 <= j < n)%Z -> sun R j = Ok w -> fin w -> forall i, (0 <= i <= j)%Z ->
  exists v, sun R i = Ok v /\ fin v /\ (0 <= val h -> val a <= val v <= val w) /\ (val h <= 0 -> val w <= val v <= val a).
Proof.
  intros H j w HJ EW FW i HI. destruct (seq_is _ _ _ _ _ H) as [_ E]. rewrite E in EW. injection EW as <-. exists (pt a h i). split; [apply E|]. now apply pt_mono.
Qed.
Theorem seq_error c n a h R : x_seq c add mul cast n a h = Ok R -> (n <= 2 ^ prec)%Z -> forall i v, (0 <= i < n)%Z -> sun R i = Ok v -> fin v ->
  Rabs (val v - (val a + IZR i * val h)) <= u * Rabs (val a + IZR i * val h) + (1 + u) * (u * (IZR i * Rabs (val h)) + eta).
Proof.
  intros H HN i v HI EV FV. destruct (seq_is _ _ _ _ _ H) as [_ E]. rewrite E in EV. injection EV as <-.
  assert (HB : IZR i <= big). { replace big with (IZR (2 ^ prec)) by (rewrite <- IZR_Zpower by (unfold Prec_gt_0 in Hp; lia); reflexivity). apply IZR_le. lia. }
  pose proof (pt_err a h i (val h) 0 ltac:(lia) HB FV) as B. rewrite Rminus_diag_eq, Rabs_R0 in B by reflexivity. specialize (B (Rle_refl 0)). rewrite !Rmult_0_r, Rplus_0_r in B. exact B.
Qed.
Lemma whole_fin (x : flt) : whole x -> fin x. Proof. now intros [H _]. Qed.
Lemma pt_whole a h i : whole a -> whole h -> (0 <= i)%Z -> IZR i <= big -> IZR i * Rabs (val h) <= big -> Rabs (val a + IZR i * val h) <= big ->
  whole (pt a h i) /\ val (pt a h i) = val a + IZR i * val h.
Proof.
  intros HA HH HI HB HM HS. destruct (cast_whole i (small_int i HI HB)) as [C1 C2]. assert (I0 : 0 <= IZR i) by now apply IZR_le.
  assert (HM' : Rabs (val h * val (cz i)) <= big). { rewrite C2, Rabs_mult, (Rabs_pos_eq (IZR i)) by assumption. lra. }
  destruct (mul_whole prec emax P2 h (cz i) HH C1 HM') as [M1 M2]. rewrite C2 in M2.
  assert (HS' : Rabs (val a + val (FloatSpec.fmul prec emax h (cz i))) <= big) by (rewrite M2, (Rmult_comm (val h)); exact HS).
  destruct (add_whole prec emax P2 a _ HA M1 HS') as [A1 A2]. split; [exact A1|]. etransitivity; [exact A2|]. rewrite M2. ring.
Qed.
Theorem seq_whole c n a h R : x_seq c add mul cast n a h = Ok R -> (n <= 2 ^ prec)%Z -> whole a -> whole h -> Rabs (val a) + IZR n * Rabs (val h) <= big ->
  forall i, (0 <= i < n)%Z -> exists v, sun R i = Ok v /\ whole v /\ val v = val a + IZR i * val h.
Proof.
  intros H HN HA HH HB i HI. destruct (seq_is _ _ _ _ _ H) as [_ E]. exists (pt a h i). split; [apply E|]. 
  assert (HI' : IZR i <= IZR n) by (apply IZR_le; lia). assert (I0 : 0 <= IZR i) by (apply IZR_le; lia). pose proof (Rabs_pos (val h)) as P. pose proof (Rabs_pos (val a)).
  assert (HX : IZR i * Rabs (val h) <= IZR n * Rabs (val h)) by now apply Rmult_le_compat_r.
  apply pt_whole; auto; [lia| |lra|].
  - replace big with (IZR (2 ^ prec)) by (rewrite <- IZR_Zpower by (unfold Prec_gt_0 in Hp; lia); reflexivity). apply IZR_le. lia.
  - eapply Rle_trans; [apply Rabs_triang|]. rewrite Rabs_mult, (Rabs_pos_eq (IZR i)) by assumption. lra.
Qed.

(** ** linspace *)
Definition step (n : Z) (a b : flt) : flt := ndiv F (nsub F b a) (cz (n - 1)).
Lemma lin_is c n a b R : (2 <= n)%Z -> x_linspace c add sub mul div cast n a b = Ok R -> ssize R = n /\ forall i, sun R i = Ok (pt a (step n a b) i).
Proof.
  intros HN. unfold x_linspace. replace (0 <? n)%Z with true by lia. rewrite check_debug_true. cbn [bind]. unfold sub_f, cast_f, div_f. cbn [bind]. unfold lsub, lret. destruct (in_long (n - 1)); [|discriminate]. cbn [bind].
  intros H. exact (seq_is _ _ _ _ _ H).
Qed.
Theorem lin_defined c n a b : (1 <= n <= LONG_MAX)%Z -> exists R, x_linspace c add sub mul div cast n a b = Ok R /\ ssize R = n.
Proof.
  intros HN. unfold x_linspace. replace (0 <? n)%Z with true by lia. rewrite check_debug_true. cbn [bind]. unfold sub_f, cast_f, div_f. cbn [bind]. rewrite lsub_ok by (unfold LONG_MIN; lia). cbn [bind].
  apply seq_defined. lia.
Qed.
(** The step has the sign of the distance. *)
Lemma step_fin n a b : (2 <= n)%Z -> fin (cz (n - 1)) -> fin (step n a b) -> fin a /\ fin b /\ fin (nsub F b a) /\ val (step n a b) = rnd (val (nsub F b a) / val (cz (n - 1))).
Proof.
  intros HN HC HS. pose proof (cast_pos (n - 1) ltac:(lia) HC) as C1. destruct (div_fin prec emax Hp He (nsub F b a) (cz (n - 1)) HC ltac:(lra) HS) as [H1 H2]. destruct (minus_args prec emax b a H1) as [H3 H4]. repeat split; assumption.
Qed.
Lemma step_sign n a b : (2 <= n)%Z -> fin (cz (n - 1)) -> fin (step n a b) -> (val a <= val b -> 0 <= val (step n a b)) /\ (val b <= val a -> val (step n a b) <= 0).
Proof.
  intros HN HC HS. destruct (step_fin n a b HN HC HS) as (HA & HB & HD & E). pose proof (cast_pos (n - 1) ltac:(lia) HC) as C1. destruct (minus_inv prec emax b a HB HA HD) as [ED _]. rewrite E, ED. clear E ED.
  assert (I0 : 0 < / val (cz (n - 1))) by (apply Rinv_0_lt_compat; lra). split; intros H.
  - assert (D0 : 0 <= rnd (val b - val a)). { rewrite <- rnd0. apply round_le; try typeclasses eauto. lra. } rewrite <- rnd0. apply round_le; try typeclasses eauto. unfold Rdiv. apply Rmult_le_pos; lra.
  - assert (D0 : rnd (val b - val a) <= 0). { rewrite <- rnd0. apply round_le; try typeclasses eauto. lra. } rewrite <- rnd0. apply round_le; try typeclasses eauto. unfold Rdiv. nra.
Qed.
(** If the last element is finite then so are all; they start at a and go monotonically towards the last one, in the direction of b. *)
Theorem lin_ordered c n a b R : (2 <= n)%Z -> x_linspace c add sub mul div cast n a b = Ok R -> forall w, sun R (n - 1) = Ok w -> fin w ->
  (exists v, sun R 0 = Ok v /\ fin v /\ val v = val a) /\
  forall i j, (0 <= i <= j)%Z -> (j < n)%Z -> exists v v', sun R i = Ok v /\ sun R j = Ok v' /\ fin v /\ fin v' /\
    (val a <= val b -> val a <= val v <= val v') /\ (val b <= val a -> val v' <= val v <= val a).
Proof.
  intros HN H w EW FW. destruct (lin_is c n a b R HN H) as [_ E]. rewrite E in EW. injection EW as <-. destruct (plus_args prec emax _ _ FW) as [F1 F2]. destruct (mult_args prec emax _ _ F2) as [F3 F4].
  destruct (step_sign n a b HN F4 F3) as [S1 S2]. split.
  - exists (pt a (step n a b) 0). split; [apply E|]. now apply pt_first.
  - intros i j HI HJ. destruct (pt_mono a (step n a b) j (n - 1) ltac:(lia) FW) as (FJ & _ & _). destruct (pt_mono a (step n a b) i j HI FJ) as (FI & M1 & M2).
    exists (pt a (step n a b) i), (pt a (step n a b) j). split; [apply E|]. split; [apply E|]. split; [exact FI|]. split; [exact FJ|]. split; intros HH; [exact (M1 (S1 HH))|exact (M2 (S2 HH))].
Qed.
Theorem lin_error c n a b R : (2 <= n)%Z -> (n <= 2 ^ prec)%Z -> x_linspace c add sub mul div cast n a b = Ok R -> forall i v, (0 <= i < n)%Z -> sun R i = Ok v -> fin v ->
  let m := IZR (n - 1) in let t := val a + IZR i * ((val b - val a) / m) in
  Rabs (val v - t) <= u * Rabs t + ((1 + u) ^ 4 - (1 + u)) * (IZR i / m * Rabs (val b - val a)) + (1 + u) * ((1 + u) * IZR i + 1) * eta.
Proof.
  intros HN HB H i v HI EV FV. cbv zeta. destruct (lin_is c n a b R HN H) as [_ E]. rewrite E in EV. injection EV as <-.
  assert (BZ : forall z, (z <= 2 ^ prec)%Z -> IZR z <= big). { intros z Hz. replace big with (IZR (2 ^ prec)) by (rewrite <- IZR_Zpower by (unfold Prec_gt_0 in Hp; lia); reflexivity). now apply IZR_le. }
  assert (M1 : 1 <= IZR (n - 1)) by (apply IZR_le; lia). destruct (cast_small (n - 1)) as [C1 C2]; [rewrite Rabs_pos_eq by lra; apply BZ; lia|].
  destruct (plus_args prec emax _ _ FV) as [F1 F2]. destruct (mult_args prec emax _ _ F2) as [F3 F4]. destruct (step_fin n a b HN C1 F3) as (HA & HBB & HD & ES). rewrite C2 in ES.
  set (m := IZR (n - 1)) in *. set (d := val b - val a). pose proof (u_pos prec) as U. pose proof (sub_rel b a HD) as SR. fold d in SR.
  assert (IM : 0 < / m) by (apply Rinv_0_lt_compat; lra).
  assert (ER : Rabs (val (step n a b) - d / m) <= u * Rabs (d / m) + (1 + u) * (u * Rabs (d / m)) + eta).
  { rewrite ES. apply quot_err; [exact Hp|]. replace (val (nsub F b a) / m - d / m) with ((val (nsub F b a) - d) * / m) by (field; lra). unfold Rdiv. rewrite !Rabs_mult, (Rabs_pos_eq (/ m)) by lra. rewrite <- Rmult_assoc. apply Rmult_le_compat_r; lra. }
  pose proof (pt_err a (step n a b) i (d / m) _ ltac:(lia) (BZ i ltac:(lia)) FV ER) as B. eapply Rle_trans; [exact B|]. apply Req_le.
  replace (IZR i / m * Rabs d) with (IZR i * Rabs (d / m)). 2:{ unfold Rdiv. rewrite Rabs_mult, (Rabs_pos_eq (/ m)) by lra. ring. }
  set (q := Rabs (d / m)). set (x := IZR i). set (tt := Rabs (val a + x * (d / m))). ring.
Qed.
Theorem lin_last c n a b R : (2 <= n)%Z -> (n <= 2 ^ prec)%Z -> x_linspace c add sub mul div cast n a b = Ok R -> forall w, sun R (n - 1) = Ok w -> fin w ->
  Rabs (val w - val b) <= u * Rabs (val b) + ((1 + u) ^ 4 - (1 + u)) * Rabs (val b - val a) + (1 + u) * ((1 + u) * IZR (n - 1) + 1) * eta.
Proof.
  intros HN HB H w EW FW. pose proof (lin_error c n a b R HN HB H (n - 1) w ltac:(lia) EW FW) as B. cbv zeta in B. assert (M1 : 1 <= IZR (n - 1)) by (apply IZR_le; lia).
  replace (val a + IZR (n - 1) * ((val b - val a) / IZR (n - 1))) with (val b) in B by (field; lra). replace (IZR (n - 1) / IZR (n - 1) * Rabs (val b - val a)) with (Rabs (val b - val a)) in B by (field; lra). exact B.
Qed.
(** Whole end points whose distance is a multiple of n - 1. *)
Theorem lin_whole c n a b R k : (2 <= n)%Z -> (n - 1 <= 2 ^ prec)%Z -> x_linspace c add sub mul div cast n a b = Ok R -> whole a -> whole b -> Rabs (val a) <= big -> Rabs (val b) <= big ->
  Rabs (val b - val a) <= big -> val b - val a = IZR (k * (n - 1)) -> forall i, (0 <= i < n)%Z -> exists v, sun R i = Ok v /\ whole v /\ val v = val a + IZR i * IZR k.
Proof.
  intros HN HM H HA HB BA BB BD HK i HI. destruct (lin_is c n a b R HN H) as [_ E]. exists (pt a (step n a b) i). split; [apply E|].
  assert (BZ : forall z, (z <= 2 ^ prec)%Z -> IZR z <= big). { intros z Hz. replace big with (IZR (2 ^ prec)) by (rewrite <- IZR_Zpower by (unfold Prec_gt_0 in Hp; lia); reflexivity). now apply IZR_le. }
  assert (M1 : 1 <= IZR (n - 1)) by (apply IZR_le; lia). destruct (cast_small (n - 1)) as [C1 C2]; [rewrite Rabs_pos_eq by lra; now apply BZ|].
  pose proof (big_top prec emax) as BT.
  assert (ED : rnd (val b - val a) = val b - val a) by (apply round_generic; [typeclasses eauto|]; rewrite HK in BD |- *; now apply (int_format prec emax P2)).
  destruct (minus_fin prec emax b a (whole_fin b HB) (whole_fin a HA)) as [D1 D2]; [rewrite ED; lra|]. rewrite ED in D1.
  rewrite mult_IZR in HK. assert (KB : Rabs (IZR k) <= big). { rewrite HK, Rabs_mult, (Rabs_pos_eq (IZR (n - 1))) in BD by lra. pose proof (Rabs_pos (IZR k)). nra. }
  assert (EQ : rnd (val (nsub F b a) / val (cz (n - 1))) = IZR k). { rewrite D1, C2, HK. replace (IZR k * IZR (n - 1) / IZR (n - 1)) with (IZR k) by (field; lra). apply round_generic; [typeclasses eauto|now apply (int_format prec emax P2)]. }
  assert (W : whole (step n a b) /\ val (step n a b) = IZR k).
  { pose proof (Bdiv_correct prec emax Hp He mode_NE (nsub F b a) (cz (n - 1)) ltac:(rewrite C2; lra)) as BC. cbn [round_mode] in BC. rewrite EQ in BC. rewrite Rlt_bool_true in BC by lra. destruct BC as (Q1 & Q2 & _). rewrite D2 in Q2.
    split; [split; [exact Q2|exists k; exact Q1]|exact Q1]. }
  destruct W as [W1 W2]. rewrite <- W2. assert (I0 : 0 <= IZR i) by (apply IZR_le; lia). assert (I1 : IZR i <= IZR (n - 1)) by (apply IZR_le; lia).
  apply pt_whole; auto; [lia|apply Rle_trans with (1 := I1); now apply BZ| |]; rewrite W2.
  - rewrite HK, Rabs_mult, (Rabs_pos_eq (IZR (n - 1))) in BD by lra. pose proof (Rabs_pos (IZR k)). nra.
  - apply Rabs_le_inv in BA, BB. assert (HB2 : val b = val a + IZR k * IZR (n - 1)) by lra. apply Rabs_le. destruct (Rle_or_lt 0 (IZR k)); split; nra.
Qed.
(** When the distance of the end points is not finite no element is, and the first one is NaN. *)
Lemma div_nonfin (x y : flt) : is_finite x = false -> is_finite (ndiv F x y) = false.
Proof. change (ndiv F x y) with (Bdiv mode_NE x y). destruct x as [b|b| |b m e h], y as [b'|b'| |b' m' e' h']; intros H; try discriminate; reflexivity. Qed.
Lemma cz0 : cz 0 = B754_zero false. Proof. reflexivity. Qed.
Theorem lin_overflow c n a b R : (2 <= n)%Z -> x_linspace c add sub mul div cast n a b = Ok R -> is_finite (Bminus mode_NE b a) = false ->
  sun R 0 = Ok B754_nan /\ forall i v, (0 <= i < n)%Z -> sun R i = Ok v -> is_finite v = false.
Proof.
  intros HN H HD. destruct (lin_is c n a b R HN H) as [_ E]. change (Bminus mode_NE b a) with (nsub F b a) in HD. pose proof (div_nonfin _ (cz (n - 1)) HD) as HS. fold (step n a b) in HS. split.
  - rewrite E. f_equal. unfold pt. rewrite cz0. destruct (step n a b) as [s|s| |s m e h]; try discriminate; cbn; destruct a; reflexivity.
  - intros i v HI EV. rewrite E in EV. injection EV as <-. destruct (is_finite (pt a (step n a b) i)) eqn:FP; [|reflexivity]. destruct (pt_fin a _ i FP) as (_ & HH & _). congruence.
Qed.
End GRID.

(** ** double: claims that fail *)
Notation lin64 c n a b := (x_linspace c (add_f 53 1024) (sub_f 53 1024) (mul_f 53 1024) (div_f 53 1024) (cast_f 53 1024) n a b).
Notation seq64 c n a h := (x_seq c (add_f 53 1024) (mul_f 53 1024) (cast_f 53 1024) n a h).
Lemma lin_at c n a b i : (2 <= n <= LONG_MAX)%Z -> exists R, lin64 c n a b = Ok R /\ sun R i = Ok (pt 53 1024 a (step 53 1024 n a b) i).
Proof. intros H. destruct (lin_defined 53 1024 c n a b ltac:(lia)) as (R & E & _). exists R. split; [exact E|]. now apply (lin_is 53 1024 c n a b R ltac:(lia) E). Qed.
Theorem lin_end_below c : exists R w, lin64 c 50 (dbl 0 0) (dbl 1 0) = Ok R /\ sun R 49 = Ok w /\ Bltb w (dbl 1 0) = true.
Proof. destruct (lin_at c 50 (dbl 0 0) (dbl 1 0) 49) as (R & E & S); [unfold LONG_MAX; lia|]. exists R, (pt 53 1024 (dbl 0 0) (step 53 1024 50 (dbl 0 0) (dbl 1 0)) 49). split; [exact E|]. split; [exact S|]. vm_compute. reflexivity. Qed.
Theorem lin_end_above c : exists R w, lin64 c 8 (dbl 0 0) (dbl 29 0) = Ok R /\ sun R 7 = Ok w /\ is_finite w = true /\ Bltb (dbl 29 0) w = true.
Proof. destruct (lin_at c 8 (dbl 0 0) (dbl 29 0) 7) as (R & E & S); [unfold LONG_MAX; lia|]. exists R, (pt 53 1024 (dbl 0 0) (step 53 1024 8 (dbl 0 0) (dbl 29 0)) 7). split; [exact E|]. split; [exact S|]. split; vm_compute; reflexivity. Qed.
Theorem lin_repeats c : exists R v w, lin64 c 3 (dbl 1 0) (dbl 4503599627370497 (-52)) = Ok R /\ sun R 0 = Ok v /\ sun R 1 = Ok w /\ Bltb (dbl 1 0) (dbl 4503599627370497 (-52)) = true /\ Beqb v w = true.
Proof.
  destruct (lin_at c 3 (dbl 1 0) (dbl 4503599627370497 (-52)) 0) as (R & E & S); [unfold LONG_MAX; lia|]. destruct (lin_is 53 1024 c 3 (dbl 1 0) (dbl 4503599627370497 (-52)) R ltac:(lia) E) as [_ A].
  exists R, (pt 53 1024 (dbl 1 0) (step 53 1024 3 (dbl 1 0) (dbl 4503599627370497 (-52))) 0), (pt 53 1024 (dbl 1 0) (step 53 1024 3 (dbl 1 0) (dbl 4503599627370497 (-52))) 1).
  split; [exact E|]. split; [apply A|]. split; [apply A|]. split; vm_compute; reflexivity.
Qed.
(** From the lowest to the largest double. *)
Theorem lin_whole_line c : exists R v, lin64 c 3 (dbl (- (2 ^ 53 - 1)) 971) (dbl (2 ^ 53 - 1) 971) = Ok R /\ is_finite (dbl (2 ^ 53 - 1) 971) = true /\ sun R 0 = Ok v /\ is_nan v = true.
Proof.
  destruct (lin_at c 3 (dbl (- (2 ^ 53 - 1)) 971) (dbl (2 ^ 53 - 1) 971) 0) as (R & E & S); [unfold LONG_MAX; lia|]. exists R, (pt 53 1024 (dbl (- (2 ^ 53 - 1)) 971) (step 53 1024 3 (dbl (- (2 ^ 53 - 1)) 971) (dbl (2 ^ 53 - 1) 971)) 0).
  split; [exact E|]. split; [vm_compute; reflexivity|]. split; [exact S|]. vm_compute. reflexivity.
Qed.
