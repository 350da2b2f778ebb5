(** Scalar functions on floating-point numbers. *)
From Coq Require Import ZArith Reals Lra Lia Bool.
From Flocq Require Import Core BinarySingleNaN Relative.
From Verif Require Import Base.Outcome Base.ZList Model.IntModel Model.ScalarOps Model.StableOps Model.FloatModel Model.FloatMath.
From Verif Require Import Spec.FloatSpec Spec.FloatMathSpec.
From Verif Require Import Proofs.IntProofs Proofs.FloatProofs Proofs.FloatAcc Proofs.FloatCmp Proofs.FloatTol.
Local Open Scope R_scope.

Section FM.
Context (prec emax : Z) {Hp : Prec_gt_0 prec} {He : Prec_lt_emax prec emax}.
Notation flt := (binary_float prec emax).
Notation F := (fnum prec emax).
Notation fexp := (SpecFloat.fexp prec emax).
Notation rnd := (round radix2 fexp ZnearestE).
Notation one := (none_ F).
Notation zero := (B754_zero false : flt).

(** ** Signs *)
Lemma small_int z : (z = -1 \/ z = 0 \/ z = 1)%Z -> is_finite (nofZ F z) = true /\ B2R (nofZ F z) = IZR z /\ (z = 0%Z -> nofZ F z = zero).
Proof.
  intros Hz. cbn [nofZ fnum]. pose proof (binary_normalize_correct prec emax Hp He mode_NE z 0 false) as H. cbv zeta in H. unfold F2R in H. cbn [Fnum Fexp bpow] in H. rewrite Rmult_1_r in H. cbn [round_mode] in H.
  assert (G : generic_format radix2 fexp (IZR z)).
  { assert (E : (IZR z = B2R (if (z =? 0)%Z then zero else if (z =? 1)%Z then Bone (prec_gt_0_ := Hp) (prec_lt_emax_ := He) else Bopp (Bone (prec_gt_0_ := Hp) (prec_lt_emax_ := He))))).
    { destruct Hz as [->|[->| ->]]; cbn [Z.eqb Pos.eqb]; rewrite ?B2R_Bopp, ?Bone_correct; cbn; lra. } rewrite E. apply generic_format_B2R. }
  rewrite (round_generic _ _ _ _ G) in H. rewrite Rlt_bool_true in H.
  - destruct H as (H1 & H2 & H3). split; [exact H2|]. split; [exact H1|]. intros ->. reflexivity.
  - apply Rle_lt_trans with 1; [apply Rabs_le; destruct Hz as [->|[->| ->]]; lra|]. change 1 with (bpow radix2 0). apply bpow_lt. unfold Prec_gt_0, Prec_lt_emax in *. lia.
Qed.
Lemma lt_zero (x : flt) : is_nan x = false -> Bltb zero x = Rlt_bool 0 (ev prec emax x) /\ Bltb x zero = Rlt_bool (ev prec emax x) 0.
Proof. intros H. split; rewrite ltb_ev by (assumption || reflexivity); reflexivity. Qed.
Theorem signs_value (x : flt) : is_finite (fsigns prec emax x) = true /\
  B2R (fsigns prec emax x) = (if Bltb zero x then 1 else if Bltb x zero then -1 else 0) /\ (Bltb zero x = false -> Bltb x zero = false -> fsigns prec emax x = zero).
Proof.
  unfold fsigns. cbn [nlt nzero fnum]. assert (ND : Bltb zero x = true -> Bltb x zero = false).
  { intros H. destruct (is_nan x) eqn:N; [rewrite ltb_nan_l by assumption; reflexivity|]. destruct (lt_zero x N) as [E1 E2]. rewrite E1 in H. rewrite E2. revert H. case Rlt_bool_spec; [|discriminate]. intros H _. apply Rlt_bool_false. lra. }
  destruct (Bltb zero x), (Bltb x zero); try (specialize (ND eq_refl); discriminate ND); cbn [Z.b2z Z.sub Z.opp Z.add Z.pos_sub];
    match goal with |- is_finite (nofZ _ ?z) = true /\ _ => destruct (small_int z ltac:(auto)) as (H1 & H2 & H3) end; (split; [exact H1|split; [exact H2|intros; try discriminate; now apply H3]]).
Qed.

(** ** abss *)
Theorem abs_value (x : flt) : nabs F x = match x with B754_zero s => B754_zero (negb s) | _ => Babs x end.
Proof. unfold nabs, ngt. cbn [nlt nzero nneg fnum]. destruct x as [[]|[]| |[] m e H]; reflexivity. Qed.

(** ** Minimum and maximum of two *)
Theorem mins_value (x y : flt) : is_nan x = false -> is_nan y = false -> let m := nmins F x y in (m = x \/ m = y) /\ Bleb m x = true /\ Bleb m y = true.
Proof.
  intros Nx Ny. unfold nmins. cbn [nlt fnum]. destruct (Bltb x y) eqn:E; cbn zeta.
  - split; [now left|]. split; [now apply leb_refl|now apply ltb_leb].
  - split; [now right|]. split; [now apply ltb_false_leb|now apply leb_refl].
Qed.
Theorem maxs_value (x y : flt) : is_nan x = false -> is_nan y = false -> let m := nmaxs F x y in (m = x \/ m = y) /\ Bleb x m = true /\ Bleb y m = true.
Proof.
  intros Nx Ny. unfold nmaxs, ngt. cbn [nlt fnum]. destruct (Bltb y x) eqn:E; cbn zeta.
  - split; [now left|]. split; [now apply leb_refl|now apply ltb_leb].
  - split; [now right|]. split; [now apply ltb_false_leb|now apply leb_refl].
Qed.
Theorem minmax_nan2 (x y : flt) : is_nan x = true \/ is_nan y = true -> nmins F x y = y /\ nmaxs F x y = y.
Proof. intros H. unfold nmins, nmaxs, ngt. cbn [nlt fnum]. destruct H as [H|H]; [rewrite (ltb_nan_l prec emax x y H), (ltb_nan_r prec emax y x H)|rewrite (ltb_nan_r prec emax x y H), (ltb_nan_l prec emax y x H)]; auto. Qed.

(** ** Reciprocal, square root, floor, ceiling *)
Lemma one_B2R : B2R one = 1. Proof. apply Bone_correct. Qed.
Lemma one_finite : is_finite one = true. Proof. apply is_finite_Bone. Qed.
Lemma one_sign : Bsign one = false. Proof. apply Bsign_Bone. Qed.
Theorem invs_value (x : flt) : match x with
  | B754_zero s => ninvs F x = B754_infinity s
  | B754_infinity s => ninvs F x = B754_zero s
  | B754_nan => ninvs F x = B754_nan
  | _ => if Rlt_bool (Rabs (near prec emax (/ B2R x))) (bpow radix2 emax) then is_finite (ninvs F x) = true /\ B2R (ninvs F x) = near prec emax (/ B2R x) else ninvs F x = B754_infinity (Bsign x)
  end.
Proof.
  unfold ninvs. cbn [ndiv fnum]. pose proof one_finite as OF. pose proof one_B2R as OV. pose proof one_sign as OS. destruct x as [s|s| |s m e H].
  - destruct (none_ F) as [so|so| |so mo eo Ho] eqn:E; try discriminate OF; [cbn in OV; lra|]. cbn in OS. subst so. destruct s; reflexivity.
  - destruct (none_ F) as [so|so| |so mo eo Ho] eqn:E; try discriminate OF; cbn in OS; subst so; destruct s; reflexivity.
  - destruct (none_ F) as [so|so| |so mo eo Ho]; reflexivity.
  - set (x := B754_finite s m e H). pose proof (Bdiv_correct prec emax _ _ mode_NE (none_ F) x) as D. assert (NZ : B2R x <> 0) by (unfold x; cbn; destruct s; [apply Rlt_not_eq, F2R_lt_0|apply Rgt_not_eq, F2R_gt_0]; reflexivity).
    specialize (D NZ). rewrite OV, OF, OS in D. cbn [round_mode] in D. replace (1 / B2R x) with (/ B2R x) in D by (field; exact NZ). change (round radix2 fexp ZnearestE (/ B2R x)) with (near prec emax (/ B2R x)) in D.
    destruct (Rlt_bool _ _); [split; apply D|]. apply B2SF_inj. rewrite D. unfold x. cbn. destruct s; reflexivity.
Qed.
Theorem sqrts_value (x : flt) : match x with
  | B754_zero _ | B754_infinity false | B754_nan => fsqrt prec emax x = x
  | B754_infinity true | B754_finite true _ _ _ => fsqrt prec emax x = B754_nan
  | _ => is_finite (fsqrt prec emax x) = true /\ B2R (fsqrt prec emax x) = near prec emax (sqrt (B2R x))
  end.
Proof.
  destruct x as [s|[]| |[] m e H]; try reflexivity. destruct (Bsqrt_correct prec emax _ _ mode_NE (B754_finite false m e H)) as (H1 & H2 & _). split; [exact H2|exact H1].
Qed.
Lemma fix_round md (r : R) : round radix2 (FIX_exp 0) (round_mode md) r = IZR (round_mode md r).
Proof. unfold round, scaled_mantissa, cexp, FIX_exp, F2R. cbn [Fnum Fexp bpow Z.opp]. now rewrite !Rmult_1_r. Qed.
Theorem floors_value (x : flt) : is_finite x = true -> let v := ffloors prec emax x in is_finite v = true /\ B2R v = IZR (Zfloor (B2R x)) /\ Bsign v = Bsign x.
Proof.
  intros Fx v. destruct (Bnearbyint_correct prec emax _ mode_DN x) as (H1 & H2 & H3). fold v in H1, H2, H3. rewrite fix_round in H1. cbn [round_mode] in H1. change (Bnearbyint mode_DN x) with v in *. rewrite Fx in H2. repeat split; auto. apply H3. destruct v; try discriminate H2; reflexivity.
Qed.
Theorem ceils_value (x : flt) : is_finite x = true -> let v := fceils prec emax x in is_finite v = true /\ B2R v = IZR (Zceil (B2R x)) /\ Bsign v = Bsign x.
Proof.
  intros Fx v. destruct (Bnearbyint_correct prec emax _ mode_UP x) as (H1 & H2 & H3). fold v in H1, H2, H3. rewrite fix_round in H1. cbn [round_mode] in H1. change (Bnearbyint mode_UP x) with v in *. rewrite Fx in H2. repeat split; auto. apply H3. destruct v; try discriminate H2; reflexivity.
Qed.
Theorem rounding_special (x : flt) : is_finite x = false -> ffloors prec emax x = x /\ fceils prec emax x = x.
Proof. destruct x as [s|s| |s m e H]; try discriminate; intros _; split; reflexivity. Qed.

(** ** Classes *)
Theorem classes (x : flt) : match fisnans prec emax x, fisinfs prec emax x, fisfinites prec emax x with true, false, false | false, true, false | false, false, true => True | _, _, _ => False end /\
  (fisnans prec emax x = true <-> Beqb x x = false) /\ (fisfinites prec emax x = true <-> Bltb (Babs x) (B754_infinity false) = true).
Proof.
  destruct x as [s|s| |s m e H]; (split; [exact I|]); cbn [fisnans fisfinites is_nan is_finite]; try (split; split; intros; (reflexivity || discriminate || (destruct s; discriminate))).
  - split; split; intros E; try discriminate; try reflexivity. rewrite Beqb_correct in E by reflexivity. now rewrite Req_bool_true in E.
Qed.

(** ** Squares and cubes *)
Lemma mul_value (x y : flt) : is_finite x = true -> is_finite y = true ->
  if Rlt_bool (Rabs (near prec emax (B2R x * B2R y))) (bpow radix2 emax) then is_finite (nmul F x y) = true /\ B2R (nmul F x y) = near prec emax (B2R x * B2R y)
  else nmul F x y = B754_infinity (xorb (Bsign x) (Bsign y)).
Proof.
  intros Fx Fy. pose proof (Bmult_correct prec emax _ _ mode_NE x y) as D. cbn [round_mode] in D. change (round radix2 fexp ZnearestE (B2R x * B2R y)) with (near prec emax (B2R x * B2R y)) in D. destruct (Rlt_bool _ _).
  - destruct D as (D1 & D2 & _). rewrite Fx, Fy in D2. now split.
  - apply B2SF_inj. exact D.
Qed.
Theorem squares_value (x : flt) : is_finite x = true -> if Rlt_bool (near prec emax (B2R x * B2R x)) (bpow radix2 emax)
  then is_finite (fsquares prec emax x) = true /\ B2R (fsquares prec emax x) = near prec emax (B2R x * B2R x) else fsquares prec emax x = B754_infinity false.
Proof.
  intros Fx. pose proof (mul_value x x Fx Fx) as H. rewrite xorb_nilpotent in H. rewrite Rabs_pos_eq in H; [exact H|]. unfold near. rewrite <- (round_0 radix2 (FLT_exp (3 - emax - prec) prec) ZnearestE). apply round_le; [apply FLT_exp_valid; exact Hp|typeclasses eauto|]. nra.
Qed.
Theorem cubes_value (x : flt) : is_finite x = true -> is_finite (fcubes prec emax x) = true -> B2R (fcubes prec emax x) = near prec emax (near prec emax (B2R x * B2R x) * B2R x).
Proof.
  intros Fx Fc. unfold fcubes in *. destruct (mult_args prec emax _ _ Fc) as [F1 _]. pose proof (mul_value x x Fx Fx) as H1. destruct (Rlt_bool _ _); [|rewrite H1 in F1; discriminate]. destruct H1 as [_ H1].
  pose proof (mul_value (nmul F x x) x F1 Fx) as H2. rewrite H1 in H2. destruct (Rlt_bool _ _); [apply H2|rewrite H2 in Fc; discriminate].
Qed.

(** ** Ranges *)
Lemma check_true c : check_debug c (Ok true) = Ok tt. Proof. apply check_debug_true. Qed.
Theorem clamps_value c (x low high : flt) : Bleb low high = true -> is_nan x = false -> exists r, fclamps prec emax c x low high = Ok r /\ Bleb low r = true /\ Bleb r high = true /\
  (r = x \/ (r = low /\ Bltb x low = true) \/ (r = high /\ Bltb high x = true)).
Proof.
  intros HL Nx. destruct (leb_args prec emax low high HL) as [Nl Nh]. unfold fclamps. cbn [nle nlt fnum]. unfold fisnans. rewrite HL, Nx, Nl, Nh. cbn [negb orb]. rewrite !check_true. cbn [bind].
  assert (E : Bltb high low = false). { rewrite ltb_ev by assumption. apply Rlt_bool_false. apply leb_ev_true in HL. apply HL. } rewrite E.
  destruct (Bltb x low) eqn:E1; [exists low; split; [reflexivity|]; split; [now apply leb_refl|]; auto|]. destruct (Bltb high x) eqn:E2; [exists high; split; [reflexivity|]; split; [assumption|]; split; [now apply leb_refl|]; auto|].
  exists x. split; [reflexivity|]. split; [now apply ltb_false_leb|]. split; [now apply ltb_false_leb|]. auto.
Qed.
Theorem clamps_bad c (x low high : flt) : Bleb low high = false \/ is_nan x = true -> fclamps prec emax c x low high = if checked c then Fail (report c) else UB.
Proof.
  intros H. unfold fclamps. cbn [nle nlt fnum]. unfold fisnans. destruct (Bleb low high) eqn:E.
  - destruct H as [H|H]; [discriminate|]. rewrite H, check_true. cbn [negb orb bind]. destruct (check_debug_cases c false) as [(HC & [HD|HD])|(HC & _ & HD)]; [discriminate| |].
    + rewrite HC, HD. cbn [bind]. destruct (check_debug c (Ok (negb (is_nan low)))) eqn:E1, (check_debug c (Ok (negb (is_nan high)))) eqn:E2; try reflexivity.
      all: destruct (check_debug_cases c (negb (is_nan low))) as [(HC1 & _)|(HC1 & HN1 & HD1)]; destruct (check_debug_cases c (negb (is_nan high))) as [(HC2 & _)|(HC2 & HN2 & HD2)]; congruence.
    + rewrite HC, HD. reflexivity.
  - clear H. destruct (check_debug_cases c false) as [(HC & [HD|HD])|(HC & _ & HD)]; [discriminate| |rewrite HC, HD; reflexivity].
    assert (OKS : forall b, check_debug c (Ok b) = Ok tt) by (intros b; destruct (check_debug_cases c b) as [(HC1 & _)|(HC1 & HN1 & HD1)]; [assumption|congruence]). rewrite !OKS, HD. cbn [bind].
    destruct (is_nan x) eqn:Nx; [reflexivity|]. destruct (is_nan low) eqn:Nl; [reflexivity|]. destruct (is_nan high) eqn:Nh; [reflexivity|]. cbn [orb]. replace (Bltb high low) with true; [reflexivity|]. symmetry.
    rewrite ltb_ev by assumption. apply Rlt_bool_true. apply Rnot_le_lt. intros HL. assert (Bleb low high = true) by (apply leb_ev_true; auto). congruence.
Qed.
Theorem in_value c (x low high : flt) : Bleb low high = true -> exists a b, fin_open prec emax c x low high = Ok a /\ (a = true <-> Bltb low x = true /\ Bltb x high = true) /\
  fin_closed prec emax c x low high = Ok b /\ (b = true <-> Bleb low x = true /\ Bleb x high = true).
Proof.
  intros H. unfold fin_open, fin_closed, ngt, nge. cbn [nle nlt fnum]. rewrite H, !check_true. cbn [bind]. eexists _, _. split; [reflexivity|]. split; [apply andb_true_iff|]. split; [reflexivity|]. apply andb_true_iff.
Qed.
Theorem in_bad c (x low high : flt) : checked c = true -> Bleb low high = false -> fin_open prec emax c x low high = Fail (report c) /\ fin_closed prec emax c x low high = Fail (report c).
Proof. intros HC H. unfold fin_open, fin_closed. cbn [nle fnum]. now rewrite H, !check_debug_false. Qed.

(** ** Powers *)
Notation u := (uro prec).
Notation val := (@B2R prec emax).
Notation fin x := (is_finite x = true).
Notation safe := (power_fits prec emax).
Notation tiny := (bpow radix2 (2 - emax)).
Hypothesis P2 : (1 < prec)%Z.
Lemma u_half : 0 < u <= / 2.
Proof. split; [apply bpow_gt_0|]. unfold uro. change (/ 2) with (bpow radix2 (-1)). apply bpow_le. lia. Qed.
(** x^a up to n roundings *)
Definition about (v : R) (x : R) (a n : nat) : Prop := exists t, v = x ^ a * t /\ (1 - u) ^ n <= t <= (1 + u) ^ n.
Lemma rel_round r : tiny <= Rabs r -> exists d, rnd r = r * (1 + d) /\ Rabs d <= u.
Proof.
  intros H. destruct (relative_error_N_FLT_ex radix2 (3 - emax - prec) prec Hp (fun v => negb (Z.even v)) r) as (eps & B & R).
  - apply Rle_trans with (2 := H). apply bpow_le. lia.
  - exists eps. split; [exact R|]. fold (u_ro radix2 prec) in B. now rewrite u_ro_u in B.
Qed.
Lemma pow_step x a b n m v w d : about v x a n -> about w x b m -> Rabs d <= u -> about (v * w * (1 + d)) x (a + b) (n + m + 1).
Proof.
  intros (t & -> & T1 & T2) (s & -> & S1 & S2) Hd. pose proof u_half as HU. apply Rabs_le_inv in Hd. exists (t * s * (1 + d)). split; [rewrite pow_add; ring|].
  assert (0 <= (1 - u) ^ n) by (apply pow_le; lra). assert (0 <= (1 - u) ^ m) by (apply pow_le; lra). rewrite !pow_add, !pow_1. split.
  - apply Rmult_le_compat; [apply Rmult_le_pos; assumption|lra| |lra]. apply Rmult_le_compat; assumption.
  - apply Rmult_le_compat; [apply Rmult_le_pos; lra|lra| |lra]. apply Rmult_le_compat; lra.
Qed.
Lemma pow_unit y n : 0 <= y <= 1 -> y ^ n <= 1.
Proof. intros H. induction n as [|n IH]; cbn [pow]; [lra|]. assert (0 <= y ^ n) by (apply pow_le; lra). nra. Qed.
Lemma about_bounds v x a n N : about v x a n -> (n <= N)%nat -> (1 - u) ^ N * Rabs x ^ a <= Rabs v <= (1 + u) ^ N * Rabs x ^ a.
Proof.
  intros (t & -> & T1 & T2) HN. pose proof u_half as HU. assert (0 < (1 - u) ^ n) by (apply pow_lt; lra). rewrite Rabs_mult, <- RPow_abs, (Rabs_pos_eq t) by lra. assert (0 <= Rabs x ^ a) by (apply pow_le, Rabs_pos).
  assert ((1 - u) ^ N <= (1 - u) ^ n). { replace N with (n + (N - n))%nat by lia. rewrite pow_add. rewrite <- (Rmult_1_r ((1 - u) ^ n)) at 2. apply Rmult_le_compat_l; [lra|]. apply pow_unit. lra. }
  assert ((1 + u) ^ n <= (1 + u) ^ N) by (apply Rle_pow; [lra|assumption]). rewrite (Rmult_comm (Rabs x ^ a) t). split; apply Rmult_le_compat_r; lra.
Qed.
Lemma safe_all x p k : safe x p -> (1 <= k <= p)%nat -> tiny <= (1 - u) ^ p * Rabs x ^ k /\ (1 + u) ^ p * Rabs x ^ k <= fmax prec emax.
Proof.
  intros HS Hk. destruct (HS 1%nat (or_introl eq_refl)) as [L1 U1]. destruct (HS p (or_intror eq_refl)) as [L2 U2]. pose proof u_half as HU. assert (0 <= (1 - u) ^ p) by (apply pow_le; lra). assert (0 <= (1 + u) ^ p) by (apply pow_le; lra). pose proof (Rabs_pos x) as PX.
  destruct (Rle_or_lt 1 (Rabs x)) as [H1|H1].
  - split; [apply Rle_trans with (1 := L1); apply Rmult_le_compat_l; [assumption|apply Rle_pow; [assumption|lia]]|apply Rle_trans with (2 := U2); apply Rmult_le_compat_l; [assumption|apply Rle_pow; [assumption|lia]]].
  - assert (D : forall a b, (a <= b)%nat -> Rabs x ^ b <= Rabs x ^ a).
    { intros a b Hab. replace b with (a + (b - a))%nat by lia. rewrite pow_add. rewrite <- (Rmult_1_r (Rabs x ^ a)) at 2. apply Rmult_le_compat_l; [now apply pow_le|]. apply pow_unit. lra. }
    split; [apply Rle_trans with (1 := L2); apply Rmult_le_compat_l; [assumption|apply D; lia]|apply Rle_trans with (2 := U1); apply Rmult_le_compat_l; [assumption|apply D; lia]].
Qed.
Lemma mul_step (v w : flt) x a b p : fin v -> fin w -> about (val v) x a (a - 1) -> about (val w) x b (b - 1) -> safe x p -> (1 <= a)%nat -> (1 <= b)%nat -> (a + b <= p)%nat ->
  fin (nmul F v w) /\ about (val (nmul F v w)) x (a + b) (a + b - 1).
Proof.
  intros Fv Fw Av Aw HS Ha Hb HN. destruct (safe_all x p (a + b) HS ltac:(lia)) as [L U].
  assert (A0 : about (val v * val w) x (a + b) (a + b - 2)).
  { destruct Av as (t & -> & T1 & T2), Aw as (s & -> & S1 & S2). exists (t * s). split; [rewrite pow_add; ring|]. pose proof u_half as HU. replace (a + b - 2)%nat with (a - 1 + (b - 1))%nat by lia. rewrite !pow_add.
    assert (0 <= (1 - u) ^ (a - 1)) by (apply pow_le; lra). assert (0 <= (1 - u) ^ (b - 1)) by (apply pow_le; lra). split; apply Rmult_le_compat; lra. }
  destruct (about_bounds _ _ _ _ p A0 ltac:(lia)) as [B1 B2].
  assert (R : Rabs (rnd (val v * val w)) < bpow radix2 emax).
  { apply rnd_below; try assumption. unfold fmax in U. pose proof (bpow_gt_0 radix2 (emax - prec)). apply Rle_lt_trans with (1 := B2). apply Rle_lt_trans with (1 := U). lra. }
  pose proof (mul_value v w Fv Fw) as M. rewrite Rlt_bool_true in M by exact R. destruct M as [M1 M2]. split; [exact M1|]. rewrite M2.
  destruct (rel_round (val v * val w)) as (d & E & D); [lra|]. change (near prec emax (val v * val w)) with (rnd (val v * val w)). rewrite E. replace (a + b - 1)%nat with ((a - 1) + (b - 1) + 1)%nat by lia. now apply pow_step.
Qed.
Lemma mul_one (w : flt) : fin w -> fin (nmul F one w) /\ val (nmul F one w) = val w.
Proof.
  intros Fw. pose proof (mul_value one w one_finite Fw) as M. rewrite one_B2R, Rmult_1_l in M. change (near prec emax (val w)) with (rnd (val w)) in M. rewrite round_generic in M by (typeclasses eauto || apply generic_format_B2R).
  rewrite Rlt_bool_true in M by apply abs_B2R_lt_emax. exact M.
Qed.
Definition part (v : flt) (x : R) (a : nat) : Prop := (a = 0%nat /\ v = one) \/ ((1 <= a)%nat /\ fin v /\ about (val v) x a (a - 1)).
Lemma loop_acc x p n : forall res q w cnt a b, (0 <= q < 2 ^ Z.of_nat n)%Z -> part res x a -> (1 <= b)%nat -> fin w -> about (val w) x b (b - 1) -> safe x p -> (a + b * Z.to_nat q = p)%nat -> (1 <= p)%nat -> (q = 0 -> a = 0%nat)%Z ->
  (1 <= q)%Z -> exists r k, fast_pow_loop (nmul F) n res q w cnt = Ok (r, k) /\ fin r /\ about (val r) x p (p - 1).
Proof.
  induction n as [|n IH]; intros res q w cnt a b Hq PR Hb Fw Aw HS HN Hp1 _ Hq1; [cbn in Hq; lia|]. cbn [fast_pow_loop].
  pose proof (Z.div_mod q 2 ltac:(lia)) as DM. rewrite Zmod_odd in DM.
  assert (ST : exists a', part (if Z.odd q then nmul F res w else res) x a' /\ a' = (a + (if Z.odd q then b else 0))%nat).
  { eexists. split; [|reflexivity]. destruct (Z.odd q); [|now rewrite Nat.add_0_r]. right. split; [lia|]. destruct PR as [(-> & ->)|(Ha & Fr & Ar)].
    - destruct (mul_one w Fw) as [M1 M2]. split; [exact M1|]. rewrite M2. exact Aw.
    - apply mul_step with (p := p); auto. rewrite <- HN. destruct (Z.to_nat q) eqn:E; [lia|]. lia. }
  destruct ST as (a' & PA & EA). destruct (q / 2 =? 0)%Z eqn:E0.
  - apply Z.eqb_eq in E0. assert (O : Z.odd q = true) by (destruct (Z.odd q); [reflexivity|lia]). rewrite O in *. assert (q = 1)%Z by lia. subst q. eexists _, _. split; [reflexivity|]. replace p with a' by (subst a'; rewrite <- HN; cbn; lia).
    destruct PA as [(E & _)|(_ & F1 & F2)]; [lia|]. split; assumption.
  - apply Z.eqb_neq in E0. assert (HD : (1 <= q / 2)%Z) by (pose proof (Z.div_pos q 2 ltac:(lia) ltac:(lia)); lia).
    assert (NQ : Z.to_nat q = (2 * Z.to_nat (q / 2) + (if Z.odd q then 1 else 0))%nat) by (destruct (Z.odd q); lia).
    assert (BB : (a' + (b + b) * Z.to_nat (q / 2) = p)%nat) by (subst a'; rewrite <- HN, NQ; destruct (Z.odd q); ring).
    assert (B2 : (b + b <= p)%nat) by (rewrite <- BB; destruct (Z.to_nat (q / 2)) eqn:EQ; lia).
    destruct (mul_step w w x b b p Fw Fw Aw Aw HS Hb Hb B2) as [F2 A2].
    apply (IH _ _ _ _ a' (b + b)%nat); auto; try lia. split; [lia|]. apply Z.div_lt_upper_bound; [lia|]. replace (Z.of_nat (S n)) with (1 + Z.of_nat n)%Z in Hq by lia. rewrite Z.pow_add_r in Hq by lia. lia.
Qed.
Lemma one_minus n : 1 - INR n * u <= (1 - u) ^ n.
Proof.
  pose proof u_half as HU. induction n as [|n IH]; [cbn; lra|]. rewrite S_INR. cbn [pow]. assert (0 <= INR n) by apply pos_INR. destruct (Rle_or_lt 0 (1 - INR n * u)) as [P|P]; [apply Rle_trans with ((1 - u) * (1 - INR n * u)); [nra|apply Rmult_le_compat_l; lra]|].
  apply Rle_trans with 0; [nra|]. apply Rmult_le_pos; [lra|apply pow_le; lra].
Qed.
Lemma two_sides n : 2 <= (1 - u) ^ n + (1 + u) ^ n.
Proof. pose proof u_half as HU. pose proof (one_minus n). pose proof (poly n u ltac:(lra)). lra. Qed.
Lemma about_acc v x a n : about v x a n -> Rabs (v - x ^ a) <= ((1 + u) ^ n - 1) * Rabs x ^ a.
Proof.
  intros (t & -> & T1 & T2). replace (x ^ a * t - x ^ a) with (x ^ a * (t - 1)) by ring. rewrite Rabs_mult, <- RPow_abs, Rmult_comm. apply Rmult_le_compat_r; [apply pow_le, Rabs_pos|]. pose proof (two_sides n). apply Rabs_le. lra.
Qed.
Lemma start (x : flt) : about (val x) (val x) 1 (1 - 1).
Proof. exists 1. cbn. lra. Qed.
Theorem power_zero (x : flt) : ffast_pows prec emax x 0 = Ok one.
Proof. reflexivity. Qed.
Theorem power_acc (x : flt) p : fin x -> (1 <= p <= LONG_MAX)%Z -> safe (val x) (Z.to_nat p) ->
  exists r, ffast_pows prec emax x p = Ok r /\ fin r /\ Rabs (val r - val x ^ Z.to_nat p) <= ((1 + u) ^ (Z.to_nat p - 1) - 1) * Rabs (val x) ^ Z.to_nat p.
Proof.
  intros Fx HN HS. unfold LONG_MAX in HN. unfold ffast_pows, fast_pows_int, abss. cbn [signed]. rewrite (proj2 (Z.ltb_lt 0 p)) by lia. cbn [bind].
  destruct (loop_acc (val x) (Z.to_nat p) 64 one p x 0 0 1) as (r & k & E & Fr & Ar); auto; try lia.
  - left. auto.
  - apply start.
  - rewrite E. cbn [bind fst snd]. rewrite (proj2 (Z.leb_le 0 p)) by lia. exists r. split; [reflexivity|]. split; [exact Fr|]. now apply about_acc.
Qed.
Theorem power_neg_acc (x : flt) p : fin x -> (LONG_MIN < p < 0)%Z -> let n := Z.to_nat (- p) in safe (val x) n -> (1 + u) ^ n * Rabs (val x) ^ n <= bpow radix2 (emax - 2) ->
  exists r, ffast_pows prec emax x p = Ok r /\ fin r /\ Rabs (val r * val x ^ n - 1) <= (1 + u) / (1 - u) ^ (n - 1) - 1.
Proof.
  intros Fx HN n HS HT. unfold LONG_MIN in HN. unfold ffast_pows, fast_pows_int, abss. cbn [signed]. rewrite (proj2 (Z.ltb_ge 0 p)) by lia.
  assert (EN : ineg I64 p = Ok (- p)%Z). { unfold ineg, arith. replace (inr I64 (- p)) with true; [reflexivity|]. symmetry. unfold inr. cbn. lia. }
  rewrite EN. cbn [bind]. destruct (loop_acc (val x) n 64 one (- p) x 0 0 1) as (r & k & E & Fr & Ar); auto; try (unfold n; lia).
  - left. auto.
  - apply start.
  - rewrite E. cbn [bind fst snd]. rewrite (proj2 (Z.leb_gt 0 p)) by lia. exists (ninvs F r). split; [reflexivity|].
    assert (HNN : (1 <= n)%nat) by (unfold n; lia). destruct (safe_all _ n n HS ltac:(lia)) as [L U]. destruct (about_bounds _ _ _ _ n Ar ltac:(lia)) as [B1 B2].
    assert (LR : tiny <= Rabs (val r)) by lra. assert (UR : Rabs (val r) <= bpow radix2 (emax - 2)) by lra. pose proof (bpow_gt_0 radix2 (2 - emax)) as TP.
    assert (NZ : val r <> 0) by (intros Q; rewrite Q, Rabs_R0 in LR; lra).
    assert (IL : tiny <= Rabs (/ val r)). { rewrite Rabs_inv. replace (2 - emax)%Z with (- (emax - 2))%Z by lia. rewrite bpow_opp. apply Rinv_le; [lra|assumption]. }
    assert (IU : Rabs (/ val r) <= bpow radix2 (emax - 2)). { rewrite Rabs_inv. replace (emax - 2)%Z with (- (2 - emax))%Z by lia. rewrite bpow_opp. apply Rinv_le; assumption. }
    destruct (rel_round (/ val r) IL) as (d & ED & HD). pose proof (invs_value r) as IV. assert (LT : Rabs (near prec emax (/ val r)) < bpow radix2 emax).
    { change (near prec emax (/ val r)) with (rnd (/ val r)). apply rnd_below; try assumption. apply Rle_lt_trans with (1 := IU). assert (bpow radix2 emax = 4 * bpow radix2 (emax - 2)) by (change 4 with (bpow radix2 2); rewrite <- bpow_plus; f_equal; lia). assert (bpow radix2 (emax - prec) <= bpow radix2 (emax - 2)) by (apply bpow_le; lia). pose proof (bpow_gt_0 radix2 (emax - 2)). lra. }
    assert (IV2 : fin (ninvs F r) /\ val (ninvs F r) = near prec emax (/ val r)). { clear - IV NZ LT. destruct r as [s|s| |s m e H]; [exfalso; apply NZ; reflexivity|exfalso; apply NZ; reflexivity|exfalso; apply NZ; reflexivity|]. rewrite Rlt_bool_true in IV by exact LT. exact IV. }
    destruct IV2 as [IF IVV]. split; [exact IF|]. rewrite IVV. change (near prec emax (/ val r)) with (rnd (/ val r)). rewrite ED. destruct Ar as (t & ET & T1 & T2). pose proof u_half as HU. set (m := (n - 1)%nat) in *.
    assert (PL : 0 < (1 - u) ^ m) by (apply pow_lt; lra). assert (XN : val x ^ n <> 0) by (intros Q; rewrite Q in ET; lra).
    rewrite ET. replace (/ (val x ^ n * t) * (1 + d) * val x ^ n - 1) with ((1 + d) / t - 1) by (field; lra). apply Rabs_le_inv in HD.
    assert (U1 : (1 + d) / t <= (1 + u) / (1 - u) ^ m). { unfold Rdiv. apply Rmult_le_compat; [lra|left; apply Rinv_0_lt_compat; lra|lra|]. apply Rinv_le; lra. }
    assert (L1 : (1 - u) / (1 + u) ^ m <= (1 + d) / t). { unfold Rdiv. apply Rmult_le_compat; [lra|left; apply Rinv_0_lt_compat, pow_lt; lra|lra|]. apply Rinv_le; lra. }
    assert (S2 : 2 <= (1 + u) / (1 - u) ^ m + (1 - u) / (1 + u) ^ m).
    { assert (PU : 0 < (1 + u) ^ m) by (apply pow_lt; lra). assert (Q : (1 - u) ^ m * (1 + u) ^ m <= 1) by (rewrite <- Rpow_mult_distr; apply pow_unit; nra).
      pose proof (two_sides (S m)) as TS. cbn [pow] in TS. apply Rmult_le_reg_r with ((1 - u) ^ m * (1 + u) ^ m); [apply Rmult_lt_0_compat; lra|]. replace (((1 + u) / (1 - u) ^ m + (1 - u) / (1 + u) ^ m) * ((1 - u) ^ m * (1 + u) ^ m)) with ((1 + u) * (1 + u) ^ m + (1 - u) * (1 - u) ^ m) by (field; lra). lra. }
    apply Rabs_le. lra.
Qed.
End FM.
