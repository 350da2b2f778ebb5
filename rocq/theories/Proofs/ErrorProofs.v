(** Error measures: values, accuracy, arrays. *)
From Coq Require Import ZArith Reals Lra Lia.
From Flocq Require Import Core BinarySingleNaN Plus_error.
From Verif Require Import Base.Outcome Base.ZList Model.Index Model.Array1D Model.Array2D Model.Expr Model.Reduce Model.StableOps Model.FloatModel Model.ErrorTools.
From Verif Require Import Spec.ArraySpec Spec.Store1DSpec Spec.SliceSpec Spec.MatrixSpec Spec.Matrix2Spec Spec.ExprSpec Spec.ReduceSpec Spec.NormSpec Spec.FloatSpec.
From Verif Require Import Proofs.Array1DProofs Proofs.MatrixProofs Proofs.Array2DProofs Proofs.Array2DSim Proofs.ExprProofs Proofs.ExprMore Proofs.ReduceProofs Proofs.ReduceThms Proofs.StableLoops Proofs.FloatProofs Proofs.FloatSum Proofs.FloatAcc Proofs.FloatCmp Proofs.FloatTol Proofs.NormThms Proofs.StableNorms.
Local Open Scope R_scope.

Section ERR.
Context (prec emax : Z) {Hp : Prec_gt_0 prec} {He : Prec_lt_emax prec emax}.
Notation flt := (binary_float prec emax).
Notation fexp := (SpecFloat.fexp prec emax).
Notation rnd := (round radix2 fexp ZnearestE).
Notation F := (fnum prec emax).
Notation top := (bpow radix2 emax).
Notation fzero := (FloatSpec.fzero prec emax).
Notation near := (FloatSpec.near prec emax).
Notation ev := (ev prec emax).
Notation u := (uro prec).
Implicit Types x y z a b tol : flt.

(** ** Scalars *)
Lemma sub_acc x y : Rabs (near (B2R x - B2R y) - (B2R x - B2R y)) <= u * Rabs (B2R x - B2R y).
Proof.
  destruct (FLT_plus_error_N_ex radix2 (3 - emax - prec) prec (fun v => negb (Z.even v)) (B2R x) (B2R (Bopp y))) as (eps & B & R).
  - apply generic_format_B2R.
  - apply generic_format_B2R.
  - rewrite B2R_Bopp in R. change (round radix2 _ _ (B2R x + - B2R y)) with (near (B2R x - B2R y)) in R. change (B2R x + - B2R y) with (B2R x - B2R y) in R. rewrite R.
    assert (B' : Rabs eps <= u). { apply Rle_trans with (1 := B). rewrite u_ro_u. pose proof (u_pos prec). apply Rmult_le_reg_r with (1 + u); [lra|]. unfold Rdiv. rewrite Rmult_assoc, Rinv_l by lra. nra. }
    replace ((B2R x - B2R y) * (1 + eps) - (B2R x - B2R y)) with (eps * (B2R x - B2R y)) by ring. rewrite Rabs_mult. apply Rmult_le_compat_r; [apply Rabs_pos|exact B'].
Qed.
Lemma abs_abs r s : Rabs (Rabs r - Rabs s) <= Rabs (r - s).
Proof. apply Rabs_triang_inv2. Qed.
Lemma u_small : u <= / 2.
Proof. unfold FloatSpec.uro. change (/ 2) with (bpow radix2 (-1)). apply bpow_le. unfold Prec_gt_0 in Hp. lia. Qed.
Theorem abs_error_value x y : is_finite x = true -> is_finite y = true -> is_finite (abs_error F x y) = true ->
  B2R (abs_error F x y) = Rabs (near (B2R x - B2R y)) /\ Rabs (B2R (abs_error F x y) - Rabs (B2R x - B2R y)) <= u * Rabs (B2R x - B2R y) /\
  (B2R (abs_error F x y) = 0 <-> B2R x = B2R y).
Proof.
  intros Hx Hy HF. unfold abs_error in *. assert (HD : is_finite (nsub F x y) = true).
  { revert HF. unfold nabs. destruct (ngt F (nsub F x y) (nzero F)); [trivial|]. destruct (nsub F x y) as [s|s| |s m e h]; cbn; trivial. }
  rewrite nabs_real. destruct (minus_inv prec emax x y Hx Hy HD) as [E _]. rewrite E. change (rnd (B2R x - B2R y)) with (near (B2R x - B2R y)).
  pose proof (sub_acc x y) as A. pose proof (abs_abs (near (B2R x - B2R y)) (B2R x - B2R y)) as T. split; [reflexivity|]. split; [lra|]. pose proof u_small as US. pose proof (u_pos prec) as UP. split.
  - intros Z. rewrite Z in T. assert (Rabs (B2R x - B2R y) = 0) as W. { pose proof (Rabs_pos (B2R x - B2R y)). rewrite Rminus_0_l, Rabs_Ropp, Rabs_Rabsolu in T. nra. }
    destruct (Req_dec (B2R x - B2R y) 0) as [W'|W']; [lra|]. apply Rabs_no_R0 in W'. contradiction.
  - intros ->. rewrite Rminus_diag_eq by reflexivity. unfold FloatSpec.near. rewrite round_0 by typeclasses eauto. apply Rabs_R0.
Qed.
Theorem abs_error_self x : is_finite x = true -> abs_error F x x = B754_zero true.
Proof.
  intros Hx. unfold abs_error. generalize (Bminus_correct prec emax Hp He mode_NE x x Hx Hx). change (Bminus mode_NE x x) with (nsub F x x). replace (B2R x - B2R x) with 0 by ring. rewrite round_0, Rabs_R0 by typeclasses eauto.
  rewrite Rlt_bool_true by apply bpow_gt_0. rewrite Rcompare_Eq by reflexivity. intros (A & B & C). destruct (nsub F x x) as [s|s| |s m e h]; try discriminate.
  - cbn [Bsign] in C. replace s with false by (rewrite C; now destruct (Bsign x)). reflexivity.
  - exfalso. cbn [B2R] in A. revert A. apply F2R_neq_0. destruct s; discriminate.
Qed.
Lemma iszero x : neqb F x (nzero F) = true <-> exists s, x = B754_zero s.
Proof. split; [|intros [s ->]; reflexivity]. change (Beqb x fzero = true -> exists s, x = B754_zero s). destruct x as [s|[]| |[] m e h]; try discriminate. eauto. Qed.
Theorem rel_error_none x y : rel_error F x y = None <-> exists s, x = B754_zero s \/ y = B754_zero s.
Proof.
  unfold rel_error. destruct (neqb F x (nzero F)) eqn:EX; [|destruct (neqb F y (nzero F)) eqn:EY]; cbn [orb].
  - apply iszero in EX. destruct EX as [s ->]. split; [intros _; exists s; now left|reflexivity].
  - apply iszero in EY. destruct EY as [s ->]. split; [intros _; exists s; now right|reflexivity].
  - split; [discriminate|]. intros [s [->| ->]]; discriminate.
Qed.
Lemma rel_error_some x y v : rel_error F x y = Some v -> v = nabs F (ndiv F (nsub F x y) y) /\ (is_finite x = true -> B2R x <> 0) /\ (is_finite y = true -> B2R y <> 0).
Proof.
  unfold rel_error. destruct (neqb F x (nzero F)) eqn:EX; [discriminate|]. destruct (neqb F y (nzero F)) eqn:EY; [discriminate|]. cbn [orb]. intros H.
  assert (NZ : forall z, neqb F z (nzero F) = false -> is_finite z = true -> B2R z <> 0).
  { clear. intros z H1 H2. destruct z as [s|s| |s m e h]; try discriminate. cbn [B2R]. apply F2R_neq_0. destruct s; discriminate. }
  split; [congruence|]. split; intros; apply NZ; assumption.
Qed.
Lemma nabs_finite x : is_finite (nabs F x) = is_finite x.
Proof. unfold nabs. destruct (ngt F x (nzero F)); [reflexivity|]. now destruct x as [s|s| |s m e h]. Qed.
(** Two different numbers are at least about one rounding unit apart. *)
Lemma apart x y : B2R x <> B2R y -> bpow radix2 (- prec - 1) * Rabs (B2R y) <= Rabs (B2R x - B2R y).
Proof.
  intros N. assert (P : (0 < prec)%Z) by exact Hp. destruct (Req_dec (B2R y) 0) as [Y0|Y0]; [rewrite Y0, Rabs_R0, Rmult_0_r; apply Rabs_pos|].
  destruct (Rle_or_lt (Rabs (B2R y) / 2) (Rabs (B2R x))) as [L|L].
  - assert (X0 : B2R x <> 0). { intros W. rewrite W, Rabs_R0 in L. apply Rabs_pos_lt in Y0. lra. }
    pose proof (generic_format_B2R prec emax x) as GX. pose proof (generic_format_B2R prec emax y) as GY.
    set (e := (mag radix2 (B2R y) - 1 - prec)%Z).
    assert (MX : (mag radix2 (B2R y) - 1 <= mag radix2 (B2R x))%Z).
    { replace (mag radix2 (B2R y) - 1)%Z with (mag_val radix2 _ (mag radix2 (B2R y * bpow radix2 (-1)))) by (rewrite mag_mult_bpow by assumption; lia).
      apply mag_le_abs; [apply Rmult_integral_contrapositive; split; [assumption|apply Rgt_not_eq, bpow_gt_0]|]. rewrite Rabs_mult, (Rabs_pos_eq (bpow radix2 (-1))) by apply bpow_ge_0. change (bpow radix2 (-1)) with (/ 2). exact L. }
    assert (FX : exists m, B2R x = IZR m * bpow radix2 e).
    { rewrite GX. unfold F2R. cbn [Fnum Fexp]. exists (Ztrunc (scaled_mantissa radix2 fexp (B2R x)) * 2 ^ (Generic_fmt.cexp radix2 fexp (B2R x) - e))%Z.
      rewrite mult_IZR, Rmult_assoc. f_equal. assert (0 <= Generic_fmt.cexp radix2 fexp (B2R x) - e)%Z as Q. { unfold Generic_fmt.cexp, SpecFloat.fexp, SpecFloat.emin, e. lia. }
      change (IZR (2 ^ (Generic_fmt.cexp radix2 fexp (B2R x) - e))) with (IZR (Zpower radix2 (Generic_fmt.cexp radix2 fexp (B2R x) - e))). rewrite IZR_Zpower by exact Q. rewrite <- bpow_plus. f_equal. lia. }
    assert (FY : exists m, B2R y = IZR m * bpow radix2 e).
    { rewrite GY. unfold F2R. cbn [Fnum Fexp]. exists (Ztrunc (scaled_mantissa radix2 fexp (B2R y)) * 2 ^ (Generic_fmt.cexp radix2 fexp (B2R y) - e))%Z.
      rewrite mult_IZR, Rmult_assoc. f_equal. assert (0 <= Generic_fmt.cexp radix2 fexp (B2R y) - e)%Z as Q. { unfold Generic_fmt.cexp, SpecFloat.fexp, SpecFloat.emin, e. lia. }
      change (IZR (2 ^ (Generic_fmt.cexp radix2 fexp (B2R y) - e))) with (IZR (Zpower radix2 (Generic_fmt.cexp radix2 fexp (B2R y) - e))). rewrite IZR_Zpower by exact Q. rewrite <- bpow_plus. f_equal. lia. }
    destruct FX as [m FX], FY as [k FY]. pose proof (bpow_mag_gt radix2 (B2R y)) as BY.
    replace (Rabs (B2R x - B2R y)) with (IZR (Z.abs (m - k)) * bpow radix2 e).
    2:{ rewrite FX, FY, <- Rmult_minus_distr_r, <- minus_IZR, Rabs_mult, (Rabs_pos_eq (bpow radix2 e)) by apply bpow_ge_0. now rewrite <- abs_IZR. }
    assert (m <> k) as MK by (intros ->; apply N; congruence). assert (1 <= IZR (Z.abs (m - k))) as O by (apply IZR_le; lia).
    apply Rle_trans with (bpow radix2 e).
    + replace e with (- prec - 1 + mag radix2 (B2R y))%Z by (unfold e; lia). rewrite bpow_plus. apply Rmult_le_compat_l; [apply bpow_ge_0|]. apply Rlt_le. exact BY.
    + rewrite <- (Rmult_1_l (bpow radix2 e)) at 1. apply Rmult_le_compat_r; [apply bpow_ge_0|exact O].
  - pose proof (Rabs_triang_inv (B2R y) (B2R x)) as T. rewrite Rabs_minus_sym in T. assert (bpow radix2 (- prec - 1) <= / 2) as B. { change (/ 2) with (bpow radix2 (-1)). apply bpow_le. lia. }
    pose proof (Rabs_pos (B2R y)). apply Rle_trans with (/ 2 * Rabs (B2R y)); [apply Rmult_le_compat_r; assumption|]. lra.
Qed.
Theorem rel_error_value x y v : (prec + 4 <= emax)%Z -> is_finite x = true -> is_finite y = true -> rel_error F x y = Some v -> is_finite v = true ->
  B2R v = Rabs (near (near (B2R x - B2R y) / B2R y)) /\
  Rabs (B2R v - Rabs ((B2R x - B2R y) / B2R y)) <= (2 * u + u * u) * Rabs ((B2R x - B2R y) / B2R y) /\
  (B2R v = 0 <-> B2R x = B2R y).
Proof.
  intros HE Hx Hy HS HF. destruct (rel_error_some x y v HS) as (-> & _ & Y0). specialize (Y0 Hy). rewrite nabs_finite in HF. rewrite nabs_real.
  destruct (div_fin prec emax Hp He (nsub F x y) y Hy Y0 HF) as [DF DE]. destruct (minus_inv prec emax x y Hx Hy DF) as [SE _]. rewrite DE, SE.
  change (rnd (B2R x - B2R y)) with (near (B2R x - B2R y)). pose proof (sub_acc x y) as A. set (D := near (B2R x - B2R y)) in *. change (rnd (D / B2R y)) with (near (D / B2R y)). split; [reflexivity|].
  destruct (Req_dec (B2R x) (B2R y)) as [E|N].
  - assert (D = 0) as ->. { unfold D. rewrite E. replace (B2R y - B2R y) with 0 by ring. unfold FloatSpec.near. now rewrite round_0 by typeclasses eauto. }
    rewrite E. replace (B2R y - B2R y) with 0 by ring. unfold Rdiv. rewrite !Rmult_0_l. unfold FloatSpec.near. rewrite round_0, Rabs_R0, Rminus_0_r, Rabs_R0, Rmult_0_r by typeclasses eauto. split; [lra|]. tauto.
  - pose proof (apart x y N) as AP. pose proof u_small as US. pose proof (u_pos prec) as UP. assert (YP : 0 < Rabs (B2R y)) by now apply Rabs_pos_lt.
    assert (D2 : / 2 * Rabs (B2R x - B2R y) <= Rabs D). { pose proof (Rabs_triang_inv (B2R x - B2R y) D) as T. rewrite (Rabs_minus_sym _ D) in T. assert (u * Rabs (B2R x - B2R y) <= / 2 * Rabs (B2R x - B2R y)) by (apply Rmult_le_compat_r; [apply Rabs_pos|exact US]). lra. }
    assert (Q : bpow radix2 (- prec - 2) <= Rabs (D / B2R y)).
    { unfold Rdiv. rewrite Rabs_mult, Rabs_inv. apply Rmult_le_reg_r with (Rabs (B2R y)); [exact YP|]. rewrite Rmult_assoc, Rinv_l, Rmult_1_r by lra.
      replace (- prec - 2)%Z with (-1 + (- prec - 1))%Z by ring. rewrite bpow_plus. change (bpow radix2 (-1)) with (/ 2). lra. }
    assert (R1 : Rabs (near (D / B2R y) - D / B2R y) <= u * Rabs (D / B2R y)).
    { apply (rnd_rel prec emax Hp). apply Rle_trans with (2 := Q). apply bpow_le. lia. }
    assert (R2 : Rabs (D / B2R y - (B2R x - B2R y) / B2R y) <= u * Rabs ((B2R x - B2R y) / B2R y)).
    { unfold Rdiv. rewrite <- Rmult_minus_distr_r, !Rabs_mult, <- Rmult_assoc. apply Rmult_le_compat_r; [apply Rabs_pos|exact A]. }
    set (q := D / B2R y) in *. set (r := (B2R x - B2R y) / B2R y) in *. pose proof (abs_abs (near q) r) as T.
    assert (Rabs (near q - r) <= Rabs (near q - q) + Rabs (q - r)) as T2 by (replace (near q - r) with ((near q - q) + (q - r)) by ring; apply Rabs_triang).
    assert (Rabs q <= Rabs r + Rabs (q - r)) as T3 by (replace q with (r + (q - r)) at 1 by ring; apply Rabs_triang).
    split. { pose proof (Rabs_pos r). assert (u * Rabs q <= u * ((1 + u) * Rabs r)) by (apply Rmult_le_compat_l; lra). lra. }
    split; [|contradiction]. intros Z0. exfalso. pose proof (bpow_gt_0 radix2 (- prec - 2)) as BP. pose proof (abs_abs (near q) q) as T4. rewrite Z0, Rminus_0_l, Rabs_Ropp, Rabs_Rabsolu in T4. nra.
Qed.
Lemma near_abs r : near (Rabs r) = Rabs (near r).
Proof. unfold FloatSpec.near. now rewrite <- round_NE_abs by typeclasses eauto. Qed.
Lemma near_le r s : r <= s -> near r <= near s.
Proof. apply round_le; typeclasses eauto. Qed.
(** A relative error within the tolerance is accepted by within_tol_rel. *)
Theorem rel_error_within c x y v tol nz : is_finite x = true -> is_finite y = true -> is_finite tol = true -> is_finite nz = true -> Bleb fzero tol = true -> Bleb fzero nz = true ->
  rel_error F x y = Some v -> Bleb v tol = true -> within_tol_rel F c x y tol nz = Ok true.
Proof.
  intros Hx Hy Ht Hn HT HZ HS HV. destruct (rel_error_some x y v HS) as (-> & _ & Y0). specialize (Y0 Hy).
  set (q := ndiv F (nsub F x y) y) in *. destruct (leb_args prec emax _ _ HV) as [NV _]. rewrite nabs_nan in NV.
  assert (FQ : is_finite q = true). { destruct q as [s|s| |s m e h]; try reflexivity; try discriminate. exfalso. destruct s, tol as [s'|s'| |[] m' e' h']; try discriminate Ht; cbn in HV; discriminate. }
  destruct (div_fin prec emax Hp He (nsub F x y) y Hy Y0 FQ) as [DF DE]. fold q in DE. destruct (minus_inv prec emax x y Hx Hy DF) as [SE _].
  destruct (rel_value prec emax c x y tol nz Hx Hy DF Ht Hn HT HZ) as (b & -> & HB). f_equal. apply HB. right.
  rewrite Bleb_correct in HV by (trivial; now rewrite nabs_finite). revert HV. case Rle_bool_spec; [|discriminate]. intros LE _. rewrite nabs_real, DE, SE in LE. apply Rle_trans with (2 := LE).
  change (rnd (rnd (B2R x - B2R y) / B2R y)) with (near (near (B2R x - B2R y) / B2R y)). rewrite <- (near_abs (near (B2R x - B2R y) / B2R y)). apply near_le. unfold Rdiv. rewrite Rabs_mult, Rabs_inv.
  apply Rmult_le_compat_l; [apply Rabs_pos|]. apply Rinv_le; [now apply Rabs_pos_lt|]. apply Rmax_r.
Qed.

(** ** Arrays *)
Lemma eqb_nabs_r v z : Beqb v (Babs z) = true -> Beqb v (nabs F z) = true.
Proof. destruct z as [[]|[]| |[] m e h], v as [[]|[]| |[] m' e' h']; exact (fun H => H). Qed.
Lemma max_rel_run c (A B : src1 flt) l k d : yields A (map Ok l) -> yields B (map Ok k) -> zlen l = zlen k -> l <> [] ->
  ((exists s, In (B754_zero s) l \/ In (B754_zero s) k) -> max_rel_error F c A B d = Ok None) /\
  ((forall s, ~ In (B754_zero s) l /\ ~ In (B754_zero s) k) -> exists R, yields R (map Ok (map (fun p => ndiv F (nsub F (fst p) (snd p)) (snd p)) (combine l k))) /\
    max_rel_error F c A B d = (r <- norm_inf F R (nzero F) ;; Ok (Some r))).
Proof.
  intros HA HB HL HN. assert (HK : k <> []) by (intros ->; destruct l; [contradiction|]; rewrite zlen_cons in HL; pose proof (zlen_nonneg l); change (zlen (@nil flt)) with 0%Z in HL; lia).
  unfold max_rel_error. pose proof HA as (E1 & _). pose proof HB as (E2 & _). rewrite zlen_map in E1, E2. rewrite E1, E2, HL, Z.eqb_refl, check_debug_true. cbn [bind]. rewrite zlen_nonzero by exact HK.
  destruct (any_pure (fun x => neqb F x (nzero F)) A l false HA HN) as (za & -> & ZA). destruct (any_pure (fun x => neqb F x (nzero F)) B k false HB HK) as (zb & -> & ZB). cbn [bind]. split.
  - intros (s & [H|H]).
    + replace za with true; [reflexivity|]. symmetry. apply ZA. exists (B754_zero s). now split.
    + replace zb with true; [now destruct za|]. symmetry. apply ZB. exists (B754_zero s). now split.
  - intros H. destruct za. { exfalso. destruct ZA as [ZA _]. destruct (ZA eq_refl) as (x & Hx & Q). apply iszero in Q. destruct Q as [s ->]. now apply (proj1 (H s)). }
    destruct zb. { exfalso. destruct ZB as [ZB _]. destruct (ZB eq_refl) as (x & Hx & Q). apply iszero in Q. destruct Q as [s ->]. now apply (proj2 (H s)). }
    cbn [orb]. destruct (bin_ok c (fun x y => Ok (nsub F x y)) A B _ _ HA HB) as (D & -> & HD). { now rewrite !zlen_map. } cbn [bind]. rewrite zip_pure in HD.
    destruct (bin_ok c (fun x y => Ok (ndiv F x y)) D B _ _ HD HB) as (R & -> & HR). { rewrite !zlen_map. unfold zlen in *. rewrite combine_length. lia. }
    cbn [bind]. rewrite zip_pure in HR. exists R. split; [|reflexivity]. replace (map (fun p => ndiv F (nsub F (fst p) (snd p)) (snd p)) (combine l k)) with (map (fun p => ndiv F (fst p) (snd p)) (combine (map (fun p => nsub F (fst p) (snd p)) (combine l k)) k)); [exact HR|].
    clear. revert k. induction l as [|x l IH]; intros [|y k]; cbn; try reflexivity. f_equal. apply IH.
Qed.
Theorem max_rel_none c (A B : src1 flt) l k d : yields A (map Ok l) -> yields B (map Ok k) -> zlen l = zlen k -> l <> [] ->
  (max_rel_error F c A B d = Ok None <-> exists s, In (B754_zero s) l \/ In (B754_zero s) k).
Proof.
  intros HA HB HL HN. destruct (max_rel_run c A B l k d HA HB HL HN) as [H1 H2]. split; [|exact H1]. intros E.
  assert (DEC : forall s m, In (B754_zero s : flt) m \/ ~ In (B754_zero s : flt) m).
  { intros s m. induction m as [|z m [IH|IH]]; [right; intros []|left; now right|]. destruct z as [s'|s'| |s' m' e' h'].
    - destruct (Bool.bool_dec s s') as [<-|NE]; [left; now left|]. right. intros [Q|Q]; [congruence|contradiction].
    - right. intros [Q|Q]; [discriminate|contradiction].
    - right. intros [Q|Q]; [discriminate|contradiction].
    - right. intros [Q|Q]; [discriminate|contradiction]. }
  destruct (DEC true l) as [D1|D1]; [eauto|]. destruct (DEC true k) as [D2|D2]; [eauto|]. destruct (DEC false l) as [D3|D3]; [eauto|]. destruct (DEC false k) as [D4|D4]; [eauto|].
  destruct H2 as (R & HR & ER). { intros []; now split. } rewrite ER in E. destruct (norm_inf F R (nzero F)); discriminate.
Qed.
Lemma nonzero_rel l k a b : (forall s, ~ In (B754_zero s : flt) l /\ ~ In (B754_zero s : flt) k) -> In (a, b) (combine l k) -> rel_error F a b = Some (nabs F (ndiv F (nsub F a b) b)).
Proof.
  intros H Hab. destruct (rel_error F a b) as [w|] eqn:E.
  - apply rel_error_some in E. destruct E as [-> _]. reflexivity.
  - exfalso. apply rel_error_none in E. destruct E as [s [->| ->]]; [apply (proj1 (H s)); eapply in_combine_l; eassumption|apply (proj2 (H s)); eapply in_combine_r; eassumption].
Qed.
Theorem max_rel_value c (A B : src1 flt) x y l k d : yields A (map Ok (x :: l)) -> yields B (map Ok (y :: k)) -> zlen l = zlen k -> (forall s, ~ In (B754_zero s) (x :: l) /\ ~ In (B754_zero s) (y :: k)) ->
  (forall w, rel_error F x y = Some w -> is_nan w = true -> max_rel_error F c A B d = Ok (Some B754_nan)) /\
  (forall w, rel_error F x y = Some w -> is_nan w = false -> exists v, max_rel_error F c A B d = Ok (Some v) /\ is_nan v = false /\
    (exists a b z, In (a, b) (combine (x :: l) (y :: k)) /\ rel_error F a b = Some z /\ Beqb v z = true) /\
    forall a b z, In (a, b) (combine (x :: l) (y :: k)) -> rel_error F a b = Some z -> is_nan z = false -> Bleb z v = true).
Proof.
  intros HA HB HL NZ. destruct (max_rel_run c A B _ _ d HA HB) as [_ H2]. { rewrite !zlen_cons. lia. } { discriminate. }
  destruct (H2 NZ) as (R & HR & ER). rewrite ER. cbn [combine map fst snd] in HR. split; intros w EW NW; apply rel_error_some in EW; destruct EW as [-> _]; rewrite nabs_nan in NW.
  - rewrite (norm_inf_nan prec emax R _ _ _ HR NW). reflexivity.
  - destruct (norm_inf_nonan prec emax R _ _ (nzero F) HR NW) as (v & V1 & V2 & (z & V3 & V4 & V5) & V6). rewrite V1. cbn [bind]. exists v. split; [reflexivity|]. split; [exact V2|].
    change (ndiv F (nsub F x y) y :: map (fun p => ndiv F (nsub F (fst p) (snd p)) (snd p)) (combine l k)) with (map (fun p => ndiv F (nsub F (fst p) (snd p)) (snd p)) (combine (x :: l) (y :: k))) in V3, V6. split.
    + apply in_map_iff in V3. destruct V3 as ([a b] & <- & Hab). exists a, b, (nabs F (ndiv F (nsub F a b) b)). split; [exact Hab|]. split; [now apply (nonzero_rel (x :: l) (y :: k))|]. now apply eqb_nabs_r.
    + intros a b z0 Hab EZ NZ0. rewrite (nonzero_rel _ _ a b NZ Hab) in EZ. injection EZ as <-. rewrite leb_nabs. apply V6; [|now rewrite nabs_nan in NZ0]. now apply (in_map (fun p => ndiv F (nsub F (fst p) (snd p)) (snd p)) _ (a, b)).
Qed.
(** The largest of approximate values. *)
Lemma norminf_near {T} (w r : T -> R) (l : list T) v dl : 0 <= dl -> (forall t, In t l -> Rabs (w t - Rabs (r t)) <= dl * Rabs (r t)) -> (exists t, In t l /\ v = w t) -> (forall t, In t l -> w t <= v) ->
  Rabs (v - norminf (map r l)) <= dl * norminf (map r l).
Proof.
  intros H0 HW (t & Ht & ->) HM. assert (l <> []) as HN by (intros ->; destruct Ht). 
  destruct (norminf_attained (map r l)) as (z & Hz & E). { destruct l; [contradiction|discriminate]. } apply in_map_iff in Hz. destruct Hz as (s & <- & Hs).
  pose proof (norminf_in (map r l) (r t) (in_map r _ _ Ht)) as B1. pose proof (HW t Ht) as W1. pose proof (HW s Hs) as W2. pose proof (HM s Hs) as M1.
  apply Rabs_le_inv in W1, W2. rewrite E in B1 |- *. apply Rabs_le. pose proof (Rabs_pos (r t)). pose proof (Rabs_pos (r s)). assert (dl * Rabs (r t) <= dl * Rabs (r s)) by (apply Rmult_le_compat_l; assumption). lra.
Qed.
Lemma eqb_real v z : is_finite z = true -> Beqb v z = true -> is_finite v = true /\ B2R v = B2R z.
Proof.
  intros Hz H. assert (FV : is_finite v = true) by (destruct v as [s|[]| |s m e h], z as [s'|[]| |[] m' e' h']; try discriminate; reflexivity). split; [exact FV|].
  rewrite Beqb_correct in H by assumption. revert H. case Req_bool_spec; [trivial|discriminate].
Qed.
Lemma eqb_finite v z : is_finite v = true -> Beqb v z = true -> is_finite z = true.
Proof. destruct v as [s|s| |[] m e h], z as [s'|[]| |[] m' e' h']; try discriminate; reflexivity. Qed.
Lemma sub_not_nan a b : is_finite a = true -> is_finite b = true -> is_nan (nsub F a b) = false.
Proof. intros Ha Hb. exact (proj1 (sub_ev prec emax a b Ha Hb)). Qed.
Lemma div_not_nan a b : is_nan a = false -> is_finite b = true -> (forall s, b <> B754_zero s) -> is_nan (ndiv F a b) = false.
Proof.
  intros Ha Hb H0. destruct b as [s|s| |s m e h]; try discriminate; [contradiction (H0 s eq_refl)|]. destruct a as [s'|s'| |s' m' e' h']; try discriminate; try reflexivity.
  assert (B2R (B754_finite s m e h) <> 0) as NB by (cbn [B2R]; apply F2R_neq_0; destruct s; discriminate).
  generalize (Bdiv_correct prec emax Hp He mode_NE (B754_finite s' m' e' h') _ NB). change (Bdiv mode_NE (B754_finite s' m' e' h') (B754_finite s m e h)) with (ndiv F (B754_finite s' m' e' h') (B754_finite s m e h)).
  generalize (ndiv F (B754_finite s' m' e' h') (B754_finite s m e h)). intros q. case Rlt_bool; intros Q; [|destruct q; try discriminate; reflexivity].
  destruct Q as (_ & Q & _). cbn [is_finite] in Q. destruct q; try discriminate; reflexivity.
Qed.
Lemma nabs_leb_fin z v : is_nan z = false -> Bleb (nabs F z) v = true -> is_finite v = true -> is_finite z = true.
Proof. intros NZ H FV. destruct z as [s|s| |s m e h]; try reflexivity; try discriminate. exfalso. destruct s, v as [s'|s'| |[] m' e' h']; try discriminate FV; cbn in H; discriminate. Qed.
Theorem max_abs_accuracy c (A B : src1 flt) l k d v : yields A (map Ok l) -> yields B (map Ok k) -> zlen l = zlen k -> l <> [] -> (forall z, In z l \/ In z k -> is_finite z = true) ->
  max_abs_error F c A B d = Ok v -> is_finite v = true ->
  Rabs (B2R v - norminf (map (fun p => B2R (fst p) - B2R (snd p)) (combine l k))) <= u * norminf (map (fun p => B2R (fst p) - B2R (snd p)) (combine l k)).
Proof.
  intros HA HB HL HN HF HV FV. destruct l as [|x l]; [contradiction|]. destruct k as [|y k]. { exfalso. rewrite zlen_cons in HL. pose proof (zlen_nonneg l). change (zlen (@nil flt)) with 0%Z in HL. lia. }
  assert (FC : forall a b, In (a, b) (combine (x :: l) (y :: k)) -> is_finite a = true /\ is_finite b = true). { intros a b Hab. split; apply HF; [left; eapply in_combine_l; eassumption|right; eapply in_combine_r; eassumption]. }
  destruct (FC x y (or_introl eq_refl)) as [Fx Fy]. rewrite !zlen_cons in HL.
  destruct (max_abs_error_nonan prec emax c A B x y l k d HA HB ltac:(lia) (sub_not_nan x y Fx Fy)) as (v' & EV & _ & (a & b & Hab & _ & EQ) & HM). assert (v' = v) as -> by congruence. clear EV HV.
  assert (BA : forall z, B2R (Babs z) = Rabs (B2R z)) by (intros; apply B2R_Babs). assert (BF : forall z, is_finite (Babs z) = is_finite z) by (intros; apply is_finite_Babs).
  assert (FD : forall a b, In (a, b) (combine (x :: l) (y :: k)) -> is_finite (nsub F a b) = true).
  { intros a' b' Hab'. destruct (FC a' b' Hab') as [Fa Fb]. pose proof (HM a' b' Hab' (sub_not_nan a' b' Fa Fb)) as L. change (Bminus mode_NE a' b') with (nsub F a' b') in L. rewrite <- (leb_nabs prec emax) in L. now apply (nabs_leb_fin _ v (sub_not_nan a' b' Fa Fb) L). }
  apply (norminf_near (fun p => Rabs (near (B2R (fst p) - B2R (snd p)))) (fun p => B2R (fst p) - B2R (snd p))); [apply Rlt_le, u_pos| | |].
  - intros [a' b'] _. cbn [fst snd]. eapply Rle_trans; [apply abs_abs|apply sub_acc].
  - exists (a, b). split; [exact Hab|]. cbn [fst snd]. destruct (FC a b Hab) as [Fa Fb]. pose proof (FD a b Hab) as Fd. destruct (minus_inv prec emax a b Fa Fb Fd) as [SE _].
    change (Bminus mode_NE a b) with (nsub F a b) in EQ. destruct (eqb_real v (Babs (nsub F a b))) as [_ ->]; [now rewrite BF|exact EQ|]. rewrite BA, SE. reflexivity.
  - intros [a' b'] Hab'. cbn [fst snd]. destruct (FC a' b' Hab') as [Fa Fb]. pose proof (FD a' b' Hab') as Fd. destruct (minus_inv prec emax a' b' Fa Fb Fd) as [SE _].
    pose proof (HM a' b' Hab' (sub_not_nan a' b' Fa Fb)) as L. change (Bminus mode_NE a' b') with (nsub F a' b') in L. rewrite Bleb_correct in L by (trivial; now rewrite BF). revert L. case Rle_bool_spec; [|discriminate]. rewrite BA, SE. trivial.
Qed.
Theorem max_rel_accuracy c (A B : src1 flt) l k d v : (prec + 4 <= emax)%Z -> yields A (map Ok l) -> yields B (map Ok k) -> zlen l = zlen k -> l <> [] -> (forall z, In z l \/ In z k -> is_finite z = true) ->
  max_rel_error F c A B d = Ok (Some v) -> is_finite v = true ->
  Rabs (B2R v - norminf (map (fun p => (B2R (fst p) - B2R (snd p)) / B2R (snd p)) (combine l k))) <= (2 * u + u * u) * norminf (map (fun p => (B2R (fst p) - B2R (snd p)) / B2R (snd p)) (combine l k)).
Proof.
  intros HE HA HB HL HN HF HV FV. assert (NZ : forall s, ~ In (B754_zero s) l /\ ~ In (B754_zero s) k).
  { intros s. destruct (max_rel_run c A B l k d HA HB HL HN) as [H1 _]. split; intros Q; rewrite H1 in HV by eauto; discriminate. }
  destruct l as [|x l]; [contradiction|]. destruct k as [|y k]. { exfalso. rewrite zlen_cons in HL. pose proof (zlen_nonneg l). change (zlen (@nil flt)) with 0%Z in HL. lia. }
  rewrite !zlen_cons in HL. destruct (max_rel_value c A B x y l k d HA HB ltac:(lia) NZ) as [_ H2].
  assert (FC : forall a b, In (a, b) (combine (x :: l) (y :: k)) -> is_finite a = true /\ is_finite b = true). { intros a b Hab. split; apply HF; [left; eapply in_combine_l; eassumption|right; eapply in_combine_r; eassumption]. }
  set (w := fun p : flt * flt => nabs F (ndiv F (nsub F (fst p) (snd p)) (snd p))).
  assert (ES : forall a b, In (a, b) (combine (x :: l) (y :: k)) -> rel_error F a b = Some (w (a, b)) /\ is_nan (w (a, b)) = false).
  { intros a b Hab. split; [now apply (nonzero_rel (x :: l) (y :: k))|]. unfold w. cbn [fst snd]. rewrite nabs_nan. destruct (FC a b Hab) as [Fa Fb]. apply div_not_nan; [now apply sub_not_nan|exact Fb|].
    intros s ->. apply (proj2 (NZ s)). eapply in_combine_r; eassumption. }
  destruct (ES x y (or_introl eq_refl)) as [S1 S2]. destruct (H2 _ S1 S2) as (v' & EV & _ & (a & b & z & Hab & EZ & EQ) & HM). assert (v' = v) as -> by congruence. clear EV HV H2 S1 S2.
  assert (FW : forall a b, In (a, b) (combine (x :: l) (y :: k)) -> is_finite (w (a, b)) = true).
  { intros a' b' Hab'. destruct (ES a' b' Hab') as [T1 T2]. pose proof (HM a' b' _ Hab' T1 T2) as L. unfold w in *. rewrite nabs_finite. rewrite nabs_nan in T2. now apply (nabs_leb_fin _ v T2 L). }
  apply (norminf_near (fun p => B2R (w p)) (fun p => (B2R (fst p) - B2R (snd p)) / B2R (snd p))). { pose proof (u_pos prec). nra. }
  - intros [a' b'] Hab'. destruct (FC a' b' Hab') as [Fa Fb]. destruct (ES a' b' Hab') as [T1 T2]. exact (proj1 (proj2 (rel_error_value a' b' _ HE Fa Fb T1 (FW a' b' Hab')))).
  - exists (a, b). split; [exact Hab|]. destruct (ES a b Hab) as [T1 T2]. rewrite T1 in EZ. injection EZ as <-. exact (proj2 (eqb_real v _ (FW a b Hab) EQ)).
  - intros [a' b'] Hab'. destruct (ES a' b' Hab') as [T1 T2]. pose proof (HM a' b' _ Hab' T1 T2) as L. rewrite Bleb_correct in L by (trivial; now apply FW). revert L. case Rle_bool_spec; [trivial|discriminate].
Qed.
End ERR.

(** ** Two dimensions and lists *)
Section SHAPES.
Context {V : Type} (N : num V) (c : cfg).
Local Open Scope Z_scope.
Implicit Types (X Y : src2 V).
Lemma flat_tools X Y tol nz d (e : V) : same2 X Y = true -> s2size X = s2size Y ->
  within_tol_abs_arr2 N c X Y tol d = within_tol_abs_arr N c (flat2 X) (flat2 Y) tol d /\
  within_tol_rel_arr2 N c X Y tol nz d = within_tol_rel_arr N c (flat2 X) (flat2 Y) tol nz d /\
  max_abs_error2 N c X Y e = max_abs_error N c (flat2 X) (flat2 Y) e /\
  max_rel_error2 N c X Y e = max_rel_error N c (flat2 X) (flat2 Y) e.
Proof.
  intros HS HE. unfold within_tol_abs_arr2, within_tol_abs_arr, within_tol_rel_arr2, within_tol_rel_arr, max_abs_error2, max_abs_error, max_rel_error2, max_rel_error.
  change (ssize (flat2 X)) with (s2size X). change (ssize (flat2 Y)) with (s2size Y). rewrite HS, HE, Z.eqb_refl. unfold x_bin2, x_bin. change (same_size2 (s2rows X) (s2cols X) (s2rows Y) (s2cols Y)) with (same2 X Y). rewrite HS.
  change (ssize (flat2 X)) with (s2size X). change (ssize (flat2 Y)) with (s2size Y). rewrite HE, Z.eqb_refl. rewrite !check_debug_true. cbn [bind s2rows s2cols s2size ssize]. change (same_size2 (s2rows X) (s2cols X) (s2rows Y) (s2cols Y)) with (same2 X Y). rewrite HS, ?HE, Z.eqb_refl, !check_debug_true. cbn [bind].
  repeat split.
Qed.
Lemma shape_tools X Y tol nz d (e : V) : checked c = true -> (s2rows X <> s2rows Y \/ s2cols X <> s2cols Y) ->
  within_tol_abs_arr2 N c X Y tol d = Fail (report c) /\ within_tol_rel_arr2 N c X Y tol nz d = Fail (report c) /\
  max_abs_error2 N c X Y e = Fail (report c) /\ max_rel_error2 N c X Y e = Fail (report c).
Proof.
  intros HC HN. unfold within_tol_abs_arr2, within_tol_rel_arr2, max_abs_error2, max_rel_error2. replace (same2 X Y) with false by (unfold same2, same_size2; lia). now rewrite !check_debug_false.
Qed.
Lemma combine_znth {T U} (r : list T) (q : list U) x y : In (x, y) (combine r q) <-> exists j, znth r j = Some x /\ znth q j = Some y.
Proof.
  revert q. induction r as [|a r IH]; intros q; [split; [intros []|intros (j & H & _); rewrite znth_nil in H; discriminate]|]. destruct q as [|b q]; [split; [intros []|intros (j & _ & H); rewrite znth_nil in H; discriminate]|]. cbn [combine In]. split.
  - intros [E|H]; [injection E as <- <-; exists 0; now split|]. apply IH in H. destruct H as (j & H1 & H2). pose proof (znth_lt _ _ _ H1). exists (j + 1). rewrite !znth_cons_pos by lia. now replace (j + 1 - 1) with j by lia.
  - intros (j & H1 & H2). pose proof (znth_lt _ _ _ H1). destruct (Z.eq_dec j 0) as [->|NE]; [left; rewrite znth_cons_0 in H1; rewrite znth_cons_0 in H2; congruence|]. right. apply IH. exists (j - 1). rewrite znth_cons_pos in H1 by lia. rewrite znth_cons_pos in H2 by lia. now split.
Qed.
Lemma combine_app_eq {T U} (r R : list T) (q Q : list U) : length r = length q -> combine (r ++ R) (q ++ Q) = combine r q ++ combine R Q.
Proof. revert q. induction r as [|a r IH]; intros [|b q] H; try discriminate; [reflexivity|]. cbn. f_equal. apply IH. now injection H. Qed.
Lemma combine_mget (M K : list (list V)) n x y : rect n M -> rect n K -> zlen M = zlen K ->
  (In (x, y) (combine (concat M) (concat K)) <-> exists i j, mget M i j = Some x /\ mget K i j = Some y).
Proof.
  intros HM. revert K. induction HM as [|r M Hr HM IH]; intros K HK HL.
  - split; [intros []|]. intros (i & j & H & _). unfold mget in H. rewrite znth_nil in H. discriminate.
  - destruct K as [|q K]; [rewrite zlen_cons in HL; pose proof (zlen_nonneg M); change (zlen (@nil (list V))) with 0 in HL; lia|]. pose proof (Forall_inv HK) as Hq. apply Forall_inv_tail in HK. cbn [concat].
    rewrite combine_app_eq by (unfold zlen in Hr, Hq; lia). rewrite in_app_iff, (IH K HK) by (rewrite !zlen_cons in HL; lia). rewrite combine_znth. split.
    + intros [(j & H1 & H2)|(i & j & H1 & H2)]; [exists 0, j; now split|]. unfold mget in H1, H2. destruct (znth M i) as [rr|] eqn:E1; [|discriminate]. pose proof (znth_lt _ _ _ E1). exists (i + 1), j. unfold mget. rewrite !znth_cons_pos by lia. replace (i + 1 - 1) with i by lia. now rewrite E1.
    + intros (i & j & H1 & H2). unfold mget in H1, H2. destruct (znth (r :: M) i) as [rr|] eqn:E1; [|discriminate]. pose proof (znth_lt _ _ _ E1) as Bi. destruct (Z.eq_dec i 0) as [->|NE].
      * rewrite znth_cons_0 in E1. rewrite znth_cons_0 in H2. injection E1 as <-. left. eauto.
      * right. exists (i - 1), j. rewrite znth_cons_pos in E1 by lia. rewrite znth_cons_pos in H2 by lia. unfold mget. rewrite E1. now split.
Qed.
Lemma flat_yields X M : produces2 X M -> zlen M * ncols M <= LONG_MAX -> yields (flat2 X) (map Ok (concat M)).
Proof.
  intros (Hw & _ & _ & E & _ & H) HM. unfold yields. rewrite zlen_map. assert (EC : zlen (concat M) = zlen M * ncols M) by (apply zlen_concat; now apply wfm_rect). rewrite EC. cbn [flat2 ssize sun]. split; [exact E|]. split; [exact HM|].
  intros i Hi. rewrite H by exact Hi. rewrite <- EC in Hi. unfold elt. rewrite znth_map. unfold oget. destruct (znth_some (concat M) i Hi) as [v ->]. reflexivity.
Qed.
Lemma same_of X Y M K : produces2 X M -> produces2 Y K -> zlen M = zlen K -> ncols M = ncols K -> same2 X Y = true /\ s2size X = s2size Y.
Proof. intros (_ & A1 & A2 & A3 & _) (_ & B1 & B2 & B3 & _) H1 H2. unfold same2, same_size2. split; lia. Qed.

(** Lists. *)
Hypothesis Hc : cfg_ok c.
Lemma arr_list (l : list V) : zlen l <= amax c -> arr_of_list (nzero N) c l = Ok (mkarr l (zlen l)).
Proof. intros H. destruct (arr_of_src_ok (nzero N) c (src_of_list l) l (produces_list l) H) as (a & E & E1 & E2). unfold arr_of_list. rewrite E. f_equal. destruct a as [b n]. cbn in E1, E2. congruence. Qed.
Theorem tol_list A (l : list V) tol nz d : zlen l <= amax c ->
  within_tol_abs_al N c A l tol d = within_tol_abs_arr N c A (src_of_list l) tol d /\ within_tol_abs_la N c l A tol d = within_tol_abs_arr N c (src_of_list l) A tol d /\
  within_tol_rel_al N c A l tol nz d = within_tol_rel_arr N c A (src_of_list l) tol nz d /\ within_tol_rel_la N c l A tol nz d = within_tol_rel_arr N c (src_of_list l) A tol nz d.
Proof. intros H. unfold within_tol_abs_al, within_tol_abs_la, within_tol_rel_al, within_tol_rel_la. rewrite (arr_list l H). repeat split. Qed.
Lemma arr2_list (L : list (list V)) : wfm L -> zlen L * ncols L <= amax c -> exists a, arr2_of_list (nzero N) c L = Ok a /\ produces2 (src_of_arr2 a) L.
Proof.
  intros HW HS. assert (ES : spec_list2 c L = Ok L).
  { destruct HW as [HR HP]. unfold spec_list2. destruct L as [|r L]; [reflexivity|]. specialize (HP ltac:(discriminate)). cbn [ncols] in *.
    assert (G : good_list (r :: L) = true). { destruct r as [|v r]; [change (zlen (@nil V)) with 0 in HP; lia|]. cbn [good_list]. apply andb_true_intro. split; [lia|]. apply forallb_forall. intros q Hq. unfold rect in HR. rewrite Forall_forall in HR. rewrite (HR q Hq). apply Z.eqb_refl. }
    assert (room2 c (zlen (r :: L)) (zlen r) (guard c (good_list (r :: L)) (Ok (r :: L))) = Ok (r :: L)) as ER. { unfold room2, room, guard. rewrite G. unfold cfg_ok in Hc. pose proof (zlen_nonneg (r :: L)). unfold in_long. replace (_ && _) with true by (unfold LONG_MIN, LONG_MAX in *; nia). now replace (amax c <? zlen (r :: L) * zlen r) with false by lia. }
    destruct r as [|v r]; [change (zlen (@nil V)) with 0 in HP; lia|]. destruct L; exact ER. }
  pose proof (sim2_list (nzero N) c Hc L) as H. rewrite ES in H. destruct H as (a & E & HR & HM). { now right. } exists a. split; [exact E|]. exact (produces2_arr (nzero N) c Hc a L HR HM).
Qed.
Theorem list2_bad X (L : list (list V)) tol nz d q : checked c = true -> In q L -> zlen q <> ncols L -> zlen L * ncols L <= amax c ->
  within_tol_abs_al2 N c X L tol d = Fail (report c) /\ within_tol_abs_la2 N c L X tol d = Fail (report c) /\ within_tol_rel_al2 N c X L tol nz d = Fail (report c) /\ within_tol_rel_la2 N c L X tol nz d = Fail (report c).
Proof.
  intros HC HQ HN HS. assert (ES : spec_list2 c L = Fail (report c)).
  { destruct L as [|r L]; [destruct HQ|]. cbn [ncols] in *. assert (G : forallb (fun q => zlen q =? zlen r) (r :: L) = false).
    { destruct (forallb _ (r :: L)) eqn:E; [|reflexivity]. rewrite forallb_forall in E. specialize (E q HQ). lia. }
    assert (ER : room2 c (zlen (r :: L)) (zlen r) (guard c ((0 <? zlen r) && forallb (fun q => zlen q =? zlen r) (r :: L)) (Ok (r :: L))) = Fail (report c)).
    { rewrite G, andb_false_r. unfold room2, room, guard. unfold cfg_ok in Hc. pose proof (zlen_nonneg (r :: L)). pose proof (zlen_nonneg r). unfold in_long. replace (_ && _) with true by (unfold LONG_MIN, LONG_MAX in *; nia). now replace (amax c <? zlen (r :: L) * zlen r) with false by lia. }
    destruct r as [|v r]; [destruct L as [|q' L]; [destruct HQ as [<-|[]]; lia|exact ER]|exact ER]. }
  pose proof (sim2_list (nzero N) c Hc L) as H. rewrite ES in H. cbn in H. unfold within_tol_abs_al2, within_tol_abs_la2, within_tol_rel_al2, within_tol_rel_la2. rewrite H by now left. now repeat split.
Qed.
End SHAPES.

Section MATRIX.
Context (prec emax : Z) {Hp : Prec_gt_0 prec} {He : Prec_lt_emax prec emax} (c : cfg).
Local Open Scope Z_scope.
Notation flt := (binary_float prec emax).
Notation F := (fnum prec emax).
Implicit Types (X Y : src2 flt) (M K : list (list flt)).
Theorem tol_matrix X Y M K tol nz d : produces2 X M -> produces2 Y K -> zlen M = zlen K -> ncols M = ncols K -> M <> [] -> zlen M * ncols M <= LONG_MAX -> Bleb (FloatSpec.fzero prec emax) tol = true -> Bleb (FloatSpec.fzero prec emax) nz = true ->
  (exists b : bool, within_tol_abs_arr2 F c X Y tol d = Ok b /\ (b = true <-> forall i j x y, mget M i j = Some x -> mget K i j = Some y -> within_tol_abs F c x y tol = Ok true)) /\
  (exists b : bool, within_tol_rel_arr2 F c X Y tol nz d = Ok b /\ (b = true <-> forall i j x y, mget M i j = Some x -> mget K i j = Some y -> within_tol_rel F c x y tol nz = Ok true)).
Proof.
  intros HX HY HL HC HN HM HT HZ. destruct (same_of X Y M K HX HY HL HC) as [S1 S2]. destruct (flat_tools F c X Y tol nz d (nzero F) S1 S2) as (-> & -> & _).
  pose proof (flat_yields X M HX HM) as YX. pose proof (flat_yields Y K HY ltac:(rewrite <- HL, <- HC; exact HM)) as YY.
  pose proof HX as (WM & _). pose proof HY as (WK & _). assert (RM : rect (ncols M) M) by now apply wfm_rect. assert (RK : rect (ncols M) K) by (rewrite HC; now apply wfm_rect).
  assert (LE : zlen (concat M) = zlen (concat K)) by (rewrite !(zlen_concat (ncols M)) by assumption; now rewrite HL).
  assert (NE : concat M <> []). { intros E. pose proof (zlen_concat _ _ RM) as Q. rewrite E in Q. change (zlen (@nil flt)) with 0 in Q. pose proof (proj2 WM HN). destruct M; [contradiction|]. rewrite zlen_cons in Q. pose proof (zlen_nonneg M). nia. }
  assert (EQ : forall P : flt -> flt -> Prop, (forall x y, In (x, y) (combine (concat M) (concat K)) -> P x y) <-> (forall i j x y, mget M i j = Some x -> mget K i j = Some y -> P x y)).
  { intros P. split; [intros H i j x y H1 H2; apply H; apply (combine_mget M K (ncols M) x y RM RK HL); eauto|]. intros H x y Hxy. apply (combine_mget M K (ncols M) x y RM RK HL) in Hxy. destruct Hxy as (i & j & H1 & H2). eauto. }
  split.
  - destruct (abs_array prec emax c _ _ _ _ tol d YX YY LE NE HT) as (b & E & HB). exists b. split; [exact E|]. rewrite HB. apply EQ.
  - destruct (rel_array prec emax c _ _ _ _ tol nz d YX YY LE NE HT HZ) as (b & E & HB). exists b. split; [exact E|]. rewrite HB. apply EQ.
Qed.
Theorem tol_list2 X M (L : list (list flt)) tol nz d : cfg_ok c -> produces2 X M -> wfm L -> zlen M = zlen L -> ncols M = ncols L -> M <> [] -> zlen L * ncols L <= amax c -> Bleb (FloatSpec.fzero prec emax) tol = true -> Bleb (FloatSpec.fzero prec emax) nz = true ->
  (exists b : bool, within_tol_abs_al2 F c X L tol d = Ok b /\ (b = true <-> forall i j x y, mget M i j = Some x -> mget L i j = Some y -> within_tol_abs F c x y tol = Ok true)) /\
  (exists b : bool, within_tol_abs_la2 F c L X tol d = Ok b /\ (b = true <-> forall i j x y, mget M i j = Some x -> mget L i j = Some y -> within_tol_abs F c y x tol = Ok true)) /\
  (exists b : bool, within_tol_rel_al2 F c X L tol nz d = Ok b /\ (b = true <-> forall i j x y, mget M i j = Some x -> mget L i j = Some y -> within_tol_rel F c x y tol nz = Ok true)) /\
  (exists b : bool, within_tol_rel_la2 F c L X tol nz d = Ok b /\ (b = true <-> forall i j x y, mget M i j = Some x -> mget L i j = Some y -> within_tol_rel F c y x tol nz = Ok true)).
Proof.
  intros Hc HX HW HL HC HN HS HT HZ. destruct (arr2_list F c Hc L HW HS) as (a & E & HY). assert (HM : zlen M * ncols M <= LONG_MAX) by (rewrite HL, HC; unfold cfg_ok in Hc; lia).
  assert (HN' : L <> []) by (intros ->; destruct M; [contradiction|]; rewrite zlen_cons in HL; pose proof (zlen_nonneg M); change (zlen (@nil (list flt))) with 0 in HL; lia).
  destruct (tol_matrix X _ M L tol nz d HX HY HL HC HN HM HT HZ) as [T1 T2]. destruct (tol_matrix _ X L M tol nz d HY HX (eq_sym HL) (eq_sym HC) HN' ltac:(rewrite <- HL, <- HC; exact HM) HT HZ) as [T3 T4].
  unfold within_tol_abs_al2, within_tol_abs_la2, within_tol_rel_al2, within_tol_rel_la2. rewrite E. cbn [bind]. split; [exact T1|]. split; [|split; [exact T2|]].
  - destruct T3 as (b & Eb & Hb). exists b. split; [exact Eb|]. rewrite Hb. split; intros H i j x y H1 H2; eauto.
  - destruct T4 as (b & Eb & Hb). exists b. split; [exact Eb|]. rewrite Hb. split; intros H i j x y H1 H2; eauto.
Qed.
(** The error measures of matrices: over all their elements. *)
Theorem err_matrix X Y M K (e v : flt) : produces2 X M -> produces2 Y K -> zlen M = zlen K -> ncols M = ncols K -> M <> [] -> zlen M * ncols M <= LONG_MAX ->
  (forall i j z, mget M i j = Some z \/ mget K i j = Some z -> is_finite z = true) -> is_finite v = true ->
  (max_abs_error2 F c X Y e = Ok v ->
    (Rabs (B2R v - norminf (map (fun p => B2R (fst p) - B2R (snd p)) (combine (concat M) (concat K)))) <= uro prec * norminf (map (fun p => B2R (fst p) - B2R (snd p)) (combine (concat M) (concat K))))%R) /\
  (prec + 4 <= emax -> max_rel_error2 F c X Y e = Ok (Some v) ->
    (Rabs (B2R v - norminf (map (fun p => (B2R (fst p) - B2R (snd p)) / B2R (snd p)) (combine (concat M) (concat K)))) <= (2 * uro prec + uro prec * uro prec) * norminf (map (fun p => (B2R (fst p) - B2R (snd p)) / B2R (snd p)) (combine (concat M) (concat K))))%R) /\
  (max_rel_error2 F c X Y e = Ok None <-> exists i j s, mget M i j = Some (B754_zero s) \/ mget K i j = Some (B754_zero s)).
Proof.
  intros HX HY HL HC HN HM HF FV. destruct (same_of X Y M K HX HY HL HC) as [S1 S2]. destruct (flat_tools F c X Y v v true e S1 S2) as (_ & _ & -> & ->).
  pose proof (flat_yields X M HX HM) as YX. pose proof (flat_yields Y K HY ltac:(rewrite <- HL, <- HC; exact HM)) as YY.
  pose proof HX as (WM & _). pose proof HY as (WK & _). assert (RM : rect (ncols M) M) by now apply wfm_rect. assert (RK : rect (ncols M) K) by (rewrite HC; now apply wfm_rect).
  assert (LE : zlen (concat M) = zlen (concat K)) by (rewrite !(zlen_concat (ncols M)) by assumption; now rewrite HL).
  assert (NE : concat M <> []). { intros E. pose proof (zlen_concat _ _ RM) as Q. rewrite E in Q. change (zlen (@nil flt)) with 0 in Q. pose proof (proj2 WM HN). destruct M; [contradiction|]. rewrite zlen_cons in Q. pose proof (zlen_nonneg M). nia. }
  assert (IN : forall (Q : list (list flt)) z, In z (concat Q) <-> exists i j, mget Q i j = Some z).
  { intros Q z. rewrite in_concat. split.
    - intros (r & Hr & Hz). apply in_znth in Hr, Hz. destruct Hr as [i Hi], Hz as [j Hj]. exists i, j. unfold mget. now rewrite Hi.
    - intros (i & j & H). unfold mget in H. destruct (znth Q i) as [r|] eqn:E; [|discriminate]. exists r. split; [now apply (znth_in _ i)|now apply (znth_in _ j)]. }
  assert (FE : forall z, In z (concat M) \/ In z (concat K) -> is_finite z = true) by (intros z [H|H]; apply IN in H; destruct H as (i & j & H); eauto).
  split; [|split].
  - intros E. exact (max_abs_accuracy prec emax c _ _ _ _ e v YX YY LE NE FE E FV).
  - intros HE E. exact (max_rel_accuracy prec emax c _ _ _ _ e v HE YX YY LE NE FE E FV).
  - rewrite (max_rel_none prec emax c _ _ _ _ e YX YY LE NE). split.
    + intros (s & [H|H]); apply IN in H; destruct H as (i & j & H); exists i, j, s; tauto.
    + intros (i & j & s & [H|H]); exists s; [left|right]; apply IN; eauto.
Qed.
End MATRIX.
