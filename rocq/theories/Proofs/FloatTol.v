(** Tolerances and largest errors in IEEE arithmetic. *)
From Coq Require Import ZArith Reals Lra Lia.
From Flocq Require Import Core BinarySingleNaN Plus_error.
From Verif Require Import Base.Outcome Base.ZList Model.Index Model.Array1D Model.Expr Model.Reduce Model.StableOps Model.FloatModel.
From Verif Require Import Spec.ExprSpec Spec.ReduceSpec Spec.NormSpec Spec.FloatSpec.
From Verif Require Import Proofs.ExprProofs Proofs.ExprMore Proofs.ReduceProofs Proofs.ReduceThms Proofs.StableLoops Proofs.FloatProofs Proofs.FloatSum Proofs.FloatAcc Proofs.FloatCmp.
Local Open Scope R_scope.

Section FTOL.
Context (prec emax : Z) {Hp : Prec_gt_0 prec} {He : Prec_lt_emax prec emax}.
Notation flt := (binary_float prec emax).
Notation fexp := (SpecFloat.fexp prec emax).
Notation rnd := (round radix2 fexp ZnearestE).
Notation F := (fnum prec emax).
Notation top := (bpow radix2 emax).
Notation fzero := (FloatSpec.fzero prec emax).
Notation near := (FloatSpec.near prec emax).
Notation ev := (ev prec emax).
Notation u := (uro prec).
Implicit Types x y z a b tol : flt.

Lemma sub_ev x y : is_finite x = true -> is_finite y = true -> is_nan (nsub F x y) = false /\
  Rabs (ev (nsub F x y)) = if Rlt_bool (Rabs (near (B2R x - B2R y))) top then Rabs (near (B2R x - B2R y)) else top.
Proof.
  intros Hx Hy. generalize (Bminus_correct prec emax Hp He mode_NE x y Hx Hy). cbn [round_mode]. change (rnd (B2R x - B2R y)) with (near (B2R x - B2R y)).
  change (Bminus mode_NE x y) with (nsub F x y). case Rlt_bool_spec; intros L.
  - intros (A & B & _). split; [now destruct (nsub F x y)|]. rewrite ev_fin by exact B. now rewrite A.
  - intros [A _]. destruct (nsub F x y); try discriminate. split; [reflexivity|]. cbn [FloatCmp.ev]. pose proof (top_pos emax). destruct s; [rewrite Rabs_Ropp|]; rewrite Rabs_pos_eq; lra.
Qed.
Lemma near_opp r : near (- r) = - near r.
Proof. apply round_NE_opp. Qed.
Lemma sub_swap x y : is_nan (nsub F x y) = is_nan (nsub F y x) /\ (is_nan (nsub F x y) = false -> ev (nabs F (nsub F x y)) = ev (nabs F (nsub F y x))).
Proof.
  destruct (is_finite x && is_finite y) eqn:E.
  - apply andb_prop in E. destruct E as [Hx Hy]. destruct (sub_ev x y Hx Hy) as [A1 A2]. destruct (sub_ev y x Hy Hx) as [B1 B2]. rewrite A1, B1. split; [reflexivity|]. intros _.
    rewrite !ev_nabs by assumption. rewrite A2, B2. replace (B2R y - B2R x) with (- (B2R x - B2R y)) by ring. now rewrite near_opp, Rabs_Ropp.
  - destruct x as [s|s| |s m e h], y as [s'|s'| |s' m' e' h']; try discriminate; cbn; try destruct s; try destruct s'; cbn; split; trivial; discriminate.
Qed.
Lemma tol_ok tol : Bleb fzero tol = true -> nge F tol (nzero F) = true.
Proof. exact (fun H => H). Qed.

(** ** within_tol_abs *)
Lemma leb_abs_sym x y tol : Bleb (nabs F (nsub F x y)) tol = Bleb (nabs F (nsub F y x)) tol.
Proof.
  destruct (sub_swap x y) as [A B]. destruct (is_nan (nsub F x y)) eqn:E.
  - now rewrite !leb_nan_l by (now rewrite nabs_nan).
  - destruct (is_nan tol) eqn:T; [now rewrite !leb_nan_r by exact T|]. rewrite !leb_ev; trivial; rewrite ?nabs_nan; try congruence. now rewrite B.
Qed.
Theorem abs_sym c x y tol : within_tol_abs F c x y tol = within_tol_abs F c y x tol.
Proof.
  unfold within_tol_abs. change (nle F) with (@Bleb prec emax). now rewrite leb_abs_sym.
Qed.
Theorem abs_value c x y tol : is_finite x = true -> is_finite y = true -> is_finite tol = true -> Bleb fzero tol = true ->
  exists b : bool, within_tol_abs F c x y tol = Ok b /\ (b = true <-> Rabs (near (B2R x - B2R y)) <= B2R tol).
Proof.
  intros Hx Hy Ht HT. unfold within_tol_abs. rewrite (tol_ok tol HT), check_debug_true. cbn [bind]. eexists. split; [reflexivity|]. change (nle F) with (@Bleb prec emax).
  destruct (sub_ev x y Hx Hy) as [A B]. rewrite leb_ev_true. rewrite nabs_nan, ev_nabs, B by exact A. rewrite (ev_fin _ _ tol Ht). pose proof (B2R_lt_top prec emax tol) as BT. apply Rabs_def2 in BT.
  assert (is_nan tol = false) by (now destruct tol). case Rlt_bool_spec; intros L; split; intros H1; try tauto; try lra.
Qed.
(** Points that are within the tolerance are accepted; accepted points are within the tolerance up to one rounding. *)
Theorem abs_sound c x y tol : is_finite x = true -> is_finite y = true -> is_finite tol = true -> Bleb fzero tol = true ->
  (Rabs (B2R x - B2R y) <= B2R tol -> within_tol_abs F c x y tol = Ok true) /\
  (within_tol_abs F c x y tol = Ok true -> Rabs (B2R x - B2R y) <= (1 + u) * B2R tol).
Proof.
  intros Hx Hy Ht HT. destruct (abs_value c x y tol Hx Hy Ht HT) as (b & -> & E). split.
  - intros H. f_equal. apply E. apply abs_round_le_generic; try typeclasses eauto; [apply generic_format_B2R|exact H].
  - intros H. injection H as ->. destruct E as [E _]. specialize (E eq_refl).
    destruct (FLT_plus_error_N_round_ex radix2 (3 - emax - prec) prec (fun v => negb (Z.even v)) (B2R x) (B2R (Bopp y))) as (eps & B & R).
    + apply generic_format_B2R.
    + apply generic_format_B2R.
    + rewrite B2R_Bopp in R. change (round radix2 _ _ (B2R x + - B2R y)) with (near (B2R x - B2R y)) in R. change (B2R x + - B2R y) with (B2R x - B2R y) in R. rewrite R, Rabs_mult.
      rewrite u_ro_u in B. pose proof (u_pos prec) as UP. apply Rabs_le_inv in B. rewrite Rmult_comm. apply Rmult_le_compat; try apply Rabs_pos; [|exact E].
      apply Rabs_le. lra.
Qed.
Theorem abs_refl c x tol : is_finite x = true -> Bleb fzero tol = true -> within_tol_abs F c x x tol = Ok true.
Proof.
  intros Hx HT. unfold within_tol_abs. rewrite (tol_ok tol HT), check_debug_true. cbn [bind]. f_equal. change (nle F) with (@Bleb prec emax).
  destruct (sub_ev x x Hx Hx) as [A B]. apply leb_ev_true in HT. destruct HT as (_ & T1 & T2). cbn [FloatCmp.ev FloatSpec.fzero B2R] in T2.
  apply leb_ev_true. rewrite nabs_nan, ev_nabs, B by exact A. repeat split; try assumption. replace (B2R x - B2R x) with 0 by ring. unfold FloatSpec.near. rewrite round_0, Rabs_R0 by typeclasses eauto.
  rewrite Rlt_bool_true by apply top_pos. exact T2.
Qed.
Theorem abs_mono c x y tol tol' : Bleb fzero tol = true -> Bleb tol tol' = true -> within_tol_abs F c x y tol = Ok true -> within_tol_abs F c x y tol' = Ok true.
Proof.
  intros HT HL H. pose proof (leb_trans _ _ _ _ _ HT HL) as HT'. unfold within_tol_abs in *. rewrite (tol_ok tol HT), check_debug_true in H. rewrite (tol_ok tol' HT'), check_debug_true. cbn [bind] in *.
  injection H as H. f_equal. change (nle F) with (@Bleb prec emax) in *. now apply leb_trans with tol.
Qed.
(** No pair with an undefined difference is accepted: a NaN, or twice the same infinity. *)
Theorem abs_special c x y tol : Bleb fzero tol = true -> (is_nan x = true \/ is_nan y = true \/ exists s, x = B754_infinity s /\ y = B754_infinity s) -> within_tol_abs F c x y tol = Ok false.
Proof.
  intros HT H. unfold within_tol_abs. rewrite (tol_ok tol HT), check_debug_true. cbn [bind]. f_equal. change (nle F) with (@Bleb prec emax). apply leb_nan_l. rewrite nabs_nan.
  destruct H as [H|[H|[s [-> ->]]]]; [now destruct x|now destruct x, y|now destruct s].
Qed.
Theorem tol_bad c x y tol nz : checked c = true -> Bleb fzero tol = false -> within_tol_abs F c x y tol = Fail (report c) /\ within_tol_rel F c x y tol nz = Fail (report c).
Proof. intros HC HT. unfold within_tol_abs, within_tol_rel. change (nge F tol (nzero F)) with (Bleb fzero tol). rewrite HT. now rewrite !check_debug_false. Qed.

(** ** within_tol_rel *)
Lemma maxs_nan a b : is_nan a = false -> is_nan b = false -> is_nan (nmaxs F a b) = false.
Proof. intros A B. unfold nmaxs. now destruct (ngt F a b). Qed.
Lemma maxs_ev a b : is_nan a = false -> is_nan b = false -> ev (nmaxs F a b) = Rmax (ev a) (ev b).
Proof.
  intros A B. unfold nmaxs. change (ngt F a b) with (Bltb b a). rewrite ltb_ev by assumption. case Rlt_bool_spec; intros L; [now rewrite Rmax_left by lra|now rewrite Rmax_right by lra].
Qed.
Lemma maxs_fin a b : is_finite a = true -> is_finite b = true -> is_finite (nmaxs F a b) = true.
Proof. intros A B. unfold nmaxs. now destruct (ngt F a b). Qed.
Lemma ev_inj a b : is_nan a = false -> is_nan b = false -> ev a = ev b -> ev a <> 0 -> a = b.
Proof.
  intros A B E N. pose proof (top_pos emax) as TP. pose proof (B2R_lt_top prec emax a) as BA. pose proof (B2R_lt_top prec emax b) as BB. apply Rabs_def2 in BA, BB.
  destruct a as [s|s| |s m e h], b as [s'|s'| |s' m' e' h']; try discriminate; cbn [FloatCmp.ev] in *; try (cbn [B2R] in *; try destruct s; try destruct s'; try reflexivity; exfalso; lra).
  now apply B2R_inj.
Qed.
Lemma div_zero s m : is_nan m = false -> ev m <> 0 -> exists s', ndiv F (B754_zero s) m = B754_zero s'.
Proof. intros A B. destruct m as [s'|s'| |s' m e h]; try discriminate; [contradiction B; reflexivity| |]; eexists; reflexivity. Qed.
Lemma leb_zero s s' tol : Bleb (B754_zero s) tol = Bleb (B754_zero s') tol.
Proof. destruct s, s', tol; reflexivity. Qed.
Lemma ev_zero a : is_nan a = false -> ev a = 0 -> exists s, a = B754_zero s.
Proof.
  intros A E. destruct a as [s|s| |s m e h]; try discriminate; [eauto| |].
  - cbn in E. pose proof (top_pos emax). destruct s; lra.
  - cbn [FloatCmp.ev B2R] in E. exfalso. apply (F2R_neq_0 radix2) in E; [exact E|]. destruct s; discriminate.
Qed.
Theorem rel_sym c x y tol nz : is_nan x = false -> is_nan y = false -> Bleb fzero nz = true -> within_tol_rel F c x y tol nz = within_tol_rel F c y x tol nz.
Proof.
  intros Hx Hy HZ. unfold within_tol_rel. change (nle F) with (@Bleb prec emax). rewrite (tol_ok nz HZ), check_debug_true. cbn [bind].
  set (m1 := nmaxs F (nabs F x) (nabs F y)). set (m2 := nmaxs F (nabs F y) (nabs F x)).
  assert (N1 : is_nan m1 = false) by (apply maxs_nan; now rewrite nabs_nan). assert (N2 : is_nan m2 = false) by (apply maxs_nan; now rewrite nabs_nan).
  assert (EM : ev m1 = ev m2) by (unfold m1, m2; rewrite !maxs_ev by (now rewrite nabs_nan); apply Rmax_comm).
  apply leb_ev_true in HZ. destruct HZ as (_ & Z1 & Z2). cbn [FloatCmp.ev FloatSpec.fzero B2R] in Z2.
  rewrite (leb_ev _ _ m1 nz), (leb_ev _ _ m2 nz) by assumption. rewrite EM. case Rle_bool_spec; intros L; [reflexivity|].
  assert (m2 = m1) as M12 by (symmetry; apply ev_inj; trivial; lra). rewrite <- EM in L. rewrite M12.
  assert (Bleb (ndiv F (nabs F (nsub F x y)) m1) tol = Bleb (ndiv F (nabs F (nsub F y x)) m1) tol) as ->; [|reflexivity].
  destruct (sub_swap x y) as [A B]. set (d1 := nsub F x y) in *. set (d2 := nsub F y x) in *. destruct (is_nan d1) eqn:E.
  - assert (DN : forall d, is_nan d = true -> is_nan (ndiv F (nabs F d) m1) = true) by (intros [| | |] HD; try discriminate; now destruct m1).
    rewrite !leb_nan_l; trivial; apply DN; congruence.
  - specialize (B eq_refl). destruct (Req_dec (ev (nabs F d1)) 0) as [Z|Z].
    + destruct (ev_zero (nabs F d1)) as [s1 S1]; [now rewrite nabs_nan|exact Z|]. destruct (ev_zero (nabs F d2)) as [s2 S2]; [now rewrite nabs_nan|congruence|].
      rewrite S1, S2. destruct (div_zero s1 m1 N1) as [t1 ->]; [lra|]. destruct (div_zero s2 m1 N1) as [t2 ->]; [lra|]. apply leb_zero.
    + now rewrite (ev_inj (nabs F d1) (nabs F d2)) by (rewrite ?nabs_nan; congruence).
Qed.
Lemma Bsign_pos a : 0 < B2R a -> Bsign a = false.
Proof. destruct a as [s|s| |s m e h]; cbn [B2R Bsign]; try lra. intros H. destruct s; [|reflexivity]. apply (gt_0_F2R radix2) in H. cbn in H. lia. Qed.
Lemma div_leb a b tol : is_finite a = true -> is_finite tol = true -> 0 <= B2R a -> 0 < B2R b -> Bleb (ndiv F a b) tol = Rle_bool (near (B2R a / B2R b)) (B2R tol).
Proof.
  intros Ha Ht PA PB. generalize (Bdiv_correct prec emax Hp He mode_NE a b ltac:(lra)). cbn [round_mode]. change (rnd (B2R a / B2R b)) with (near (B2R a / B2R b)). change (Bdiv mode_NE a b) with (ndiv F a b).
  case Rlt_bool_spec; intros L.
  - intros (A & B & _). rewrite Ha in B. rewrite Bleb_correct by assumption. now rewrite A.
  - intros A. pose proof (top_pos emax) as TP. pose proof (B2R_lt_top prec emax tol) as BT. apply Rabs_def2 in BT.
    destruct (Req_dec (B2R a) 0) as [Z|Z]. { exfalso. unfold FloatSpec.near in L. replace (B2R a / B2R b) with 0 in L by (rewrite Z; field; lra). rewrite round_0, Rabs_R0 in L by typeclasses eauto. lra. }
    rewrite (Bsign_pos a), (Bsign_pos b) in A by lra. change (B2SF (ndiv F a b) = SpecFloat.S754_infinity false) in A. destruct (ndiv F a b) as [s|s| |s m e h]; try discriminate. injection A as ->.
    assert (0 <= near (B2R a / B2R b)). { unfold FloatSpec.near. apply round_ge_generic; try typeclasses eauto; [apply generic_format_0|]. apply Rmult_le_pos; [lra|]. apply Rlt_le, Rinv_0_lt_compat. lra. }
    rewrite Rabs_pos_eq in L by assumption. rewrite Rle_bool_false by lra. destruct tol; try discriminate; reflexivity.
Qed.
Theorem rel_value c x y tol nz : is_finite x = true -> is_finite y = true -> is_finite (Bminus mode_NE x y) = true -> is_finite tol = true -> is_finite nz = true -> Bleb fzero tol = true -> Bleb fzero nz = true ->
  exists b : bool, within_tol_rel F c x y tol nz = Ok b /\
    (b = true <-> Rmax (Rabs (B2R x)) (Rabs (B2R y)) <= B2R nz \/ near (Rabs (near (B2R x - B2R y)) / Rmax (Rabs (B2R x)) (Rabs (B2R y))) <= B2R tol).
Proof.
  intros Hx Hy Hd Ht Hz HT HZ. unfold within_tol_rel. rewrite (tol_ok tol HT), (tol_ok nz HZ), !check_debug_true. cbn [bind]. change (nle F) with (@Bleb prec emax).
  destruct (nabs_fin prec emax x Hx) as [X1 X2]. destruct (nabs_fin prec emax y Hy) as [Y1 Y2].
  assert (FM : is_finite (nmaxs F (nabs F x) (nabs F y)) = true) by now apply maxs_fin.
  assert (NX : is_nan (nabs F x) = false) by (now destruct (nabs F x)). assert (NY : is_nan (nabs F y) = false) by (now destruct (nabs F y)).
  assert (EM : B2R (nmaxs F (nabs F x) (nabs F y)) = Rmax (Rabs (B2R x)) (Rabs (B2R y))). { rewrite <- ev_fin by exact FM. rewrite maxs_ev by assumption. now rewrite !ev_fin, X2, Y2 by assumption. }
  set (m := nmaxs F (nabs F x) (nabs F y)) in *. rewrite Bleb_correct by assumption. rewrite EM.
  assert (Z0 : 0 <= B2R nz). { rewrite Bleb_correct in HZ by (trivial; reflexivity). revert HZ. cbn [FloatSpec.fzero B2R]. case Rle_bool_spec; [trivial|discriminate]. }
  case Rle_bool_spec; intros L; (eexists; split; [reflexivity|]); [tauto|].
  change (nsub F x y) with (Bminus mode_NE x y). destruct (nabs_fin prec emax _ Hd) as [D1 D2]. rewrite div_leb; [|assumption|assumption|rewrite D2; apply Rabs_pos|lra]. rewrite D2, EM.
  destruct (minus_inv prec emax x y Hx Hy Hd) as [DD _]. change (nsub F x y) with (Bminus mode_NE x y) in DD. rewrite DD. change (rnd (B2R x - B2R y)) with (near (B2R x - B2R y)).
  case Rle_bool_spec; intros L2; split; intros H; try tauto; try discriminate. lra.
Qed.
Theorem rel_refl c x tol nz : is_finite x = true -> Bleb fzero tol = true -> Bleb fzero nz = true -> within_tol_rel F c x x tol nz = Ok true.
Proof.
  intros Hx HT HZ. unfold within_tol_rel. rewrite (tol_ok tol HT), (tol_ok nz HZ), !check_debug_true. cbn [bind]. change (nle F) with (@Bleb prec emax).
  set (m := nmaxs F (nabs F x) (nabs F x)). destruct (Bleb m nz) eqn:E; [reflexivity|]. f_equal.
  assert (NX : is_nan x = false) by now destruct x. assert (NM : is_nan m = false) by (apply maxs_nan; now rewrite nabs_nan).
  apply leb_ev_true in HZ. destruct HZ as (_ & Z1 & Z2). cbn [FloatCmp.ev FloatSpec.fzero B2R] in Z2.
  rewrite leb_ev in E by assumption. assert (ev m <> 0) by (revert E; case Rle_bool_spec; [discriminate|lra]).
  destruct (sub_ev x x Hx Hx) as [A B]. destruct (ev_zero (nabs F (nsub F x x))) as [s ->].
  - now rewrite nabs_nan.
  - rewrite ev_nabs by exact A. rewrite B. replace (B2R x - B2R x) with 0 by ring. unfold FloatSpec.near. rewrite round_0, Rabs_R0 by typeclasses eauto. now rewrite Rlt_bool_true by apply top_pos.
  - destruct (div_zero s m NM) as [t ->]; [assumption|]. now rewrite (leb_zero t false).
Qed.
Theorem rel_mono c x y tol tol' nz nz' : Bleb fzero tol = true -> Bleb tol tol' = true -> Bleb fzero nz = true -> Bleb nz nz' = true ->
  within_tol_rel F c x y tol nz = Ok true -> within_tol_rel F c x y tol' nz' = Ok true.
Proof.
  intros HT HL HZ HM H. pose proof (leb_trans _ _ _ _ _ HT HL) as HT'. pose proof (leb_trans _ _ _ _ _ HZ HM) as HZ'. unfold within_tol_rel in *. rewrite (tol_ok tol HT), (tol_ok nz HZ), !check_debug_true in H. rewrite (tol_ok tol' HT'), (tol_ok nz' HZ'), !check_debug_true.
  cbn [bind] in *. change (nle F) with (@Bleb prec emax) in *. destruct (Bleb (nmaxs F _ _) nz') eqn:E'; [reflexivity|].
  destruct (Bleb (nmaxs F _ _) nz) eqn:E. { rewrite (leb_trans _ _ _ _ _ E HM) in E'. discriminate. }
  injection H as H. f_equal. now apply leb_trans with tol.
Qed.
(** NaN: the second argument decides. *)
Theorem rel_nan_left c y tol nz : Bleb fzero tol = true -> Bleb fzero nz = true -> within_tol_rel F c B754_nan y tol nz = Ok (Bleb (Babs y) nz).
Proof.
  intros HT HZ. unfold within_tol_rel. rewrite (tol_ok tol HT), (tol_ok nz HZ), !check_debug_true. cbn [bind]. change (nle F) with (@Bleb prec emax).
  assert (nmaxs F (nabs F B754_nan) (nabs F y) = nabs F y) as ->. { unfold nmaxs. change (ngt F (nabs F B754_nan) (nabs F y)) with (Bltb (nabs F y) B754_nan). now rewrite ltb_nan_r. }
  rewrite leb_nabs. destruct (Bleb (Babs y) nz); [reflexivity|]. reflexivity.
Qed.
Theorem rel_nan_right c x tol nz : Bleb fzero tol = true -> Bleb fzero nz = true -> within_tol_rel F c x B754_nan tol nz = Ok false.
Proof.
  intros HT HZ. unfold within_tol_rel. rewrite (tol_ok tol HT), (tol_ok nz HZ), !check_debug_true. cbn [bind]. change (nle F) with (@Bleb prec emax).
  assert (nmaxs F (nabs F x) (nabs F B754_nan) = B754_nan) as ->. { unfold nmaxs. change (ngt F (nabs F x) (nabs F B754_nan)) with (Bltb B754_nan (nabs F x)). now rewrite ltb_nan_l. }
  rewrite leb_nan_l by reflexivity. f_equal. apply leb_nan_l. now destruct (nabs F (nsub F x B754_nan)).
Qed.

(** ** Arrays *)
Theorem abs_array c (A B : src1 flt) l k tol d : yields A (map Ok l) -> yields B (map Ok k) -> zlen l = zlen k -> l <> [] -> Bleb fzero tol = true ->
  exists b : bool, within_tol_abs_arr F c A B tol d = Ok b /\ (b = true <-> forall x y, In (x, y) (combine l k) -> within_tol_abs F c x y tol = Ok true).
Proof.
  intros HA HB HL HN HT. unfold within_tol_abs_arr, within_tol_abs. rewrite (tol_ok tol HT), !check_debug_true. cbn [bind]. pose proof HA as (E1 & _). pose proof HB as (E2 & _). rewrite zlen_map in E1, E2.
  rewrite E1, E2, HL, Z.eqb_refl, check_debug_true. cbn [bind]. rewrite <- HL, zlen_nonzero by exact HN.
  destruct (quant2_ok c (fun x y => nle F (nabs F (nsub F x y)) tol) A B l k false HA HB HL HN) as (_ & (r & R1 & R2) & _). exists r. split; [exact R1|]. rewrite R2.
  split; intros H x y Hxy; specialize (H x y Hxy); congruence.
Qed.
Theorem rel_array c (A B : src1 flt) l k tol nz d : yields A (map Ok l) -> yields B (map Ok k) -> zlen l = zlen k -> l <> [] -> Bleb fzero tol = true -> Bleb fzero nz = true ->
  exists b : bool, within_tol_rel_arr F c A B tol nz d = Ok b /\ (b = true <-> forall x y, In (x, y) (combine l k) -> within_tol_rel F c x y tol nz = Ok true).
Proof.
  intros HA HB HL HN HT HZ. unfold within_tol_rel_arr. pose proof HA as (E1 & _). pose proof HB as (E2 & _). rewrite zlen_map in E1, E2.
  rewrite E1, E2, HL, Z.eqb_refl, check_debug_true. cbn [bind]. rewrite <- HL, zlen_nonzero by exact HN.
  set (f := fun x y => if nle F (nmaxs F (nabs F x) (nabs F y)) nz then true else nle F (ndiv F (nabs F (nsub F x y)) (nmaxs F (nabs F x) (nabs F y))) tol).
  assert (EF : forall x y, within_tol_rel F c x y tol nz = Ok (f x y)). { intros x y. unfold within_tol_rel, f. rewrite (tol_ok tol HT), (tol_ok nz HZ), !check_debug_true. cbn [bind]. now destruct (nle F (nmaxs F (nabs F x) (nabs F y)) nz). }
  pose proof (pair_ok A B _ _ HA HB ltac:(now rewrite !zlen_map)) as HP. rewrite zip_pairs in HP.
  assert (combine l k <> []) as HC by (destruct l, k; cbn; unfold zlen in HL; cbn in HL; try congruence; lia).
  unfold r_all2. rewrite check_debug_true. cbn [bind]. rewrite (all_eq _ _ _ false HP) by (destruct (combine l k); [contradiction|discriminate]).
  clear HP HC HL HN E1 E2 HA HB. induction (combine l k) as [|[x y] r IH].
  - exists true. split; [reflexivity|]. split; [intros _ x y []|trivial].
  - cbn [map fold_right bind fst snd]. rewrite EF. cbn [bind]. destruct (f x y) eqn:E.
    + destruct IH as (b & -> & IH). exists b. split; [reflexivity|]. rewrite IH. split; [intros H a b0 [Q|Q]; [injection Q as <- <-; rewrite EF; congruence|now apply H]|intros H a b0 Q; apply H; now right].
    + exists false. split; [reflexivity|]. split; [discriminate|]. intros H. specialize (H x y (or_introl eq_refl)). rewrite EF in H. congruence.
Qed.
Theorem arrays_bad c (A B : src1 flt) tol nz d e : checked c = true -> ssize A <> ssize B ->
  within_tol_abs_arr F c A B tol d = Fail (report c) /\ within_tol_rel_arr F c A B tol nz d = Fail (report c) /\ max_abs_error F c A B e = Fail (report c) /\ max_rel_error F c A B e = Fail (report c).
Proof. intros HC HN. unfold within_tol_abs_arr, within_tol_rel_arr, max_abs_error, max_rel_error. replace (ssize A =? ssize B)%Z with false by lia. now rewrite !check_debug_false. Qed.
Theorem arrays_empty c (A B : src1 flt) tol nz d e : yields A [] -> yields B [] ->
  within_tol_abs_arr F c A B tol d = Ok d /\ within_tol_rel_arr F c A B tol nz d = Ok d /\ max_abs_error F c A B e = Ok e /\ max_rel_error F c A B e = Ok (Some e).
Proof. intros (E1 & _) (E2 & _). unfold within_tol_abs_arr, within_tol_rel_arr, max_abs_error, max_rel_error. rewrite E1, E2. rewrite zlen_nil. cbn [Z.eqb]. now rewrite !check_debug_true. Qed.
Lemma zip_pure {U V W} (f : U -> V -> W) l k : zip (fun u v => Ok (f u v)) (map Ok l) (map Ok k) = map Ok (map (fun p => f (fst p) (snd p)) (combine l k)).
Proof. revert k. induction l as [|x l IH]; intros [|y k]; cbn; try reflexivity. f_equal. apply IH. Qed.
Theorem max_abs_error_nonan c (A B : src1 flt) x y l k d : yields A (map Ok (x :: l)) -> yields B (map Ok (y :: k)) -> zlen l = zlen k -> is_nan (Bminus mode_NE x y) = false ->
  exists v, max_abs_error F c A B d = Ok v /\ is_nan v = false /\
    (exists a b, In (a, b) (combine (x :: l) (y :: k)) /\ is_nan (Bminus mode_NE a b) = false /\ Beqb v (Babs (Bminus mode_NE a b)) = true) /\
    forall a b, In (a, b) (combine (x :: l) (y :: k)) -> is_nan (Bminus mode_NE a b) = false -> Bleb (Babs (Bminus mode_NE a b)) v = true.
Proof.
  intros HA HB HL HX. unfold max_abs_error. pose proof HA as (E1 & _). pose proof HB as (E2 & _). rewrite zlen_map in E1, E2. rewrite E1, E2, !zlen_cons, HL, Z.eqb_refl, check_debug_true. cbn [bind].
  pose proof (zlen_nonneg k). replace (1 + zlen k =? 0)%Z with false by lia.
  destruct (bin_ok c (fun x y => Ok (nsub F x y)) A B _ _ HA HB) as (R & -> & HR). { rewrite !zlen_map, !zlen_cons. lia. }
  cbn [bind]. rewrite zip_pure in HR. cbn [combine map fst snd] in HR.
  destruct (norm_inf_nonan prec emax R _ _ (nzero F) HR HX) as (v & V1 & V2 & (z & V3 & V4 & V5) & V6). exists v. split; [exact V1|]. split; [exact V2|].
  change (nsub F x y :: map (fun p => nsub F (fst p) (snd p)) (combine l k)) with (map (fun p => nsub F (fst p) (snd p)) (combine (x :: l) (y :: k))) in V3, V6. split.
  - apply in_map_iff in V3. destruct V3 as ([a b] & <- & Hab). exists a, b. now split.
  - intros a b Hab Nab. apply V6; [|exact Nab]. now apply (in_map (fun p => nsub F (fst p) (snd p)) _ (a, b)).
Qed.
Theorem norm_inf_nan (A : src1 flt) x l d : yields A (map Ok (x :: l)) -> is_nan x = true -> norm_inf F A d = Ok B754_nan.
Proof.
  intros HA HX. unfold norm_inf, r_norm_inf. pose proof HA as (E & _ & _). rewrite zlen_map in E. rewrite E, zlen_nonzero by discriminate.
  pose proof (un_ok (fun x => Ok (nabs F x)) A _ HA) as HU. rewrite map_abs in HU. cbn [map] in HU.
  destruct (minmax_nan prec emax _ (nabs F x) (map (nabs F) l) (nzero F) HU) as [E1 _]; [now rewrite nabs_nan|]. exact E1.
Qed.
Theorem max_abs_error_nan c (A B : src1 flt) x y l k d : yields A (map Ok (x :: l)) -> yields B (map Ok (y :: k)) -> zlen l = zlen k -> is_nan (Bminus mode_NE x y) = true ->
  max_abs_error F c A B d = Ok B754_nan.
Proof.
  intros HA HB HL HX. unfold max_abs_error. pose proof HA as (E1 & _). pose proof HB as (E2 & _). rewrite zlen_map in E1, E2. rewrite E1, E2, !zlen_cons, HL, Z.eqb_refl, check_debug_true. cbn [bind].
  pose proof (zlen_nonneg k). replace (1 + zlen k =? 0)%Z with false by lia.
  destruct (bin_ok c (fun x y => Ok (nsub F x y)) A B _ _ HA HB) as (R & -> & HR). { rewrite !zlen_map, !zlen_cons. lia. }
  cbn [bind]. rewrite zip_pure in HR. cbn [combine map fst snd] in HR. exact (norm_inf_nan R _ _ _ HR HX).
Qed.

(** ** linspace and comparison of arrays *)
Theorem linspace_one c (a b : flt) : exists R, x_linspace c (fun x y => Ok (nadd F x y)) (fun x y => Ok (nsub F x y)) (fun x y => Ok (nmul F x y)) (fun x y => Ok (ndiv F x y)) (fun i => Ok (nofZ F i)) 1 a b = Ok R /\
  ssize R = 1%Z /\ sun R 0 = Ok B754_nan.
Proof.
  unfold x_linspace, x_seq. rewrite check_debug_true. cbn [bind]. rewrite lsub_ok by (unfold LONG_MIN, LONG_MAX; lia). cbn [bind]. change (1 - 1)%Z with 0%Z. rewrite check_debug_true. cbn [bind].
  eexists. split; [reflexivity|]. split; [reflexivity|]. cbn [sun bind]. f_equal.
  assert (E0 : nofZ F 0 = B754_zero false) by reflexivity. rewrite E0.
  assert (EN : nmul F (ndiv F (nsub F b a) (B754_zero false)) (B754_zero false) = B754_nan) by (destruct (nsub F b a) as [s|s| |s m e h]; reflexivity).
  rewrite EN. now destruct a.
Qed.
Theorem eq_nan (A : src1 flt) l : yields A (map Ok l) ->
  ((forall x, In x l -> is_nan x = false) -> x_eq1 (neqo (@Beqb prec emax)) A A = Ok true) /\
  ((exists x, In x l /\ is_nan x = true) -> x_eq1 (neqo (@Beqb prec emax)) A A = Ok false /\ x_neq1 (neqo (@Beqb prec emax)) A A = Ok true).
Proof.
  intros HA. destruct (eq1_refl (@Beqb prec emax) A l HA) as [H1 H2]. split.
  - intros H. apply H1. intros x Hx. rewrite Beqb_refl. now rewrite (H x Hx).
  - intros (x & Hx & Nx). apply (H2 x Hx). rewrite Beqb_refl. now rewrite Nx.
Qed.
End FTOL.
