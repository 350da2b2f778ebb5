(** Conversions between built-in types. *)
From Coq Require Import ZArith Reals Bool List Lia Lra Psatz.
From Flocq Require Import Core BinarySingleNaN Relative.
From Verif Require Import Base.Outcome Base.ZList Model.IntModel Model.StableOps Model.FloatModel Model.Expr Model.Random Model.Scalars.
From Verif Require Import Spec.IntSpec Spec.ExprSpec Spec.FloatSpec Spec.Configs Spec.ScalarSpec Proofs.IntProofs Proofs.ExprProofs Proofs.LiteralProofs.
Import ListNotations.
Local Open Scope Z_scope.

Notation nearf f := (near (fprec f) (femax f)).
Lemma prec_bounds f : 24 <= fprec f <= 113. Proof. destruct f; cbn; lia. Qed.
Lemma emax_bounds f : 128 <= femax f. Proof. destruct f; cbn; lia. Qed.
Lemma fits_64 t z : fits (signed t) (bits t) z -> - 2 ^ 64 <= z <= 2 ^ 64.
Proof. intros H. destruct t; cbv [fits signed bits] in H; lia. Qed.

(** ** Every conversion *)
Lemma flt_to_int_cases {p e} t (x : binary_float p e) : (exists z, flt_to_int t x = Ok z /\ fits (signed t) (bits t) z) \/ flt_to_int t x = UB.
Proof.
  destruct x as [s|s| |s m ex H]; unfold flt_to_int; auto.
  - left. exists 0. split; [reflexivity|]. destruct t; cbv [fits signed bits]; lia.
  - cbv zeta. destruct (inr t _) eqn:E; [left|now right]. eexists. split; [reflexivity|]. now apply inr_fits.
Qed.
Lemma cast_cases b v : valid v -> (exists w, cast b v = Ok w /\ tyof w = b /\ valid w) \/ cast b v = UB.
Proof.
  intros HV. destruct b as [|t|f], v as [x|u z|g x]; cbn [cast];
    try (left; eexists; split; [reflexivity|split; [reflexivity|exact I]]).
  - left. eexists. split; [reflexivity|]. split; [reflexivity|]. cbn. destruct x, t; cbv [fits signed bits]; cbn; lia.
  - left. eexists. split; [reflexivity|]. split; [reflexivity|]. apply wrap_fits.
  - destruct (flt_to_int_cases t x) as [(z & -> & H)| ->]; [left|now right]. eexists. split; [reflexivity|]. now split.
  - unfold flt_to_flt. destruct (_ && _); [now right|left]. eexists. split; [reflexivity|]. now split.
Qed.
Lemma cast_never_fails b v x : cast b v <> Fail x.
Proof.
  destruct b as [|t|f], v as [y|u z|g y]; cbn [cast]; try discriminate.
  - unfold flt_to_int. destruct y; try discriminate. cbv zeta. destruct (inr _ _); discriminate.
  - unfold flt_to_flt. destruct (_ && _); discriminate.
Qed.
Lemma ity_eqb_refl t : ity_eqb t t = true. Proof. now destruct t. Qed.
Lemma ity_eqb_eq t u : ity_eqb t u = true -> t = u. Proof. destruct t, u; now try discriminate. Qed.

(** ** Integers *)
Lemma cast_int_int t u z : exists k, cast (TI t) (VI u z) = Ok (VI t (z + k * 2 ^ bits t)) /\ fits (signed t) (bits t) (z + k * 2 ^ bits t).
Proof. destruct (wrap_cong t z) as (k & E). exists k. cbn [cast]. unfold icast. rewrite E. split; [reflexivity|]. rewrite <- E. apply wrap_fits. Qed.
Lemma cast_int_fits t u z : fits (signed t) (bits t) z -> cast (TI t) (VI u z) = Ok (VI t z).
Proof. intros H. cbn [cast]. now rewrite icast_id. Qed.

(** ** Integer to floating point *)
Lemma pow_le_bound f k : 0 <= k <= 64 -> generic_format radix2 (FLT_exp (3 - femax f - fprec f) (fprec f)) (bpow radix2 k).
Proof. intros H. apply generic_format_bpow'; [typeclasses eauto|]. unfold FLT_exp. pose proof (prec_bounds f). pose proof (emax_bounds f). lia. Qed.
Lemma near_int_bound f z : - 2 ^ 64 <= z <= 2 ^ 64 -> (Rabs (nearf f (IZR z)) <= bpow radix2 64)%R.
Proof.
  intros H. unfold near. apply abs_round_le_generic; try typeclasses eauto; [apply pow_le_bound; lia|].
  change (bpow radix2 64) with (IZR (2 ^ 64)). rewrite <- abs_IZR. apply IZR_le. lia.
Qed.
Lemma int_to_flt_ok f z : - 2 ^ 64 <= z <= 2 ^ 64 ->
  B2R (int_to_flt f z) = nearf f (IZR z) /\ is_finite (int_to_flt f z) = true /\ Bsign (int_to_flt f z) = (z <? 0).
Proof.
  intros H. unfold int_to_flt. cbn [fnum nofZ].
  pose proof (binary_normalize_correct (fprec f) (femax f) _ _ mode_NE z 0 false) as B. cbv zeta in B. cbn [round_mode] in B.
  replace (F2R (Float radix2 z 0)) with (IZR z) in B by (unfold F2R; cbn; ring).
  rewrite Rlt_bool_true in B.
  - destruct B as (B1 & B2 & B3). split; [exact B1|]. split; [exact B2|]. rewrite B3.
    destruct (Rcompare_spec (IZR z) 0) as [L|L|L]; [apply lt_IZR in L|apply eq_IZR in L|apply lt_IZR in L]; lia.
  - eapply Rle_lt_trans; [apply (near_int_bound f z H)|]. apply bpow_lt. pose proof (emax_bounds f). lia.
Qed.
Lemma near_int_err f z : (Rabs (nearf f (IZR z) - IZR z) <= uro (fprec f) * Rabs (IZR z))%R.
Proof.
  destruct (Z.eq_dec z 0) as [->|NZ].
  { unfold near. rewrite round_0 by typeclasses eauto. rewrite Rminus_0_r, Rabs_R0, Rmult_0_r. lra. }
  unfold near, uro. destruct (relative_error_N_FLT_ex radix2 (3 - femax f - fprec f) (fprec f) (fprec_gt f) (fun v => negb (Z.even v)) (IZR z)) as (eps & B & R).
  - apply Rle_trans with (bpow radix2 0).
    + apply bpow_le. pose proof (prec_bounds f). pose proof (emax_bounds f). lia.
    + cbn. rewrite <- abs_IZR. apply IZR_le. lia.
  - rewrite R. replace (IZR z * (1 + eps) - IZR z)%R with (eps * IZR z)%R by ring. rewrite Rabs_mult. apply Rmult_le_compat_r; [apply Rabs_pos|].
    eapply Rle_trans; [exact B|]. unfold Rdiv. right. rewrite bpow_plus. cbn. lra.
Qed.
Lemma small_int_format f z : Z.abs z <= 2 ^ fprec f -> generic_format radix2 (FLT_exp (3 - femax f - fprec f) (fprec f)) (IZR z).
Proof.
  intros H. pose proof (prec_bounds f). pose proof (emax_bounds f). destruct (Z.eq_dec (Z.abs z) (2 ^ fprec f)) as [E|NE].
  - assert (G : generic_format radix2 (FLT_exp (3 - femax f - fprec f) (fprec f)) (bpow radix2 (fprec f))) by (apply generic_format_bpow'; [typeclasses eauto|unfold FLT_exp; lia]).
    replace (bpow radix2 (fprec f)) with (IZR (2 ^ fprec f)) in G by (rewrite <- IZR_Zpower by lia; reflexivity). rewrite <- E in G.
    destruct (Z.abs_spec z) as [[_ A]|[_ A]]; rewrite A in G; [exact G|]. rewrite opp_IZR in G. apply generic_format_opp in G. now rewrite Ropp_involutive in G.
  - apply generic_format_FLT. exists (Float radix2 z 0); [unfold F2R; cbn; ring|cbn [Fnum]; change (radix2 ^ fprec f) with (2 ^ fprec f); lia|cbn [Fexp]; lia].
Qed.
Lemma near_exact f x : nearf f x = x <-> format f x.
Proof.
  unfold near, format. split; intros H.
  - rewrite <- H. apply generic_format_round; typeclasses eauto.
  - apply round_generic; [typeclasses eauto|exact H].
Qed.
Theorem int_to_float f t z : valid (VI t z) ->
  exists x, cast (TF f) (VI t z) = Ok (VF f x) /\ is_finite x = true /\ B2R x = nearf f (IZR z) /\
            (Rabs (B2R x - IZR z) <= uro (fprec f) * Rabs (IZR z))%R /\ (B2R x = IZR z <-> format f (IZR z)) /\ (Z.abs z <= 2 ^ fprec f -> B2R x = IZR z).
Proof.
  intros H. apply fits_64 in H. destruct (int_to_flt_ok f z H) as (B & F & _). exists (int_to_flt f z). split; [reflexivity|]. split; [exact F|]. split; [exact B|]. rewrite B.
  split; [apply near_int_err|]. split; [apply near_exact|]. intros HS. apply near_exact. now apply small_int_format.
Qed.
Theorem int_to_float_mono f t u z z' x x' : valid (VI t z) -> valid (VI u z') -> z <= z' ->
  cast (TF f) (VI t z) = Ok (VF f x) -> cast (TF f) (VI u z') = Ok (VF f x') -> (B2R x <= B2R x')%R.
Proof.
  intros H H' L E E'. apply fits_64 in H, H'. cbn [cast] in E, E'.
  assert (D : forall a b, Ok (VF f a) = Ok (VF f b) -> B2R a = B2R b).
  { intros a b Q. assert (Q' : VF f a = VF f b) by congruence. pose proof (f_equal real Q') as R. exact R. }
  apply D in E, E'. rewrite <- E, <- E'. rewrite (proj1 (int_to_flt_ok f z H)), (proj1 (int_to_flt_ok f z' H')).
  apply round_le; try typeclasses eauto. now apply IZR_le.
Qed.

(** ** Floating point to integer *)
Lemma trunc_ok {p e} (Hp : Prec_gt_0 p) (He : Prec_lt_emax p e) (x : binary_float p e) : Btrunc x = Ztrunc (B2R x).
Proof.
  apply eq_IZR. rewrite (Btrunc_correct p e _). unfold round, scaled_mantissa, Generic_fmt.cexp, FIX_exp, F2R. cbn. now rewrite !Rmult_1_r.
Qed.
Theorem float_to_int f t (x : flt f) n :
  cast (TI t) (VF f x) = Ok (VI t n) <-> is_finite x = true /\ n = Ztrunc (B2R x) /\ fits (signed t) (bits t) n.
Proof.
  assert (F0 : fits (signed t) (bits t) 0) by (destruct t; cbv [fits signed bits]; lia).
  cbn [cast]. destruct x as [s|s| |s m ex H]; cbn [flt_to_int bind is_finite].
  - cbn [B2R]. rewrite (Ztrunc_IZR 0). split; [intros E; assert (n = 0) as -> by congruence|intros (_ & -> & _)]; auto.
  - split; [discriminate|intros (D & _); discriminate].
  - split; [discriminate|intros (D & _); discriminate].
  - set (y := B754_finite s m ex H). rewrite (trunc_ok _ _ y). destruct (inr t (Ztrunc (B2R y))) eqn:E; cbn [bind].
    + apply inr_fits in E. split; [intros Q; assert (n = Ztrunc (B2R y)) as -> by congruence; auto|intros (_ & -> & _); auto].
    + apply inr_fits_false in E. split; [discriminate|intros (_ & -> & C); contradiction].
Qed.
Theorem float_to_int_undefined f t (x : flt f) :
  ~ (is_finite x = true /\ fits (signed t) (bits t) (Ztrunc (B2R x))) -> cast (TI t) (VF f x) = UB.
Proof.
  intros H. destruct (cast_cases (TI t) (VF f x) I) as [(w & E & T & V)|E]; [exfalso|exact E].
  destruct w as [b|u z|g y]; try discriminate. cbn in T. assert (u = t) as -> by congruence. apply float_to_int in E as (F & -> & B). now apply H.
Qed.

(** ** Floating point to floating point *)
Theorem float_to_float f g (x : flt f) : is_finite x = true ->
  (Rabs (nearf g (B2R x)) < bpow radix2 (femax g))%R ->
  exists y, cast (TF g) (VF f x) = Ok (VF g y) /\ is_finite y = true /\ B2R y = nearf g (B2R x) /\ Bsign y = Bsign x /\ (B2R y = B2R x <-> format g (B2R x)).
Proof.
  intros F B. cbn [cast]. unfold flt_to_flt. destruct (convert_ok (fprec g) (femax g) x F) as [(_ & F' & R & S)|(B' & _)]; [|exfalso; lra].
  exists (convert (fprec g) (femax g) x). rewrite F, F'. cbn [andb negb bind]. repeat (split; auto); rewrite R; apply near_exact.
Qed.
Theorem float_to_float_overflow f g (x : flt f) : is_finite x = true ->
  (bpow radix2 (femax g) <= Rabs (nearf g (B2R x)))%R -> cast (TF g) (VF f x) = UB.
Proof.
  intros F B. cbn [cast]. unfold flt_to_flt. destruct (convert_ok (fprec g) (femax g) x F) as [(B' & _)|(_ & F')]; [exfalso; lra|].
  now rewrite F, F'.
Qed.
Theorem float_to_float_special f g s :
  cast (TF g) (VF f (B754_infinity s)) = Ok (VF g (B754_infinity s)) /\ cast (TF g) (VF f B754_nan) = Ok (VF g B754_nan) /\
  cast (TF g) (VF f (B754_zero s)) = Ok (VF g (B754_zero s)).
Proof. repeat split. Qed.
Lemma wider_format f g (x : flt f) : fprec f <= fprec g -> femax f <= femax g -> format g (B2R x).
Proof.
  intros HP HE. apply (generic_inclusion_mag radix2 (FLT_exp (3 - femax f - fprec f) (fprec f))).
  - intros _. unfold FLT_exp. lia.
  - exact (generic_format_B2R (fprec f) (femax f) x).
Qed.
Lemma B2R_bound f g (x : flt f) : femax f <= femax g -> (Rabs (B2R x) < bpow radix2 (femax g))%R.
Proof. intros H. eapply Rlt_le_trans; [apply abs_B2R_lt_emax|]. now apply bpow_le. Qed.
Theorem float_widening f g (x : flt f) : fprec f <= fprec g -> femax f <= femax g ->
  exists y, cast (TF g) (VF f x) = Ok (VF g y) /\ is_finite y = is_finite x /\ B2R y = B2R x /\ cast (TF f) (VF g y) = Ok (VF f x).
Proof.
  intros HP HE. destruct (is_finite x) eqn:F.
  - pose proof (wider_format f g x HP HE) as W. pose proof W as N. apply near_exact in N.
    destruct (float_to_float f g x F) as (y & E & F' & R & S & X); [rewrite N; now apply B2R_bound|].
    rewrite N in R. exists y. split; [exact E|]. split; [exact F'|]. split; [exact R|].
    assert (N' : nearf f (B2R y) = B2R y) by (apply near_exact; rewrite R; exact (generic_format_B2R (fprec f) (femax f) x)).
    destruct (float_to_float g f y F') as (x' & E' & F'' & R' & S' & _); [rewrite N', R; apply B2R_bound; lia|].
    rewrite E'. do 2 f_equal. apply B2R_Bsign_inj; auto; [now rewrite R', N', R|now rewrite S', S].
  - destruct x as [s|s| |s m ex H]; try discriminate F.
    + exists (B754_infinity s). repeat split.
    + exists B754_nan. repeat split.
Qed.

(** ** Bool *)
Theorem from_bool x t f : cast (TI t) (VB x) = Ok (VI t (if x then 1 else 0)) /\
  exists y, cast (TF f) (VB x) = Ok (VF f y) /\ is_finite y = true /\ B2R y = (if x then 1 else 0)%R.
Proof.
  split; [now destruct x|]. cbn [cast]. destruct (int_to_flt_ok f (Z.b2z x)) as (B & F & _); [destruct x; cbn; lia|].
  exists (int_to_flt f (Z.b2z x)). split; [reflexivity|]. split; [exact F|]. rewrite B. transitivity (IZR (Z.b2z x)); [|now destruct x].
  apply near_exact. apply small_int_format. assert (2 ^ 1 <= 2 ^ fprec f) by (apply Z.pow_le_mono_r; pose proof (prec_bounds f); lia). destruct x; cbn [Z.b2z Z.abs]; lia.
Qed.
Theorem to_bool t z f (x : flt f) : cast TB (VI t z) = Ok (VB (negb (z =? 0))) /\
  (exists b, cast TB (VF f x) = Ok (VB b) /\ (b = false <-> is_finite x = true /\ B2R x = 0%R)).
Proof.
  split; [reflexivity|]. exists (nonzero x). split; [reflexivity|]. destruct x as [s|s| |s m ex H]; cbn; split; try tauto; try discriminate; try (intros [D _]; discriminate).
  intros (_ & D). exfalso. destruct s.
  - assert (F2R (Float radix2 (Z.neg m) ex) < 0)%R by now apply F2R_lt_0. cbn in *. lra.
  - assert (0 < F2R (Float radix2 (Z.pos m) ex))%R by now apply F2R_gt_0. cbn in *. lra.
Qed.

(** ** There and back *)
Theorem int_round_trip f t z : valid (VI t z) -> format f (IZR z) -> exists w, cast (TF f) (VI t z) = Ok w /\ cast (TI t) w = Ok (VI t z).
Proof.
  intros H HF. destruct (int_to_float f t z H) as (x & E & F & _ & _ & X & _). exists (VF f x). split; [exact E|].
  apply float_to_int. apply X in HF. rewrite HF. rewrite Ztrunc_IZR. now split.
Qed.
Lemma bits_format f t z : valid (VI t z) -> bits t <= fprec f -> format f (IZR z).
Proof.
  intros H B. apply small_int_format. assert (2 ^ bits t <= 2 ^ fprec f) by (apply Z.pow_le_mono_r; lia).
  destruct t; cbv [valid fits signed bits] in *; lia.
Qed.
Theorem int_round_trip_bits f t z : valid (VI t z) -> bits t <= fprec f -> exists w, cast (TF f) (VI t z) = Ok w /\ cast (TI t) w = Ok (VI t z).
Proof. intros H B. apply int_round_trip; [exact H|]. now apply (bits_format f t z). Qed.
Theorem int_widening t u z : valid (VI t z) -> bits t <= bits u -> exists w, cast (TI u) (VI t z) = Ok w /\ cast (TI t) w = Ok (VI t z).
Proof.
  intros H B. cbn [cast]. eexists. split; [reflexivity|]. cbn [cast]. do 2 f_equal. unfold icast.
  destruct (wrap_cong u z) as (k & ->). pose proof (wrap_fits t (z + k * 2 ^ bits u)) as F. destruct (wrap_cong t (z + k * 2 ^ bits u)) as (j & E). rewrite E in *.
  replace (2 ^ bits u) with (2 ^ (bits u - bits t) * 2 ^ bits t) in * by (rewrite <- Z.pow_add_r by (destruct t, u; cbn in *; lia); f_equal; lia).
  set (q := k * 2 ^ (bits u - bits t) + j). replace (z + k * (2 ^ (bits u - bits t) * 2 ^ bits t) + j * 2 ^ bits t) with (z + q * 2 ^ bits t) in * by (unfold q; ring).
  cbn [valid] in H. assert (q = 0); [|subst q; rewrite H0; ring]. clearbody q. clear - F H. destruct t; cbv [fits signed bits] in *; lia.
Qed.

(** ** Constants *)
Theorem constants b z : match b with TB => z = 0 \/ z = 1 | TI t => (0 <= z \/ signed t = true) /\ -1 <= z <= 10 ^ 9 | TF _ => In z [0; 1; -1; 10 ^ 3; 10 ^ 6; 10 ^ 9] end ->
  exists v, constant b z = Ok v /\ tyof v = b /\ finite v /\ real v = IZR z.
Proof.
  unfold constant. destruct b as [|t|f]; intros H.
  - exists (VB (negb (z =? 0))). repeat split. destruct H as [-> | ->]; reflexivity.
  - exists (VI t z). repeat split. apply cast_int_fits. destruct t; cbv [fits signed bits] in *; cbn in *; lia.
  - destruct (int_to_float f I32 z) as (x & E & F & B & _ & X & _).
    { cbv [valid fits signed bits]. cbn in H. lia. }
    exists (VF f x). repeat (split; auto). cbn [real]. apply X. unfold format. pose proof (prec_bounds f) as P. pose proof (emax_bounds f) as Q.
    assert (G : forall m e, z = m * 2 ^ e -> 0 <= e -> Z.abs m < 2 ^ 24 -> generic_format radix2 (FLT_exp (3 - femax f - fprec f) (fprec f)) (IZR z)).
    { intros m e -> He Hm. apply generic_format_FLT. exists (Float radix2 m e); cbn [Fnum Fexp].
      - unfold F2R. cbn [Fnum Fexp]. rewrite <- IZR_Zpower by lia. rewrite mult_IZR. reflexivity.
      - change (radix2 ^ fprec f) with (2 ^ fprec f). assert (2 ^ 24 <= 2 ^ fprec f) by (apply Z.pow_le_mono_r; lia). lia.
      - lia. }
    cbn [In] in H. destruct H as [H|[H|[H|[H|[H|[H|[]]]]]]]; subst z.
    + apply (G 0 0); reflexivity || lia.
    + apply (G 1 0); reflexivity || lia.
    + apply (G (-1) 0); reflexivity || lia.
    + apply (G 1000 0); reflexivity || lia.
    + apply (G 1000000 0); reflexivity || lia.
    + apply (G 1953125 9); reflexivity || lia.
Qed.

(** ** Tags *)
Theorem tag_ok c n t z : valid (VI t z) -> signed t = true -> (n = true -> 0 <= z) -> tag c n (VI t z) = Some (Ok z).
Proof.
  intros H S P. assert (icast I64 z = z) as E by (apply icast_id; destruct t; try discriminate; cbv [valid fits signed bits] in *; lia).
  assert (tag c n (VI t z) = Some (let x := icast I64 z in (if n then check_debug c (Ok (-1 <? x)) else Ok tt) ;;; Ok x)) as -> by (destruct t; [reflexivity|reflexivity|discriminate|discriminate]).
  cbv zeta. rewrite E. destruct n; [|reflexivity]. assert (-1 <? z = true) as -> by lia. now rewrite check_debug_true.
Qed.
Theorem tag_negative c t z : valid (VI t z) -> signed t = true -> z < 0 -> tag c true (VI t z) = Some (if checked c then Fail (report c) else Ok z).
Proof.
  intros H S N. assert (icast I64 z = z) as E by (apply icast_id; destruct t; try discriminate; cbv [valid fits signed bits] in *; lia).
  assert (tag c true (VI t z) = Some (let x := icast I64 z in check_debug c (Ok (-1 <? x)) ;;; Ok x)) as -> by (destruct t; [reflexivity|reflexivity|discriminate|discriminate]).
  cbv zeta. rewrite E. assert (-1 <? z = false) as -> by lia. destruct (checked c) eqn:C.
  - now rewrite check_debug_false.
  - destruct (check_debug_cases c false) as [(-> & _)|(_ & _ & X)]; [reflexivity|congruence].
Qed.
Theorem tag_rejects c n v : (forall t z, v = VI t z -> signed t = false) -> tag c n v = None.
Proof. intros H. destruct v as [b|t z|f x]; try reflexivity. specialize (H t z eq_refl). destruct t; try discriminate; reflexivity. Qed.
