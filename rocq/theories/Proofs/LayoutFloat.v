(** Printed layouts: matrices of floating-point numbers. *)
From Coq Require Import Ascii Reals Lra.
From Flocq Require Import Core BinarySingleNaN.
From Verif Require Import Base.Outcome Base.ZList Model.IntModel Model.ScalarOps Model.Index Model.Array1D Model.Expr Model.Reduce Model.FloatModel Model.Scalars Model.ArrayIO Model.FloatIO Model.Layout.
From Verif Require Import Spec.ArraySpec Spec.MatrixSpec Spec.ExprSpec Spec.ReduceSpec Spec.IOSpec Spec.FloatSpec Spec.FloatIOSpec Spec.LayoutSpec.
From Verif Require Import Proofs.IOText Proofs.FloatIOProofs Proofs.FloatIOText Proofs.ConvProofs Proofs.LayoutText Proofs.LayoutProofs Proofs.ExprProofs Proofs.ReduceProofs Proofs.ReduceThms.
From Coq Require Import ZifyBool ZifyNat.

Lemma zlen_fixed p n : zlen (fixed_digits p n) = Z.of_nat p.
Proof. destruct (fixed_digits_ok p n) as (fs & -> & _ & E & _). now rewrite zlen_map. Qed.
Lemma fix_text_length p q : zlen (fix_text p q) = zlen (udec (q / 10 ^ Z.of_nat p)) + 1 + Z.of_nat p.
Proof. unfold fix_text. rewrite zlen_app, zlen_cons, zlen_fixed. lia. Qed.
Lemma sci_text_length p q k : zlen (sci_text p q k) = 4 + Z.of_nat p + zlen (exp_digits (Z.abs k)).
Proof. unfold sci_text. rewrite !zlen_cons, zlen_app, !zlen_cons, zlen_fixed. lia. Qed.
Lemma exp_length k : 0 <= k < 100 -> zlen (exp_digits k) = 2.
Proof.
  intros H. unfold exp_digits. destruct (Z.ltb_spec k 10); [apply zlen_fixed|]. apply (has_digits_unique k); [lia|apply udec_length; lia|]. unfold has_digits. replace (k =? 0) with false by lia. change (10 ^ (2 - 1)) with 10. change (10 ^ 2) with 100. lia.
Qed.

Section F.
Context (prec emax : Z) {Hp : Prec_gt_0 prec} {He : Prec_lt_emax prec emax}.
Notation flt := (binary_float prec emax).
Notation fexp := (FLT_exp (3 - emax - prec) prec).
Notation shown := (show_float prec emax).
(** ** Lengths *)
Lemma fix_length p (x : flt) k : 1 <= k -> is_finite x = true -> (Rabs (B2R x) + / 2 * ten_to (- Z.of_nat p) < ten_to k)%R ->
  3 + Z.of_nat p <= zlen (shown false p x) <= 2 + k + Z.of_nat p.
Proof.
  intros Hk Fx Hx.
  assert (Q : exists s q, shown false p x = sign_char s :: fix_text p q /\ 0 <= q /\ (IZR q * ten_to (- Z.of_nat p) <= Rabs (B2R x) + / 2 * ten_to (- Z.of_nat p))%R).
  { destruct x as [s|s| |s m e H]; try discriminate Fx.
    - exists s, 0. split; [reflexivity|]. split; [lia|]. pose proof (ten_to_pos (- Z.of_nat p)). cbn [B2R]. rewrite Rabs_R0. lra.
    - exists s. eexists. split; [reflexivity|]. destruct (fix_digits_ok p m e) as (Q1 & Q2 & _). split; [exact Q1|]. rewrite abs_finite. rewrite ten_to_bpow. apply Rabs_le_inv in Q2. lra. }
  destruct Q as (s & q & -> & Q0 & Q1). rewrite zlen_cons, fix_text_length. assert (Pp : 0 < 10 ^ Z.of_nat p) by (apply Z.pow_pos_nonneg; lia).
  assert (B : 0 <= q / 10 ^ Z.of_nat p < 10 ^ k).
  { split; [now apply Z.div_pos|]. apply Z.div_lt_upper_bound; [exact Pp|]. rewrite <- Z.pow_add_r by lia. apply lt_IZR. rewrite <- ten_to_int by lia. pose proof (ten_to_pos (Z.of_nat p)) as TP. pose proof (ten_to_pos (- Z.of_nat p)) as TN.
    assert (I : (ten_to (Z.of_nat p) * ten_to (- Z.of_nat p) = 1)%R) by (rewrite !ten_to_bpow, <- bpow_plus, Z.add_opp_diag_r; reflexivity).
    apply Rmult_lt_reg_r with (ten_to (- Z.of_nat p)); [exact TN|]. replace (ten_to (Z.of_nat p + k) * ten_to (- Z.of_nat p))%R with (ten_to k) by (rewrite !ten_to_bpow, <- bpow_plus; f_equal; lia). lra. }
  pose proof (udec_length _ (proj1 B)) as (D1 & D2). set (L := zlen (udec (q / 10 ^ Z.of_nat p))) in *. split; [lia|]. assert (L <= k); [|lia].
  destruct (Z.eqb_spec (q / 10 ^ Z.of_nat p) 0); [lia|]. destruct (Z.le_gt_cases L k); [assumption|]. pose proof (Z.pow_le_mono_r 10 k (L - 1) ltac:(lia) ltac:(lia)). lia.
Qed.
Lemma sci_length p (x : flt) : is_finite x = true -> two_digit_exponent prec emax x -> zlen (shown true p x) = 7 + Z.of_nat p.
Proof.
  intros Fx Hx. cbn [show_float]. destruct x as [s|s| |s m e H]; try discriminate Fx; cbn [show_sci].
  - rewrite zlen_cons, sci_text_length. change (zlen (exp_digits (Z.abs 0))) with 2. lia.
  - rewrite zlen_cons, sci_text_length. rewrite exp_length; [lia|]. destruct (frac_pos m e) as [Pn Pd].
    destruct (sci_digits_ok p (frac_num m e) (frac_den e) Pn Pd) as (S1 & S2 & S3 & _). pose proof (dec_exp_ok _ _ Pn Pd) as (L & U).
    set (r := sci_digits p (frac_num m e) (frac_den e)) in *. set (k := dec_exp (frac_num m e) (frac_den e)) in *.
    assert (U2 : snd r <= k + 1) by (unfold r, sci_digits; fold k; cbn zeta; destruct (_ =? _); cbn; lia).
    rewrite frac_val in L, U. destruct Hx as [Hx|Hx]; [exfalso|].
    + apply (f_equal Rabs) in Hx. rewrite abs_finite, Rabs_R0 in Hx. pose proof (bpow_gt_0 radix10 k). lra.
    + rewrite abs_finite, !ten_to_bpow in Hx. assert (-99 < k + 1) by (apply (lt_bpow radix10); lra). assert (k < 99) by (apply (lt_bpow radix10); lra). lia.
Qed.

(** ** The largest magnitude *)
Lemma wider_le (m x : flt) : is_finite m = true -> is_finite x = true -> (B2R m <= B2R (wider prec emax m x))%R /\ (B2R x <= B2R (wider prec emax m x))%R.
Proof.
  intros Fm Fx. unfold wider, Reduce.maxs. rewrite Bltb_correct by auto. destruct (Rlt_bool_spec (B2R m) (B2R x)); lra.
Qed.
Lemma wider_max (l : list flt) : forall m, is_finite m = true -> Forall (fun x => is_finite x = true) l ->
  let w := fold_left (wider prec emax) (map (@Babs prec emax) l) m in is_finite w = true /\ (B2R m <= B2R w)%R /\ (forall x, In x l -> Rabs (B2R x) <= B2R w)%R /\ (w = m \/ exists x, In x l /\ w = Babs x).
Proof.
  induction l as [|x l IH]; intros m Fm Fl; cbn [map fold_left]; cbv zeta.
  - repeat split; auto; [lra|intros x []].
  - inversion Fl; subst. assert (Fa : is_finite (Babs x) = true) by now destruct x. destruct (wider_le m (Babs x) Fm Fa) as [W1 W2].
    assert (Fw : is_finite (wider prec emax m (Babs x)) = true) by (destruct (wider_cases prec emax m (Babs x)) as [-> | ->]; assumption).
    destruct (IH _ Fw H2) as (I1 & I2 & I3 & I4). rewrite B2R_Babs in W2. split; [exact I1|]. split; [lra|]. split.
    + intros y [->|Hy]; [lra|now apply I3].
    + destruct I4 as [->|(y & Hy & ->)]; [|right; exists y; split; [now right|reflexivity]]. destruct (wider_cases prec emax m (Babs x)) as [-> | ->]; [now left|]. right. exists x. split; [now left|reflexivity].
Qed.
Lemma largest (l : list flt) : l <> [] -> zlen l <= LONG_MAX -> Forall (fun x => is_finite x = true) l ->
  exists x, In x l /\ r_max (fun x y => Bltb y x) (src_of_list (map (@Babs prec emax) l)) (B754_zero false) = Ok (Babs x) /\ (forall y, In y l -> Rabs (B2R y) <= Rabs (B2R x))%R.
Proof.
  intros HN HL HF. rewrite fmax_fold by now rewrite zlen_map. destruct l as [|x l]; [congruence|]. cbn [map]. inversion HF; subst. assert (Fa : is_finite (Babs x) = true) by now destruct x.
  destruct (wider_max l (Babs x) Fa H2) as (I1 & I2 & I3 & I4). set (w := fold_left _ _ _) in *.
  assert (W : exists y, In y (x :: l) /\ w = Babs y) by (destruct I4 as [->|(y & Hy & ->)]; [exists x; split; [now left|reflexivity]|exists y; split; [now right|reflexivity]]).
  destruct W as (y & Hy & Ew). exists y. split; [exact Hy|]. split; [now rewrite Ew|]. clearbody w. subst w. rewrite <- (B2R_Babs _ _ y). rewrite B2R_Babs in I2. intros z [->|Hz]; [exact I2|now apply I3].
Qed.

(** ** Fixed format *)
Context (lg : flt -> flt) (HC : log10_contract prec emax lg) (Hs : emax + prec < 2 ^ 28).
Theorem fixed_width p l : l <> [] -> zlen l <= LONG_MAX -> Forall (fun x => is_finite x = true) l -> Z.of_nat p < 2 ^ 30 ->
  (forall x, In x l -> (forall y, In y l -> Rabs (B2R y) <= Rabs (B2R x))%R -> no_carry prec emax p x) ->
  (forall x k, In x l -> 0 <= k -> (ten_to k <= Rabs (B2R x))%R -> generic_format radix2 fexp (ten_to k)) \/ respects_tens prec emax lg ->
  exists m w W, r_max (fun x y => Bltb y x) (src_of_list (map (@Babs prec emax) l)) (B754_zero false) = Ok m /\ floating_spacing lg p m = Ok w /\
    Forall (fun x => Z.max (Z.max 0 w) (zlen (shown false p x)) = W) l.
Proof.
  intros HN HL HF HP HK HT. destruct (largest l HN HL HF) as (x & Hx & Em & Hmax). pose proof (HK x Hx Hmax) as NC. pose proof (proj1 (Forall_forall _ _) HF x Hx) as Fx.
  assert (Fa : is_finite (Babs x) = true) by now destruct x. pose proof (ten_to_pos (- Z.of_nat p)) as TN. pose proof (ten_to_le (- Z.of_nat p) 0 ltac:(lia)) as TN0. change (ten_to 0) with 1%R in TN0.
  pose proof (Hp : 0 < prec) as Hp0. assert (He0 : prec < emax) by exact He.
  assert (K : exists k c, 1 <= k /\ count_digit lg (Babs x) = Ok c /\ Z.abs c <= 3 * (emax + prec) + 1 /\ (Rabs (B2R x) < ten_to k)%R /\ (k = 1 \/ k <= c)).
  { destruct (Req_dec (B2R x) 0) as [X0|X0].
    - exists 1, 1. repeat split; try lia; [|rewrite X0, Rabs_R0; apply ten_to_pos]. unfold count_digit. rewrite Beqb_correct by auto. rewrite B2R_Babs, X0, Rabs_R0. now rewrite Req_bool_true.
    - assert (Px : (0 < B2R (Babs x))%R) by (rewrite B2R_Babs; now apply Rabs_pos_lt). destruct (count_ok prec emax lg HC Hs (Babs x) Fa Px) as (E & B). rewrite B2R_Babs in Px.
      destruct (mag radix10 (B2R x)) as (g & Hg). specialize (Hg X0). rewrite <- !ten_to_bpow in Hg.
      destruct (Z.le_gt_cases g 1) as [G|G].
      + exists 1. eexists. split; [lia|]. split; [exact E|]. split; [lia|]. split; [|now left]. pose proof (ten_to_le g 1 G). lra.
      + exists g. eexists. split; [lia|]. split; [exact E|]. split; [lia|]. split; [apply Hg|]. right. assert (g - 1 <= Ztrunc (B2R (lg (Babs x)))); [|lia].
        apply (lg_low prec emax lg HC); auto; [lia|rewrite B2R_Babs; apply Hg|]. destruct HT as [HT|HT]; [left|right; exact HT]. apply (HT x); auto; [lia|apply Hg]. }
  destruct K as (k & c & Hk & Ec & Bc & Ux & Kc). exists (Babs x), (c + Z.of_nat p + 2), (Z.max (c + Z.of_nat p + 2) (3 + Z.of_nat p)). split; [exact Em|]. split.
  - unfold floating_spacing. rewrite Ec. cbn [bind]. unfold iadd, arith, inr. cbn [signed tmin tmax]. replace (_ && _)%bool with true by lia. cbn [bind]. replace (_ && _)%bool with true by lia. reflexivity.
  - apply Forall_forall. intros y Hy. pose proof (proj1 (Forall_forall _ _) HF y Hy) as Fy. pose proof (fix_length p y k Hk Fy) as FL. specialize (NC k Hk Ux). specialize (Hmax y Hy). specialize (FL ltac:(lra)). destruct Kc; lia.
Qed.
Context (lgd : Scalars.flt F64 -> Scalars.flt F64) (HD : log10_contract (fprec F64) (femax F64) lgd).
Lemma concat_size {A} cols (M : list (list A)) : M <> [] -> 0 < cols -> rect cols M -> concat M <> [].
Proof. intros HM Hc HR E. destruct M as [|r M]; [congruence|]. inversion HR; subst. destruct r; [cbn in *; lia|discriminate E]. Qed.
Theorem fixed_table p name cols M : M <> [] -> 0 < cols -> rect cols M -> zlen (concat M) <= LONG_MAX -> Forall (fun x => is_finite x = true) (concat M) -> Z.of_nat p < 2 ^ 30 ->
  (forall x, In x (concat M) -> (forall y, In y (concat M) -> Rabs (B2R y) <= Rabs (B2R x))%R -> no_carry prec emax p x) ->
  (forall x k, In x (concat M) -> 0 <= k -> (ten_to k <= Rabs (B2R x))%R -> generic_format radix2 fexp (ten_to k)) \/ respects_tens prec emax lg ->
  exists W, (exists s s', print_floats lgd lg false p false name cols M = Ok s' /\ titled name s s' /\ table W (map (map (shown false p)) M) s) /\
    (zlen M <= 10 ^ 13 -> exists C s s', print_floats lgd lg false p true name cols M = Ok s' /\ titled name s s' /\ labelled_table W C (map (map (shown false p)) M) s).
Proof.
  intros HM Hc HR HL HF HP HK HT. destruct (fixed_width p (concat M) (concat_size cols M HM Hc HR) HL HF HP HK HT) as (m & w & W & E1 & E2 & E3). exists W. unfold print_floats. rewrite E1. cbn [bind]. rewrite E2. cbn [bind]. apply Forall_concat_rows in E3. split.
  - exact (two_plain lgd (shown false p) (Some w) name cols M W Hc HR E3).
  - intros H13. destruct (blanks_ok lgd HD (zlen M)) as (D & HDD); [pose proof (zlen_nonneg M); lia|]. destruct (two_labelled lgd (shown false p) (Some w) name cols M W D Hc HR HM E3 HDD) as (s & s' & P). eexists _, s, s'. exact P.
Qed.
(** ** Scientific format *)
Theorem sci_table p name cols M : M <> [] -> 0 < cols -> rect cols M -> zlen (concat M) <= LONG_MAX -> Forall (fun x => is_finite x = true) (concat M) -> Forall (two_digit_exponent prec emax) (concat M) ->
  (exists s s', print_floats lgd lg true p false name cols M = Ok s' /\ titled name s s' /\ table (7 + Z.of_nat p) (map (map (shown true p)) M) s) /\
  (zlen M <= 10 ^ 13 -> exists C s s', print_floats lgd lg true p true name cols M = Ok s' /\ titled name s s' /\ labelled_table (7 + Z.of_nat p) C (map (map (shown true p)) M) s).
Proof.
  intros HM Hc HR HL HF H2. unfold print_floats. rewrite fmax_fold by now rewrite zlen_map. cbn [bind].
  assert (E3 : Forall (Forall (fun x => Z.max 0 (zlen (shown true p x)) = 7 + Z.of_nat p)) M).
  { apply Forall_concat_rows, Forall_forall. intros x Hx. rewrite Forall_forall in HF, H2. rewrite sci_length; auto. lia. }
  split.
  - exact (two_plain lgd (shown true p) None name cols M _ Hc HR E3).
  - intros H13. destruct (blanks_ok lgd HD (zlen M)) as (D & HDD); [pose proof (zlen_nonneg M); lia|]. destruct (two_labelled lgd (shown true p) None name cols M _ D Hc HR HM E3 HDD) as (s & s' & P). eexists _, s, s'. exact P.
Qed.
End F.
