(** Printed layouts: default formats, what can go wrong, reading back, and that the contract of the logarithm can be met. *)
From Coq Require Import Ascii Reals Lra.
From Flocq Require Import Core Relative BinarySingleNaN.
From Verif Require Import Base.Outcome Base.ZList Model.IntModel Model.ScalarOps Model.Index Model.Array1D Model.Array2D Model.Expr Model.Reduce Model.FloatModel Model.Scalars Model.ArrayIO Model.FloatIO Model.Layout.
From Verif Require Import Spec.ArraySpec Spec.MatrixSpec Spec.Shape2Spec Spec.ExprSpec Spec.ReduceSpec Spec.IOSpec Spec.FloatSpec Spec.FloatIOSpec Spec.LayoutSpec.
From Verif Require Import Proofs.IOText Proofs.FloatIOProofs Proofs.FloatIOText Proofs.ConvProofs Proofs.ReadProofs Proofs.LayoutText Proofs.LayoutProofs Proofs.LayoutFloat Proofs.ExprProofs Proofs.ReduceProofs Proofs.ReduceThms.
From Coq Require Import ZifyBool ZifyNat.

Section F.
Context (prec emax : Z) {Hp : Prec_gt_0 prec} {He : Prec_lt_emax prec emax}.
Notation flt := (binary_float prec emax).
Notation fexp := (FLT_exp (3 - emax - prec) prec).
(** Numbers of the format from 2^(d-1) on are multiples of 2^(d-prec). *)
Lemma multiple (x : flt) d : (bpow radix2 (d - 1) <= Rabs (B2R x))%R -> exists n : Z, B2R x = (IZR n * bpow radix2 (d - prec))%R.
Proof.
  intros Hx. pose proof (generic_format_B2R prec emax x) as G. unfold generic_format in G. 
  assert (NZ : B2R x <> 0%R) by (intros E; rewrite E, Rabs_R0 in Hx; pose proof (bpow_gt_0 radix2 (d - 1)); lra).
  pose proof (mag_ge_bpow radix2 _ _ Hx) as MG.
  assert (C : d - prec <= cexp radix2 (SpecFloat.fexp prec emax) (B2R x)). { unfold cexp, SpecFloat.fexp, SpecFloat.emin. lia. }
  set (c := cexp _ _ _) in *. set (m := Ztrunc _) in *. exists (m * 2 ^ (c - (d - prec))). rewrite G at 1. unfold F2R. cbn [Fnum Fexp]. rewrite mult_IZR. change 2 with (radix_val radix2). rewrite IZR_Zpower by lia. rewrite Rmult_assoc, <- bpow_plus. do 2 f_equal. lia.
Qed.
Theorem no_carry_default p : 2 ^ prec < 4 * 10 ^ Z.of_nat p -> forall x : flt, no_carry prec emax p x.
Proof.
  intros H x k Hk Ux. pose proof (Hp : 0 < prec) as Pp. rewrite (ten_to_bpow (- Z.of_nat p)), bpow_opp, <- ten_to_bpow, ten_to_int by lia. apply IZR_lt in H. rewrite mult_IZR in H.
  set (T := IZR (10 ^ Z.of_nat p)) in *. assert (T1 : (1 <= T)%R) by (apply IZR_le; pose proof (Z.pow_pos_nonneg 10 (Z.of_nat p)); lia).
  assert (IT : (/ T <= 1)%R) by (rewrite <- Rinv_1; apply Rinv_le_contravar; lra).
  destruct (Rlt_le_dec (Rabs (B2R x)) 1) as [S1|S1].
  - pose proof (ten_to_le 1 k Hk) as K. rewrite (ten_to_int 1) in K by lia. change (IZR (10 ^ 1)) with 10%R in K. lra.
  - destruct (multiple x 1) as (n & En); [exact S1|]. rewrite En, Rabs_mult, (Rabs_pos_eq (bpow _ _)), <- abs_IZR in * by apply bpow_ge_0.
    set (u := bpow radix2 (1 - prec)) in *. assert (Pu : (0 < u)%R) by apply bpow_gt_0.
    assert (Eu : (u * IZR (2 ^ prec) = 2)%R). { change 2 with (radix_val radix2) at 1. rewrite IZR_Zpower by lia. unfold u. rewrite <- bpow_plus. replace (1 - prec + prec) with 1 by lia. reflexivity. }
    assert (Hu : (/ 2 * / T < u)%R).
    { apply Rmult_lt_reg_r with (2 * T)%R; [lra|]. replace (/ 2 * / T * (2 * T))%R with 1%R by (field; lra). assert (u * IZR (2 ^ prec) < u * (4 * T))%R by (apply Rmult_lt_compat_l; assumption). lra. }
    assert (Ek : ten_to k = (IZR (10 ^ k * 2 ^ (prec - 1)) * u)%R).
    { rewrite ten_to_int by lia. rewrite mult_IZR. change 2 with (radix_val radix2). rewrite IZR_Zpower by lia. unfold u. rewrite Rmult_assoc, <- bpow_plus. replace (prec - 1 + (1 - prec)) with 0 by lia. cbn [bpow]. ring. }
    rewrite Ek in *. apply Rmult_lt_reg_r in Ux; [|exact Pu]. apply lt_IZR in Ux. assert (Z.abs n + 1 <= 10 ^ k * 2 ^ (prec - 1)) as L by lia. apply IZR_le in L. rewrite plus_IZR in L. assert ((IZR (Z.abs n) + 1) * u <= IZR (10 ^ k * 2 ^ (prec - 1)) * u)%R by (apply Rmult_le_compat_r; lra). lra.
Qed.

(** Single precision has no longer exponents. *)
Theorem two_digits_single (x : flt) : emax + prec <= 297 -> is_finite x = true -> two_digit_exponent prec emax x.
Proof.
  intros H Fx. unfold two_digit_exponent. destruct (Req_dec (B2R x) 0) as [E|E]; [now left|right]. rewrite !ten_to_bpow.
  assert (T : forall k, 0 <= k -> (bpow radix2 (3 * k) <= bpow radix10 k)%R).
  { intros k Hk. rewrite <- !IZR_Zpower by lia. apply IZR_le. change (radix_val radix2) with 2. change (radix_val radix10) with 10. rewrite Z.pow_mul_r by lia. apply Z.pow_le_mono_l. lia. }
  assert (L : (bpow radix2 (3 - emax - prec) <= Rabs (B2R x))%R).
  { apply abs_B2R_ge_emin. destruct x; cbn in *; try discriminate; try reflexivity; lra. }
  pose proof (abs_B2R_lt_emax _ _ x) as U. pose proof (Hp : 0 < prec) as Pp. split.
  - eapply Rle_trans; [|exact L]. change (-99) with (Z.opp 99). rewrite (bpow_opp radix10). replace (3 - emax - prec) with (- (emax + prec - 3)) by lia. rewrite bpow_opp. apply Rinv_le_contravar; [apply bpow_gt_0|]. eapply Rle_trans; [|apply (T 99); lia]. apply bpow_le. lia.
  - eapply Rlt_le_trans; [exact U|]. eapply Rle_trans; [|apply (T 99); lia]. apply bpow_le. lia.
Qed.

(** ** Infinity in the fixed format *)
Context (lg : flt -> flt) (HC : log10_contract prec emax lg).
Lemma spacing_special p (m : flt) : is_finite m = false -> floating_spacing lg p m = UB.
Proof.
  intros H. pose proof (log10_special _ _ _ HC m H) as S. unfold floating_spacing, count_digit. replace (Beqb m _) with false by (destruct m as [|[]| |]; try discriminate H; reflexivity). unfold flt_to_int. destruct (lg m) as [|[]| |]; try discriminate S; reflexivity.
Qed.
Theorem fixed_infinity lgd p name cols M s : 0 < cols -> rect cols M -> zlen (concat M) <= LONG_MAX -> In (B754_infinity s) (concat M) -> print_floats lgd lg false p false name cols M = UB.
Proof.
  intros Hc HR HL HI. unfold print_floats. rewrite fmax_fold by now rewrite zlen_map. destruct M as [|[|x r] M]; [destruct HI|inversion HR; subst; cbn in *; lia|].
  cbn [concat app map] in *. rewrite map_app in *. cbn [bind].
  rewrite (spacing_special p); [reflexivity|]. rewrite <- map_app. apply wider_fold_inf; [destruct x; reflexivity|]. destruct HI as [->|HI]; [now left|]. right. change (B754_infinity false) with (Babs (B754_infinity s : flt)). now apply in_map.
Qed.
(** ** Precisions at the end of int *)
Theorem fixed_overflow lgd p name cols M : emax + prec < 2 ^ 28 -> 0 < cols -> rect cols M -> zlen (concat M) <= LONG_MAX -> Forall (fun x => is_finite x = true) (concat M) ->
  (exists x, In x (concat M) /\ 1 <= Rabs (B2R x))%R -> 2 ^ 31 - 3 <= Z.of_nat p <= 2 ^ 31 - 1 -> print_floats lgd lg false p false name cols M = UB.
Proof.
  intros Hs Hc HR HL HF (x & Hx & X1) HP. unfold print_floats. assert (HN : concat M <> []) by (destruct (concat M); [destruct Hx|discriminate]).
  destruct (largest prec emax (concat M) HN HL HF) as (y & Hy & -> & Hmax). cbn [bind]. specialize (Hmax x Hx). pose proof (proj1 (Forall_forall _ _) HF y Hy) as Fy. assert (Fa : is_finite (Babs y) = true) by now destruct y.
  assert (Py : (1 <= B2R (Babs y))%R) by (rewrite B2R_Babs; lra).
  destruct (count_ok prec emax lg HC Hs (Babs y) Fa ltac:(lra)) as (E & B). assert (0 <= Ztrunc (B2R (lg (Babs y)))) as L.
  { apply (lg_low prec emax lg HC); auto; [lia|left]. change (ten_to 0) with (bpow radix2 0). apply generic_format_bpow. pose proof (Hp : 0 < prec). pose proof (He : prec < emax). unfold FLT_exp. lia. }
  assert (floating_spacing lg p (Babs y) = UB) as ->.
  { unfold floating_spacing. rewrite E. cbn [bind]. unfold iadd, arith, inr. cbn [signed tmin tmax]. destruct (_ && _)%bool eqn:Q; [cbn [bind]|reflexivity]. replace (_ && _)%bool with false by lia. reflexivity. }
  destruct M as [|[|z r] M]; [destruct Hx|inversion HR; subst; cbn in *; lia|reflexivity].
Qed.
End F.

(** ** Agreement with the texts of the earlier print functions, which can be read back *)
Section W.
Context {A : Type}.
Lemma written_pure (g : A -> text) (l : list A) : forall i, written (fun _ x => Ok (g x)) i l = Ok (concat (map g l)).
Proof. induction l as [|x l IH]; intros i; cbn; [reflexivity|]. rewrite IH. reflexivity. Qed.
Lemma written_joined (g : A -> text) (J : list A -> text) n (l : list A) : J [] = [] -> (forall x, J [x] = g x) -> (forall x y l, J (x :: y :: l) = g x ++ [sp; sp] ++ J (y :: l)) ->
  forall i, i + zlen l = n -> written (fun i x => Ok (g x ++ (if i =? n - 1 then [] else [sp; sp]))) i l = Ok (J l).
Proof.
  intros J0 J1 J2. induction l as [|x l IH]; intros i H; cbn [written]; [now rewrite J0|]. cbn [bind]. rewrite zlen_cons in H. rewrite IH by lia. cbn [bind]. destruct l as [|y l].
  - rewrite J0, J1. replace (i =? n - 1) with true by (cbn in H; lia). now rewrite !app_nil_r.
  - rewrite J2. rewrite zlen_cons in H. pose proof (zlen_nonneg l). replace (i =? n - 1) with false by lia. now rewrite <- app_assoc.
Qed.
Lemma written_ext (f g : Z -> A -> outcome text) (l : list A) : forall i, (forall j x, In x l -> f j x = g j x) -> written f i l = written g i l.
Proof. induction l as [|x l IH]; intros i H; cbn; [reflexivity|]. rewrite H by now left. rewrite (IH (i + 1)); [reflexivity|]. intros j y Hy. apply H. now right. Qed.
End W.
Section T.
Context {A : Type} (lg : Scalars.flt F64 -> Scalars.flt F64) (shown : A -> text).
Lemma one_col (l : list A) : print_one lg shown false false [] l = Ok (concat (map (fun x => shown x ++ [nl]) l)).
Proof. unfold print_one. cbn [bind]. rewrite (written_pure (fun x => shown x ++ [nl])). cbn. now rewrite app_nil_r. Qed.
Lemma one_row (J : list A -> text) (l : list A) : J [] = [] -> (forall x, J [x] = shown x) -> (forall x y l, J (x :: y :: l) = shown x ++ [sp; sp] ++ J (y :: l)) ->
  print_one lg shown true false [] l = Ok (J l ++ [nl]).
Proof. intros J0 J1 J2. unfold print_one. cbn [app]. rewrite (written_joined shown J (zlen l) l J0 J1 J2 0) by lia. reflexivity. Qed.
Lemma two_rows (J : list A -> text) w cols (M : list (list A)) : rect cols M -> let k := match w with Some z => Z.to_nat z | None => O end in
  J [] = [] -> (forall x, J [x] = pad k (shown x)) -> (forall x y l, J (x :: y :: l) = pad k (shown x) ++ [sp; sp] ++ J (y :: l)) ->
  print_two lg shown (Ok w) false [] cols M = Ok (concat (map (fun r => J r ++ [nl]) M)).
Proof.
  intros HR k J0 J1 J2. unfold print_two. cbn [bind app].
  rewrite (written_ext _ (fun _ r => Ok (J r ++ [nl]))).
  - rewrite (written_pure (fun r => J r ++ [nl])). reflexivity.
  - intros j r Hr. fold k. rewrite (written_joined (fun x => pad k (shown x)) J cols r J0 J1 J2 0); [reflexivity|]. pose proof (proj1 (Forall_forall _ _) HR r Hr). cbn in *. lia.
Qed.
End T.

Section R.
Context (lgd : Scalars.flt F64 -> Scalars.flt F64) (HD : log10_contract (fprec F64) (femax F64) lgd).
Theorem ints_read1 c t l A : 8 <= amax c < two62 -> 2 * zlen l <= amax c -> Forall (in_type t) l -> forall row,
  exists s, print_one lgd (show t) row false [] l = Ok s /\ exists A', read1_text c t s A = MOk A' /\ rep A' l.
Proof.
  intros H1 H2 H3 row. destruct (print_read1 c t l A H1 H2 H3) as [C R]. destruct row.
  - exists (print1_row t l). split; [|exact R]. apply one_row; auto.
  - exists (print1_col t l). split; [|exact C]. apply one_col.
Qed.
Theorem floats_read1 prec emax {Hp : Prec_gt_0 prec} {He : Prec_lt_emax prec emax} zero c sci p (l : list (binary_float prec emax)) A : 8 <= amax c < two62 -> 2 * zlen l <= amax c ->
  Forall (fun x => is_finite x = true) l -> Forall (enough_digits prec emax sci p) l -> forall row,
  exists s, print_one lgd (show_float prec emax sci p) row false [] l = Ok s /\ exists A', read1_ftext prec emax zero c s A = MOk A' /\ rep A' l.
Proof.
  intros H1 H2 H3 H4 row. destruct (print_read1_float prec emax zero c sci p l A H1 H2 H3 H4) as [C R]. destruct row.
  - exists (fprint1_row prec emax sci p l). split; [|exact R]. apply one_row; auto.
  - exists (fprint1_col prec emax sci p l). split; [|exact C]. apply one_col.
Qed.
Lemma size_ok {V} c n (M : list (list V)) : cfg_ok c -> rect n M -> 2 * zlen M * n <= amax c -> zlen (concat M) <= LONG_MAX.
Proof. intros Hc HR H. rewrite (rect_size n) by assumption. unfold cfg_ok, two62, LONG_MAX in *. lia. Qed.
Theorem ints_read2 c t M n A : cfg_ok c -> 4 <= amax c -> M <> [] -> rect n M -> 0 < n -> 2 * zlen M * n <= amax c -> Forall (Forall (in_type t)) M ->
  signed t = false \/ ~ In (tmin t) (concat M) ->
  exists s, print_ints lgd t false [] n M = Ok s /\ exists A', read2_text c t s A = MOk A' /\ holds A' (zlen M) n (mget M).
Proof.
  intros H1 H2 H3 H4 H5 H6 H7 H8. pose proof (size_ok c n M H1 H4 H6) as HL. assert (HT : Forall (in_type t) (concat M)) by now apply Forall_concat.
  assert (0 < zlen (concat M)) by (rewrite (rect_size n) by assumption; destruct M; [congruence|]; rewrite zlen_cons; pose proof (zlen_nonneg M); nia).
  destruct (ints_width lgd HD t M H3 ltac:(lia) HT H8) as (m & W & E1 & E2 & _). unfold print_ints. rewrite E1. cbn [bind]. rewrite E2. cbn [bind].
  destruct (print_read2 c t (Z.to_nat W) M n A H1 H2 H3 H4 H5 H6 H7 H8) as (s & Es & R). exists s. split; [|exact R]. rewrite (two_rows lgd (show t) (join t (Z.to_nat W)) (Some W)); auto.
  unfold print2 in Es. destruct (_ && _)%bool; [discriminate|]. exact Es.
Qed.
Section G.
Context (prec emax : Z) {Hp : Prec_gt_0 prec} {He : Prec_lt_emax prec emax}.
Notation flt := (binary_float prec emax).
Context (lg : flt -> flt) (HC : log10_contract prec emax lg) (Hs : emax + prec < 2 ^ 28).
Theorem fixed_read2 zero c p M n A : cfg_ok c -> 4 <= amax c -> M <> [] -> rect n M -> 0 < n -> 2 * zlen M * n <= amax c -> Z.of_nat p < 2 ^ 30 ->
  Forall (Forall (fun x => is_finite x = true)) M -> Forall (Forall (enough_digits prec emax false p)) M ->
  exists s, print_floats lgd lg false p false [] n M = Ok s /\ exists A', read2_ftext prec emax zero c s A = MOk A' /\ holds A' (zlen M) n (mget M).
Proof.
  intros H1 H2 H3 H4 H5 H6 HP H7 H8. pose proof (size_ok c n M H1 H4 H6) as HL. assert (HF : Forall (fun x => is_finite x = true) (concat M)) by now apply Forall_concat.
  destruct (largest prec emax (concat M) (concat_size n M H3 H5 H4) HL HF) as (x & Hx & Em & _). pose proof (proj1 (Forall_forall _ _) HF x Hx) as Fx. assert (Fa : is_finite (Babs x) = true) by now destruct x.
  assert (EW : exists w, floating_spacing lg p (Babs x) = Ok w).
  { pose proof (Hp : 0 < prec) as Hp0. assert (He0 : prec < emax) by exact He.
    assert (EC : exists k, count_digit lg (Babs x) = Ok k /\ Z.abs k <= 3 * (emax + prec) + 1).
    { destruct (Req_dec (B2R x) 0) as [X0|X0].
      - exists 1. split; [|lia]. unfold count_digit. rewrite Beqb_correct by auto. rewrite B2R_Babs, X0, Rabs_R0. now rewrite Req_bool_true.
      - assert (Px : (0 < B2R (Babs x))%R) by (rewrite B2R_Babs; now apply Rabs_pos_lt). destruct (count_ok prec emax lg HC Hs (Babs x) Fa Px) as (E & B). eexists. split; [exact E|lia]. }
    destruct EC as (k & EC & B). eexists. unfold floating_spacing. rewrite EC. cbn [bind]. unfold iadd, arith, inr. cbn [signed tmin tmax]. replace (_ && _)%bool with true by lia. cbn [bind]. replace (_ && _)%bool with true by lia. reflexivity. }
  destruct EW as (w & EW). unfold print_floats. rewrite Em. cbn [bind]. rewrite EW. cbn [bind].
  destruct (print_read2_fixed prec emax zero c p (Z.to_nat w) M n A H1 H2 H3 H4 H5 H6 HL H7 H8) as (s & Es & R). exists s. split; [|exact R]. rewrite (two_rows lgd (show_float prec emax false p) (fjoin prec emax false p (Z.to_nat w)) (Some w)); auto.
  unfold fprint2 in Es. rewrite Em in Es. cbn [bind] in Es. now rewrite Fa in Es.
Qed.
Theorem sci_read2 zero c p M n A : cfg_ok c -> 4 <= amax c -> M <> [] -> rect n M -> 0 < n -> 2 * zlen M * n <= amax c ->
  2 ^ prec < 10 ^ Z.of_nat p -> Forall (Forall (fun x => is_finite x = true)) M ->
  exists s, print_floats lgd lg true p false [] n M = Ok s /\ exists A', read2_ftext prec emax zero c s A = MOk A' /\ holds A' (zlen M) n (mget M).
Proof.
  intros H1 H2 H3 H4 H5 H6 H7 H8. pose proof (size_ok c n M H1 H4 H6) as HL. unfold print_floats. rewrite fmax_fold by now rewrite zlen_map. cbn [bind].
  destruct (print_read2_sci prec emax zero c p 0 M n A H1 H2 H3 H4 H5 H6 H7 H8) as (s & Es & R). exists s. split; [|exact R]. rewrite (two_rows lgd (show_float prec emax true p) (fjoin prec emax true p 0) None); auto.
Qed.
End G.
(** A detailed listing cannot be read back. *)
Lemma bracket_first {V} (shown : V -> text) row l s : print_one lgd shown row true [] l = Ok s -> exists s', s = "["%char :: s'.
Proof.
  unfold print_one. destruct l as [|x l]; cbn [written bind zlen length].
  - intros E. injection E as <-. cbn. eauto.
  - intros E. destruct row.
    + cbn [bind] in E. destruct (written _ _ _); try discriminate E. injection E as <-. cbn. eauto.
    + destruct (smart_spaces lgd _ _); try discriminate E. cbn [bind] in E. destruct (written _ _ _); try discriminate E. injection E as <-. cbn. eauto.
Qed.
Theorem detailed_unreadable c t row l s A : 8 <= amax c < two62 -> loud c = true -> print_one lgd (show t) row true [] l = Ok s -> read1_text c t s A = MFail (report c) A.
Proof.
  intros Ha Hl E. destruct (bracket_first _ _ _ _ E) as (s' & ->). apply (read1_text_foreign c t [] [] "["%char s' A); auto; try (cbn; lia).
  - apply words_nil. constructor.
  - unfold foreign. repeat split; cbn; intuition discriminate.
Qed.
Theorem detailed_unreadable_float prec emax {Hp : Prec_gt_0 prec} {He : Prec_lt_emax prec emax} zero c sci p row (l : list (binary_float prec emax)) s A : 8 <= amax c < two62 -> loud c = true ->
  print_one lgd (show_float prec emax sci p) row true [] l = Ok s -> read1_ftext prec emax zero c s A = MFail (report c) A.
Proof.
  intros Ha Hl E. destruct (bracket_first _ _ _ _ E) as (s' & ->). unfold read1_ftext. change (fextract prec emax FSkip ("["%char :: s')) with (@nil (binary_float prec emax), false).
  pose proof (read_array zero c [] false A Ha ltac:(cbn; lia)) as R. rewrite Hl in R. exact R.
Qed.
End R.

(** ** A number rounded up to the next power of ten does not fit *)
Lemma table_width W M s : table W M s -> Forall (fun r => zlen r = 1) M -> zlen s = zlen M * (W + 1).
Proof.
  intros (Ls & -> & F) H1. revert H1. induction F as [|r l M Ls Hf F IH]; intros H1; [reflexivity|]. pose proof (Forall_inv H1) as Hr. specialize (IH (Forall_inv_tail H1)). cbn [unlines concat map]. rewrite zlen_app. unfold unlines in IH. rewrite IH, zlen_cons, zlen_app.
  inversion Hf; subst; [|rewrite !zlen_cons in Hr; pose proof (zlen_nonneg ts); lia]. destruct H as (k & _ & ->). change (zlen [_]) with 1. lia.
Qed.
Definition d9 : Scalars.flt F64 := @B754_finite (fprec F64) (femax F64) false 5611907348168704 (-49) eq_refl.
Definition d1 : Scalars.flt F64 := @B754_finite (fprec F64) (femax F64) false 4503599627370496 (-52) eq_refl.
Lemma d9_val : B2R d9 = (319 / 32)%R.
Proof. unfold d9, B2R, F2R. cbn. lra. Qed.
Lemma d1_val : B2R d1 = 1%R.
Proof. unfold d1, B2R, F2R. cbn. lra. Qed.
Theorem fixed_carry lgd lg : log10_contract (fprec F64) (femax F64) lg ->
  exists s, print_floats (p := fprec F64) (e := femax F64) lgd lg false 1 false [] 1 [[d9]; [d1]] = Ok s /\
    ~ exists W, table W (map (map (show_float (fprec F64) (femax F64) false 1)) [[d9]; [d1]]) s.
Proof.
  intros HC. assert (C : count_digit lg d9 = Ok 1).
  { assert (P9 : (0 < B2R d9)%R) by (rewrite d9_val; lra). assert (Hs : femax F64 + fprec F64 < 2 ^ 28) by reflexivity.
    destruct (count_ok (fprec F64) (femax F64) lg HC Hs d9 eq_refl P9) as (E & _). rewrite E. f_equal. assert (Ztrunc (B2R (lg d9)) = 0); [|lia].
    assert (L0 : (0 <= B2R (lg d9))%R).
    { rewrite <- (log10_exact _ _ _ HC d1 0 ltac:(lia) eq_refl d1_val). apply (log10_monotone _ _ _ HC); auto. rewrite d9_val, d1_val. lra. }
    assert (L1 : (B2R (lg d9) < 1)%R).
    { pose proof (log10_accurate _ _ _ HC d9 eq_refl P9) as A. rewrite d9_val in A. set (L := (ln (319 / 32) / ln 10)%R) in *. pose proof ln10_pos as P10. pose proof ln10_3 as P3.
      assert (B : (ln (319 / 32) <= ln 10 - 1 / 320)%R).
      { replace (319 / 32)%R with (10 * (1 - 1 / 320))%R by lra. rewrite ln_mult by lra. assert (ln (1 - 1 / 320) <= - (1 / 320))%R; [|lra]. rewrite <- (ln_exp (- (1 / 320))). pose proof (exp_ineq1 (- (1 / 320)) ltac:(lra)). left. apply ln_increasing; lra. }
      assert (B0 : (0 <= L)%R). { unfold L. apply Rmult_le_pos; [|left; now apply Rinv_0_lt_compat]. rewrite <- ln_1. left. apply ln_increasing; lra. }
      assert (B1 : (L <= 1 - 1 / 960)%R). { unfold L. apply Rmult_le_reg_r with (ln 10); [exact P10|]. unfold Rdiv. rewrite Rmult_assoc, Rinv_l, Rmult_1_r by lra. lra. }
      rewrite (Rabs_pos_eq L) in A by exact B0. apply Rabs_le_inv in A. assert (U : (bpow radix2 (2 - fprec F64) <= / 1024)%R) by (change (/ 1024)%R with (bpow radix2 (-10)); apply bpow_le; cbn; lia). assert (bpow radix2 (2 - fprec F64) * L <= / 1024 * 1)%R; [|lra]. apply Rmult_le_compat; try lra. apply bpow_ge_0. }
    rewrite Ztrunc_floor by exact L0. apply Zfloor_imp. change (IZR (0 + 1)) with 1%R. lra. }
  eexists. split.
  - unfold print_floats. rewrite fmax_fold by (unfold LONG_MAX; cbn; lia). cbn [concat app map fold_left]. replace (wider (fprec F64) (femax F64) (Babs d9) (Babs d1)) with d9 by reflexivity. cbn [bind]. unfold floating_spacing. rewrite C. cbn [bind]. reflexivity.
  - intros (W & T). apply table_width in T; [|repeat constructor]. cbn [map] in T. change (zlen [_; _]) with 2 in T. match type of T with ?a = _ => replace a with 11 in T by (vm_compute; reflexivity) end. lia.
Qed.
(** ** Exponents of two and of three digits *)
Definition d400 : Scalars.flt F64 := @B754_finite (fprec F64) (femax F64) false 4503599627370496 348 eq_refl.
Theorem sci_mixed lgd lg : exists s, print_floats (p := fprec F64) (e := femax F64) lgd lg true 1 false [] 1 [[d400]; [d1]] = Ok s /\
    ~ exists W, table W (map (map (show_float (fprec F64) (femax F64) true 1)) [[d400]; [d1]]) s.
Proof.
  eexists. split.
  - unfold print_floats. rewrite fmax_fold by (unfold LONG_MAX; cbn; lia). cbn [concat app map fold_left bind]. reflexivity.
  - intros (W & T). apply table_width in T; [|repeat constructor]. cbn [map] in T. change (zlen [_; _]) with 2 in T. match type of T with ?a = _ => replace a with 19 in T by (vm_compute; reflexivity) end. lia.
Qed.

(** ** The contract can be met: the logarithm rounded to nearest *)
Section L.
Context (f : fmt).
Notation FE := (FLT_exp (3 - femax f - fprec f) (fprec f)).
Definition rounded_log10 (x : Scalars.flt f) : Scalars.flt f :=
  let r := nearf f (ln (B2R x) / ln 10) in
  if is_finite x then binary_normalize (fprec f) (femax f) _ _ mode_NE (Ztrunc (scaled_mantissa radix2 FE r)) (cexp radix2 FE r) false else B754_nan.
Lemma log_near (x : Scalars.flt f) : is_finite x = true -> (0 < B2R x)%R -> (Rabs (nearf f (ln (B2R x) / ln 10)) <= bpow radix2 15)%R.
Proof.
  intros Fx Px. pose proof (log_bound (fprec f) (femax f) x Fx Px) as B. apply abs_round_le_generic; try typeclasses eauto; [apply pow_le_bound; lia|].
  eapply Rle_trans; [exact B|]. change (bpow radix2 15) with (IZR (2 ^ 15)). apply IZR_le. destruct f; cbn; lia.
Qed.
Lemma rounded_ok (x : Scalars.flt f) : is_finite x = true -> (0 < B2R x)%R -> is_finite (rounded_log10 x) = true /\ B2R (rounded_log10 x) = nearf f (ln (B2R x) / ln 10).
Proof.
  intros Fx Px. pose proof (log_near x Fx Px) as B. unfold rounded_log10. rewrite Fx. set (r := nearf f _) in *.
  assert (F : generic_format radix2 FE r) by (apply generic_format_round; typeclasses eauto).
  match goal with |- context [binary_normalize _ _ ?a ?b _ ?m ?e ?s] => pose proof (binary_normalize_correct (fprec f) (femax f) a b mode_NE m e s) as N end. cbv zeta in N.
  rewrite <- F in N. rewrite round_generic in N by (typeclasses eauto || exact F).
  rewrite Rlt_bool_true in N; [destruct N as (N1 & N2 & _); auto|]. eapply Rle_lt_trans; [exact B|]. apply bpow_lt. pose proof (emax_bounds f). lia.
Qed.
Lemma away_from_one (x : Scalars.flt f) : B2R x <> 1%R -> (bpow radix2 (- fprec f) <= Rabs (B2R x - 1))%R.
Proof.
  intros N1. pose proof (prec_bounds f) as P. destruct (Rlt_le_dec (Rabs (B2R x)) (/ 2)) as [S|S].
  - assert (bpow radix2 (- fprec f) <= / 2)%R by (change (/ 2)%R with (bpow radix2 (-1)); apply bpow_le; lia). apply Rabs_lt_inv in S. rewrite Rabs_left by lra. lra.
  - destruct (multiple (fprec f) (femax f) x 0) as (n & En); [exact S|]. cbn [Z.sub Z.add] in En. set (u := bpow radix2 (- fprec f)) in *.
    assert (E1 : (1 = IZR (2 ^ fprec f) * u)%R). { change 2 with (radix_val radix2). rewrite IZR_Zpower by lia. unfold u. rewrite <- bpow_plus, Z.add_opp_diag_r. reflexivity. }
    assert (Pu : (0 < u)%R) by apply bpow_gt_0. assert (NE : n <> 2 ^ fprec f) by (intros ->; congruence).
    rewrite En, E1. rewrite <- Rmult_minus_distr_r, <- minus_IZR, Rabs_mult, (Rabs_pos_eq u), <- abs_IZR by lra. assert (D : 1 <= Z.abs (n - 2 ^ fprec f)) by lia. apply IZR_le in D. nra.
Qed.
Lemma log_away (x : Scalars.flt f) : (0 < B2R x)%R -> B2R x <> 1%R -> (bpow radix2 (- fprec f - 3) <= Rabs (ln (B2R x) / ln 10))%R.
Proof.
  intros Px N1. pose proof (away_from_one x N1) as D. pose proof ln10_pos as P10. pose proof ln10_3 as P3. set (r := B2R x) in *.
  assert (LE : forall y, (0 < y)%R -> (ln y <= y - 1)%R).
  { intros y Py. destruct (Req_dec y 1) as [->|Ny]; [rewrite ln_1; lra|]. rewrite <- (ln_exp (y - 1)). pose proof (exp_ineq1 (y - 1) ltac:(lra)). left. apply ln_increasing; lra. }
  assert (E3 : (bpow radix2 (- fprec f - 3) = / 8 * bpow radix2 (- fprec f))%R). { change (/ 8)%R with (bpow radix2 (-3)). rewrite <- bpow_plus. f_equal. lia. }
  assert (U : (bpow radix2 (- fprec f) <= / 2)%R) by (change (/ 2)%R with (bpow radix2 (-1)); apply bpow_le; pose proof (prec_bounds f); lia).
  rewrite E3. set (u := bpow radix2 (- fprec f)) in *. assert (Pu : (0 < u)%R) by apply bpow_gt_0.
  assert (G : (/ 2 * u <= Rabs (ln r))%R).
  { destruct (Rlt_le_dec r 1) as [S|S].
    - pose proof (LE r Px). rewrite Rabs_left in D by lra. rewrite Rabs_left1 by lra. lra.
    - pose proof (LE (/ r)%R (Rinv_0_lt_compat _ Px)) as Q. rewrite ln_Rinv in Q by exact Px. rewrite Rabs_pos_eq in D by lra. 
      assert (IR : (/ r * r = 1)%R) by (apply Rinv_l; lra). pose proof (Rinv_0_lt_compat _ Px) as PI. assert (K : (/ 2 * u <= 1 - / r)%R).
      { destruct (Rlt_le_dec r 2); [|assert (/ r <= / 2)%R by (apply Rinv_le_contravar; lra); lra]. assert (/ 2 <= / r)%R by (apply Rinv_le_contravar; lra). replace (1 - / r)%R with (/ r * (r - 1))%R by lra. apply Rmult_le_compat; lra. }
      rewrite Rabs_pos_eq by lra. lra. }
  unfold Rdiv. rewrite Rabs_mult, (Rabs_pos_eq (/ ln 10)) by (left; now apply Rinv_0_lt_compat). apply Rmult_le_reg_r with (ln 10); [exact P10|]. rewrite (Rmult_assoc (Rabs _)), Rinv_l, Rmult_1_r by lra. nra.
Qed.
Theorem rounded_contract : log10_contract (fprec f) (femax f) rounded_log10.
Proof.
  pose proof (prec_bounds f) as PB. pose proof (emax_bounds f) as EB. pose proof ln10_pos as P10. constructor.
  - intros x Fx Px. now apply rounded_ok.
  - intros x k Hk Fx Ex. pose proof (ten_to_pos k). assert (Px : (0 < B2R x)%R) by lra. destruct (rounded_ok x Fx Px) as [_ ->]. pose proof (log_bound (fprec f) (femax f) x Fx Px) as B. rewrite Ex, ln_ten_to in *. unfold Rdiv in *. rewrite Rmult_assoc, Rinv_r, Rmult_1_r in * by lra.
    apply near_exact. apply small_int_format. rewrite <- abs_IZR in B. apply le_IZR in B. pose proof (Z.pow_le_mono_r 2 24 (fprec f) ltac:(lia) ltac:(lia)) as Q. change (2 ^ 24) with 16777216 in Q. destruct f; cbn in *; lia.
  - intros x y Fx Fy [Px Lxy]. destruct (rounded_ok x Fx Px) as [_ ->]. destruct (rounded_ok y Fy ltac:(lra)) as [_ ->]. apply round_le; try typeclasses eauto. apply Rmult_le_compat_r; [left; now apply Rinv_0_lt_compat|]. destruct Lxy as [L|L]; [left; now apply ln_increasing|right; now rewrite L].
  - intros x Fx Px. destruct (rounded_ok x Fx Px) as [_ ->]. set (L := (ln (B2R x) / ln 10)%R). destruct (Req_dec (B2R x) 1) as [X1|X1].
    + unfold L. rewrite X1, ln_1. unfold Rdiv. rewrite Rmult_0_l. unfold near. rewrite round_0 by typeclasses eauto. rewrite Rminus_0_r, Rabs_R0. lra.
    + pose proof (log_away x Px X1) as A. fold L in A.
      assert (R : (Rabs (nearf f L - L) <= / 2 * bpow radix2 (- fprec f + 1) * Rabs L)%R).
      { apply relative_error_N_FLT; [lia|]. eapply Rle_trans; [|exact A]. apply bpow_le. destruct f; cbn; lia. }
      eapply Rle_trans; [exact R|]. apply Rmult_le_compat_r; [apply Rabs_pos|]. change (/ 2)%R with (bpow radix2 (-1)). rewrite <- bpow_plus. apply bpow_le. lia.
  - intros x Fx. unfold rounded_log10. now rewrite Fx.
Qed.
Theorem rounded_respects : respects_tens (fprec f) (femax f) rounded_log10.
Proof.
  intros y j Fy Hy. pose proof (ten_to_pos j). assert (Py : (0 < B2R y)%R) by lra. destruct (rounded_ok y Fy Py) as [_ ->]. pose proof ln10_pos as P10. pose proof (prec_bounds f) as PB. pose proof (log_bound (fprec f) (femax f) y Fy Py) as B.
  assert (L : (IZR j <= ln (B2R y) / ln 10)%R).
  { apply Rmult_le_reg_r with (ln 10); [exact P10|]. unfold Rdiv. rewrite Rmult_assoc, Rinv_l, Rmult_1_r by lra. rewrite <- ln_ten_to. destruct Hy as [Hy|Hy]; [left; now apply ln_increasing|right; now rewrite Hy]. }
  apply Rabs_le_inv in B. destruct (Z.le_gt_cases j (- (femax f + fprec f))) as [S|S].
  - apply Rle_trans with (IZR (- (femax f + fprec f))); [now apply IZR_le|]. rewrite <- (proj2 (near_exact f (IZR (- (femax f + fprec f))))).
    + apply round_le; try typeclasses eauto. rewrite opp_IZR. lra.
    + apply small_int_format. pose proof (Z.pow_le_mono_r 2 24 (fprec f) ltac:(lia) ltac:(lia)) as Q. change (2 ^ 24) with 16777216 in Q. destruct f; cbn in *; lia.
  - assert (U : j <= femax f + fprec f) by (apply le_IZR; lra). rewrite <- (proj2 (near_exact f (IZR j))).
    + apply round_le; try typeclasses eauto. exact L.
    + apply small_int_format. pose proof (Z.pow_le_mono_r 2 24 (fprec f) ltac:(lia) ltac:(lia)) as Q. change (2 ^ 24) with 16777216 in Q. destruct f; cbn in *; lia.
Qed.
End L.
