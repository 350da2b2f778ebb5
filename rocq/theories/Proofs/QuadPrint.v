(** Printing numbers of quadruple precision. *)
From Coq Require Import Ascii String Reals Lra.
From Flocq Require Import Core BinarySingleNaN.
From Verif Require Import Base.Outcome Base.ZList Model.IntModel Model.Index Model.Array1D Model.Array2D Model.Expr Model.Scalars Model.ArrayIO Model.FloatIO Model.Layout Model.Console Model.QuadIO.
From Verif Require Import Spec.ArraySpec Spec.ExprSpec Spec.IOSpec Spec.FloatSpec Spec.FloatIOSpec Spec.LayoutSpec Spec.ConsoleSpec Spec.QuadSpec.
From Verif Require Import Proofs.ExprProofs Proofs.IOProofs Proofs.IOText Proofs.FloatIOProofs Proofs.FloatIOText Proofs.ReadProofs Proofs.LayoutText Proofs.LayoutProofs Proofs.LayoutFloat Proofs.LayoutMore.
From Verif Require Import Proofs.ConsoleProofs Proofs.ConsoleThms Proofs.ConsoleFiles Proofs.QuadProofs Proofs.QuadTokens.
From Coq Require Import ZifyBool ZifyNat.

(** ** Capital letters *)
Lemma upper_digit d : 0 <= d < 10 -> upper (numeral d) = numeral d.
Proof. intros H. assert (d = 0 \/ d = 1 \/ d = 2 \/ d = 3 \/ d = 4 \/ d = 5 \/ d = 6 \/ d = 7 \/ d = 8 \/ d = 9) by lia. intuition (subst; reflexivity). Qed.
Lemma upper_digits ds : Forall (fun d => 0 <= d < 10) ds -> map upper (map numeral ds) = map numeral ds.
Proof. intros H. induction H as [|d ds Hd H IH]; [reflexivity|]. cbn [map]. now rewrite upper_digit, IH. Qed.
Lemma upper_integer s X : integer s X -> map upper s = s.
Proof.
  intros [(ds & _ & Hd & -> & _)|[(u & -> & (ds & _ & Hd & -> & _))|(u & -> & (ds & _ & Hd & -> & _))]]; cbn [map]; rewrite ?upper_digits by assumption; reflexivity.
Qed.
Lemma upper_decimal s neg D E : decimal_text s neg D E -> decimal_text (map upper s) neg D E.
Proof.
  intros (sg & m & w & k & X & -> & HS & HM & HX & ->). rewrite !map_app. assert (ES : map upper sg = sg) by (destruct HS as [[-> _]|[[-> _]|[-> _]]]; reflexivity).
  assert (EM : map upper m = m).
  { destruct HM as [ds _ Hd|ds fs _ Hd]; [now apply upper_digits|]. apply Forall_app in Hd as [H1 H2]. rewrite map_app. cbn [map]. now rewrite !upper_digits. }
  rewrite ES, EM. exists sg, m, (map upper w), k, X. repeat split; auto. destruct HX as [|a s X Ha HI]; [constructor|]. cbn [map]. rewrite (upper_integer s X HI). constructor; [|exact HI]. cbn in Ha. destruct Ha as [<-|[<-|[]]]; cbn; auto.
Qed.

(** ** The characters before the padding *)
Notation prc fm := (Z.to_nat (f_prec fm F128)).
Theorem full_digits fm x : is_finite x = true -> exists D E, decimal_text (quad_full fm x) (Bsign x) D E /\ rounded_at qp qe x D E /\
  (if f_sci fm then B2R x <> 0%R -> 10 ^ Z.of_nat (prc fm) <= D < 10 ^ (Z.of_nat (prc fm) + 1) else E = - Z.of_nat (prc fm)).
Proof.
  intros Fx. unfold quad_full. destruct (f_sci fm); cbn [show_float].
  - destruct (show_sci_digits qp qe (prc fm) x Fx) as (D & E & H1 & H2 & H3). exists D, E. split; [now apply upper_decimal|]. split; [exact H2|]. intros HN. now destruct (H3 HN).
  - destruct (show_fix_digits qp qe (prc fm) x Fx) as (D & H1 & H2). exists D, (- Z.of_nat (prc fm)). split; [now apply upper_decimal|]. now split.
Qed.
Lemma full_numeral fm x : kept (f_sci fm) (prc fm) x -> numeral_of (quad_full fm x) x.
Proof.
  intros HK. destruct (is_finite x) eqn:Fx.
  - destruct (show_float_ok qp qe (f_sci fm) (prc fm) x Fx (HK Fx)) as (D & E & H1 & H2). apply nm_dec with (Bsign x) D E; [now apply upper_decimal|now left].
  - unfold quad_full. assert (SI : forall s, sign [sign_char s] s) by (intros []; unfold sign; auto).
    destruct x as [s|s| |s m e H]; try discriminate Fx; destruct (f_sci fm); cbn [show_float show_sci show_fix map].
    1, 2: change (numeral_of ([upper (sign_char s)] ++ ["I"; "N"; "F"]%char) (B754_infinity s)); replace (upper (sign_char s)) with (sign_char s) by (destruct s; reflexivity);
      apply nm_special with s; [apply SI|]; apply sp_inf with ["i"; "n"; "f"]%char; [now left|]; repeat (constructor; [right; cbn [In cases]; repeat (first [left; reflexivity|right])|]); constructor.
    1, 2: change (numeral_of ([sign_char false] ++ ["N"; "A"; "N"]%char) B754_nan); apply nm_special with false; [apply SI|]; apply sp_nan; repeat (constructor; [right; cbn [In cases]; repeat (first [left; reflexivity|right])|]); constructor.
Qed.
Lemma full_length fm x : zlen (quad_full fm x) = zlen (show_float qp qe (f_sci fm) (prc fm) x).
Proof. apply zlen_map. Qed.
Lemma exp_bound k : 0 <= k < 10 ^ 4 -> zlen (exp_digits k) <= 4.
Proof.
  intros H. unfold exp_digits. destruct (Z.ltb_spec k 10); [rewrite zlen_fixed; cbn; lia|]. destruct (udec_length k ltac:(lia)) as [L1 L2]. replace (k =? 0) with false in L2 by lia.
  destruct (Z.le_gt_cases (zlen (udec k)) 4); [assumption|]. pose proof (Z.pow_le_mono_r 10 4 (zlen (udec k) - 1) ltac:(lia) ltac:(lia)). lia.
Qed.
Lemma ten_two k : 0 <= k -> (bpow radix2 (3 * k) <= bpow radix10 k)%R.
Proof. intros Hk. rewrite <- !IZR_Zpower by lia. apply IZR_le. change (radix_val radix2) with 2. change (radix_val radix10) with 10. rewrite Z.pow_mul_r by lia. apply Z.pow_le_mono_l. lia. Qed.
Lemma sci_bound p (x : quad) : is_finite x = true -> zlen (show_sci qp qe p x) <= 9 + Z.of_nat p.
Proof.
  intros Fx. pose proof (abs_B2R_lt_emax qp qe x) as U0. assert (L0 : x <> B754_zero true -> x <> B754_zero false -> (bpow radix2 (3 - qe - qp) <= Rabs (B2R x))%R).
  { intros H1 H2. apply abs_B2R_ge_emin. destruct x as [[]| | |]; try reflexivity; try discriminate Fx; congruence. }
  destruct x as [s|s| |s m e H]; try discriminate Fx; cbn [show_sci].
  - rewrite zlen_cons, sci_text_length. change (zlen (exp_digits (Z.abs 0))) with 2. lia.
  - rewrite zlen_cons, sci_text_length. specialize (L0 ltac:(discriminate) ltac:(discriminate)). rewrite abs_finite in L0, U0. destruct (frac_pos m e) as [Pn Pd].
    destruct (sci_digits_ok p (frac_num m e) (frac_den e) Pn Pd) as (S1 & S2 & S3 & _). pose proof (dec_exp_ok _ _ Pn Pd) as (L & U).
    set (r := sci_digits p (frac_num m e) (frac_den e)) in *. set (k := dec_exp (frac_num m e) (frac_den e)) in *.
    assert (U2 : snd r <= k + 1) by (unfold r, sci_digits; fold k; cbn zeta; destruct (_ =? _); cbn; lia).
    rewrite frac_val in L, U. assert (K1 : k < 5500).
    { apply (lt_bpow radix10). eapply Rle_lt_trans; [exact L|]. eapply Rlt_le_trans; [exact U0|]. eapply Rle_trans; [|apply ten_two; lia]. apply bpow_le. cbn. lia. }
    assert (K2 : -5500 < k + 1).
    { apply (lt_bpow radix10). eapply Rle_lt_trans; [|exact U]. eapply Rle_trans; [|exact L0]. change (-5500) with (Z.opp 5500). replace (3 - qe - qp) with (- (qe + qp - 3)) by lia. rewrite (bpow_opp radix10), bpow_opp. apply Rinv_le_contravar; [apply bpow_gt_0|].
      eapply Rle_trans; [|apply (ten_two 5500); lia]. apply bpow_le. cbn. lia. }
    pose proof (exp_bound (Z.abs (snd r))). lia.
Qed.
Lemma full_fits fm x : fits (f_sci fm) (prc fm) x -> zlen (quad_full fm x) <= 127.
Proof.
  intros HF. rewrite full_length. destruct (is_finite x) eqn:Fx.
  - unfold fits in HF. destruct (f_sci fm); cbn [show_float].
    + pose proof (sci_bound (prc fm) x Fx). lia.
    + destruct (HF Fx) as (k & H1 & H2 & H3). pose proof (fix_length qp qe (prc fm) x k H1 Fx H3) as L. cbn [show_float] in L. lia.
  - destruct x as [s|s| |s m e H]; try discriminate Fx; destruct (f_sci fm); cbn; lia.
Qed.
Theorem text_whole fm x : zlen (quad_full fm x) <= 127 -> exists k, quad_text fm x = quad_full fm x ++ repeat sp k.
Proof.
  intros H. unfold quad_text. set (s := quad_full fm x) in *. set (n := (Z.to_nat (quad_field fm) - length s)%nat). exists (Nat.min (127 - length s) n). rewrite firstn_app. f_equal; [apply firstn_all2; unfold zlen in H; lia|].
  clearbody n. generalize (127 - length s)%nat. intros k. clear. revert n. induction k as [|k IH]; intros [|n]; cbn; try reflexivity. now rewrite IH.
Qed.
Theorem text_cut fm x : 127 < zlen (quad_full fm x) -> exists u, quad_full fm x = quad_text fm x ++ u /\ u <> [] /\ zlen (quad_text fm x) = 127.
Proof.
  intros H. unfold quad_text. set (s := quad_full fm x) in *. exists (skipn 127 s). assert (E : firstn 127 (s ++ repeat sp (Z.to_nat (quad_field fm) - length s)) = firstn 127 s).
  { rewrite firstn_app. replace (127 - length s)%nat with O by (unfold zlen in H; lia). now rewrite app_nil_r. }
  rewrite E, firstn_skipn. split; [reflexivity|]. unfold zlen in *. split; [|rewrite firstn_length; lia]. intros E0. apply (f_equal (@length ascii)) in E0. rewrite skipn_length in E0. cbn in E0. lia.
Qed.
Lemma blanks k : gap (repeat sp k).
Proof. induction k; constructor; auto. cbn. auto. Qed.
Lemma blanks_ends k r : ends r -> ends (repeat sp k ++ r).
Proof. destruct k; [auto|]. intros _. cbn. auto. Qed.
(** One number and what follows. *)
Definition good (fm : format) (x : quad) : Prop := fits (f_sci fm) (prc fm) x /\ kept (f_sci fm) (prc fm) x.
Theorem number_back c fm x : good fm x -> read_quad c (quad_text fm x) = Ok x.
Proof.
  intros [HF HK]. destruct (text_whole fm x (full_fits fm x HF)) as (k & ->). apply (quad_read c [] _ x); [constructor|now apply full_numeral|]. rewrite <- (app_nil_r (repeat sp k)). now apply blanks_ends.
Qed.
Lemma word_then fm x g r xs : good fm x -> gap g -> ends r -> (forall g', gap g' -> qwords (g' ++ r) xs) -> qwords (g ++ quad_text fm x ++ r) (x :: xs).
Proof.
  intros [HF HK] Hg Hr HQ. destruct (text_whole fm x (full_fits fm x HF)) as (k & ->). rewrite <- app_assoc. constructor; auto; [now apply full_numeral|apply HQ, blanks|now apply blanks_ends].
Qed.
Lemma col_words fm l : Forall (good fm) l -> forall g, gap g -> qwords (g ++ concat (map (fun x => quad_text fm x ++ [nl]) l)) l.
Proof.
  intros H. induction H as [|x l Hx H IH]; intros g Hg; cbn [map concat]; [rewrite app_nil_r; now constructor|]. rewrite <- app_assoc. apply word_then; [assumption|assumption|exact in_nl|].
  intros g' Hg'. cbn [app]. change (nl :: ?u) with ([nl] ++ u). rewrite app_assoc. apply IH. apply Forall_app. split; [exact Hg'|]. constructor; [exact in_nl|constructor].
Qed.
Fixpoint qjoin (fm : format) (l : list quad) : text :=
  match l with [] => [] | [x] => quad_text fm x | x :: l' => quad_text fm x ++ [sp; sp] ++ qjoin fm l' end.
Lemma row_words fm l : Forall (good fm) l -> forall g, gap g -> qwords (g ++ qjoin fm l ++ [nl]) l.
Proof.
  intros H. induction H as [|x l Hx H IH]; intros g Hg; [cbn; constructor; apply Forall_app; split; [exact Hg|]; constructor; [exact in_nl|constructor]|]. destruct l as [|y l].
  - cbn [qjoin]. apply word_then; [assumption|assumption|exact in_nl|]. intros g' Hg'. constructor. apply Forall_app. split; [exact Hg'|]. constructor; [exact in_nl|constructor].
  - change (qjoin fm (x :: y :: l)) with (quad_text fm x ++ [sp; sp] ++ qjoin fm (y :: l)). rewrite <- !app_assoc. apply word_then; [assumption|assumption|exact in_sp|]. intros g' Hg'. rewrite app_assoc. apply IH. apply Forall_app. split; [exact Hg'|]. repeat constructor; exact in_sp.
Qed.

(** ** Arrays *)
Definition prec_ok (fm : format) : Prop := 0 <= f_prec fm F128 <= 2 ^ 31 - 8.
Lemma quad_ok_fine fm x : prec_ok fm -> quad_ok fm x = Ok x.
Proof. intros H. unfold quad_ok, prec_ok in *. replace (f_prec fm F128 <? 0) with false by lia. unfold iadd, arith, inr. destruct (f_sci fm); cbn -[Z.leb Z.add tmin tmax]; destruct (_ && _) eqn:E; try reflexivity; exfalso; cbn [tmin tmax] in E; lia. Qed.
Theorem quads1_stream lg A l fm af name os : prec_ok fm -> yields A (map Ok l) -> os_width os = 0 ->
  writes (quads1 lg A fm af name os) os (match l with [] => flags os | _ => if a_detailed af then int_flags os else flags os end) (print_one (lg F64) (quad_text fm) (a_row af) (a_detailed af) name l).
Proof.
  intros HP HY Hw. assert (HY' : yields (x_un (quad_ok fm) A) (map Ok l)).
  { pose proof (un_ok (quad_ok fm) _ _ HY) as H. rewrite map_map in H. erewrite map_ext in H; [exact H|]. intros x. cbn. now apply quad_ok_fine. }
  pose proof (stream1 (lg F64) (fun os => os) (quad_text fm) (fun x => x)) as H. specialize (H ltac:(reflexivity) ltac:(reflexivity) ltac:(reflexivity)).
  specialize (H ltac:(reflexivity) ltac:(intros [[[]]]; reflexivity) af name (x_un (quad_ok fm) A) l os HY' Hw). unfold quads1. unfold eff in H. destruct (a_detailed af); exact H.
Qed.
Theorem quads_back lg c fm row l A : 8 <= amax c < two62 -> 2 * zlen l <= amax c -> Forall (good fm) l ->
  exists s, print_one lg (quad_text fm) row false [] l = Ok s /\ exists A', read1_qtext c s A = MOk A' /\ rep A' l.
Proof.
  intros Hc Hm HG. destruct row.
  - exists (qjoin fm l ++ [nl]). split; [apply one_row; reflexivity|]. apply quads_read; auto. now apply (row_words fm l HG []); constructor.
  - eexists. split; [apply one_col|]. apply quads_read; auto. now apply (col_words fm l HG []); constructor.
Qed.
Theorem file_quads1 can_write can_read lg c p src l w : can_write p = true -> can_read p = true -> yields src (map Ok l) -> 8 <= amax c < two62 -> 2 * zlen l <= amax c -> prec_ok (w_fmt w) ->
  Forall (good (w_fmt w)) l -> a_detailed (w_afmt w) = false ->
  exists w' s, print_to_file can_write c p (quads1 lg src) [] w = MOk w' /\ in_file w p s w' /\ forall A, exists A', read_file_quads1 can_read c p w' A = MOk A' /\ rep A' l.
Proof.
  intros HW HR HY Ha Hl Hp HG HD. pose proof (quads1_stream lg src l (w_fmt w) (w_afmt w) [] fresh Hp HY eq_refl) as H. rewrite HD in H.
  pose proof (fun A => quads_back (lg F64) c (w_fmt w) (a_row (w_afmt w)) l A Ha Hl HG) as RD.
  destruct (RD (mkarr [] 0)) as (s & Es & _). rewrite Es in H. apply prints_of in H. destruct (file_text can_write c p _ [] s w HW H) as (w' & E & I).
  exists w', s. split; [exact E|]. split; [exact I|]. intros A. unfold read_file_quads1. rewrite (read_open can_read c p _ _ s) by (auto; now apply in_file_open in I). destruct (RD A) as (s' & Es' & R). rewrite Es in Es'. injection Es' as <-. exact R.
Qed.
Theorem quad_bad_precision fm x os : f_prec fm F128 < 0 \/ 2 ^ 31 - 4 < f_prec fm F128 < 2 ^ 31 -> put_quad fm x os = MUB.
Proof.
  intros H. unfold put_quad, quad_ok. destruct (Z.ltb_spec (f_prec fm F128) 0); [reflexivity|]. unfold iadd, arith, inr. destruct (f_sci fm); cbn -[Z.leb Z.add tmin tmax]; destruct (_ && _) eqn:E; try reflexivity; exfalso; cbn [tmin tmax] in E; lia.
Qed.
Theorem quad_put fm x os : prec_ok fm -> os_width os = 0 -> exists os', put_quad fm x os = MOk os' /\ added os (quad_text fm x) os'.
Proof. intros HP Hw. unfold put_quad. rewrite quad_ok_fine by assumption. eexists. split; [reflexivity|]. now apply put_added. Qed.
(** The text of a number: rounded digits and blanks, or the first 127 characters of it. *)
Theorem number_text fm x : is_finite x = true -> exists s D E, decimal_text s (Bsign x) D E /\ rounded_at qp qe x D E /\
  (if f_sci fm then B2R x <> 0%R -> 10 ^ Z.of_nat (prc fm) <= D < 10 ^ (Z.of_nat (prc fm) + 1) else E = - Z.of_nat (prc fm)) /\
  (fits (f_sci fm) (prc fm) x -> zlen s <= 127) /\
  (zlen s <= 127 /\ (exists k, quad_text fm x = s ++ repeat sp k) \/ 127 < zlen s /\ quad_text fm x = firstn 127 s).
Proof.
  intros Fx. destruct (full_digits fm x Fx) as (D & E & H1 & H2 & H3). exists (quad_full fm x), D, E. split; [exact H1|]. split; [exact H2|]. split; [exact H3|]. split; [apply full_fits|].
  destruct (Z.le_gt_cases (zlen (quad_full fm x)) 127) as [H|H]; [left; split; [exact H|now apply text_whole]|]. right. split; [lia|]. destruct (text_cut fm x ltac:(lia)) as (u & E0 & _ & L). rewrite E0. unfold zlen in L. generalize dependent (quad_text fm x). intros t E0 L. rewrite firstn_app. replace (127 - length t)%nat with O by lia. rewrite firstn_O, app_nil_r. symmetry. apply firstn_all2. lia.
Qed.
Theorem number_width fm x : 0 <= f_prec fm F128 -> zlen (quad_text fm x) <= 127 /\ (Z.of_nat (prc fm) <= 118 -> Z.of_nat (prc fm) + (if f_sci fm then 7 else 3) <= zlen (quad_text fm x)).
Proof.
  intros HP. unfold quad_text, quad_field, zlen. rewrite firstn_length, app_length, repeat_length. destruct (f_sci fm); lia.
Qed.
(** Values of literals. *)
Lemma literal_value (x : quad) M e m k : B2SF x = Coq.Floats.SpecFloat.S754_finite false M e -> Z.pos M = m * 2 ^ k -> 0 <= k -> B2R x = (IZR m * bpow radix2 (e + k))%R.
Proof.
  intros E HM Hk. rewrite <- SF2R_B2SF, E. unfold SF2R, F2R. cbn [Fnum Fexp cond_Zopp]. rewrite HM, mult_IZR. change 2 with (radix_val radix2). rewrite IZR_Zpower, Rmult_assoc by lia. now rewrite <- bpow_plus, Z.add_comm.
Qed.
