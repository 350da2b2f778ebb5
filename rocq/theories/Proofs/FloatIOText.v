(** Reading and printing floating-point numbers: text. *)
From Coq Require Import Ascii Reals Lra.
From Flocq Require Import Core BinarySingleNaN.
From Verif Require Import Base.Outcome Base.ZList Model.IntModel Model.Index Model.Array1D Model.Array2D Model.Reduce Model.FloatModel Model.ArrayIO Model.FloatIO.
From Verif Require Import Spec.ArraySpec Spec.MatrixSpec Spec.Shape2Spec Spec.IOSpec Spec.FloatSpec Spec.FloatIOSpec Proofs.IOProofs Spec.ExprSpec Spec.ReduceSpec Proofs.IOText Proofs.FloatIOProofs.
From Verif Require Import Proofs.ExprProofs Proofs.ReduceProofs.
From Coq Require Import ZifyBool ZifyNat.

(** ** Characters *)
Definition fclosed (a : ascii) : Prop := digit_of a = None /\ sign_of a = None /\ Ascii.eqb a "." = false /\ is_e a = false.
Lemma space_closed a : In a spaces -> is_ws a = true /\ fclosed a.
Proof. cbn. intuition (subst; repeat split; reflexivity). Qed.
Lemma fforeign_closed a : fforeign a -> is_ws a = false /\ fclosed a.
Proof. unfold fforeign, fclosed. all_ascii a; vm_compute; intros H; repeat split; try reflexivity; exfalso; apply H; tauto. Qed.

Section F.
Context (prec emax : Z) {Hp : Prec_gt_0 prec} {He : Prec_lt_emax prec emax}.
Notation flt := (binary_float prec emax).
Notation fextract := (fextract prec emax).
Notation fconv := (fconv prec emax).
Implicit Types (x : flt) (xs : list flt).

Definition fglue xs (r : list flt * bool) : list flt * bool := (xs ++ fst r, snd r).
(** The text ends here or goes on with white space. *)
Definition fends (s : text) : Prop := match s with [] => True | a :: _ => In a spaces end.

Lemma fgap_skip g u : gap g -> fextract FSkip (g ++ u) = fextract FSkip u.
Proof. intros H. induction H as [|a g Ha H IH]; [reflexivity|]. cbn [app FloatIO.fextract fnext]. unfold fbegin. now rewrite (proj1 (space_closed a Ha)). Qed.
Lemma fclosed_next st a : fclosed a -> fnext st a = None.
Proof. intros (H1 & H2 & H3 & H4). destruct st; cbn; rewrite ?H1, ?H2, ?H3, ?H4; reflexivity. Qed.
Lemma fend st u : st <> FSkip -> fends u ->
  fextract st u = match fconv st with Some v => fglue [v] (fextract FSkip u) | None => ([], match u with [] => true | _ => false end) end.
Proof.
  intros Hs Hu. destruct u as [|a u]; cbn [FloatIO.fextract fnext FloatIO.fconv].
  - now destruct (fconv st).
  - destruct (space_closed a Hu) as [Hw Hc]. rewrite (fclosed_next st a Hc). unfold fbegin. rewrite Hw. destruct st; [congruence|reflexivity..].
Qed.
Definition nonempty {V} (l : list V) : bool := match l with [] => false | _ => true end.
Lemma fdigits_run neg dot ds u : Forall (fun d => 0 <= d < 10) ds -> forall any D k,
  fextract (FNum neg any D k dot) (map numeral ds ++ u) =
  fextract (FNum neg (any || nonempty ds) (fold_left (fun v d => 10 * v + d) ds D) (if dot then k + zlen ds else k) dot) u.
Proof.
  intros H. induction H as [|d ds Hd H IH]; intros any D k.
  - cbn [map app nonempty fold_left]. rewrite orb_false_r. change (zlen (@nil Z)) with 0. rewrite Z.add_0_r. now destruct dot.
  - cbn [map app FloatIO.fextract fnext fold_left]. destruct (digit_numeral d Hd) as [-> _]. rewrite IH. rewrite orb_true_r, zlen_cons. cbn [orb nonempty].
    replace (if dot then (if dot then k + 1 else k) + zlen ds else if dot then k + 1 else k) with (if dot then k + (1 + zlen ds) else k) by (destruct dot; lia). reflexivity.
Qed.
Lemma xdigits_run neg D k es ds u : Forall (fun d => 0 <= d < 10) ds -> forall X,
  fextract (FX neg D k es X) (map numeral ds ++ u) = fextract (FX neg D k es (fold_left (fun v d => 10 * v + d) ds X)) u.
Proof.
  intros H. induction H as [|d ds Hd H IH]; intros X; [reflexivity|]. cbn [map app FloatIO.fextract fnext fold_left]. destruct (digit_numeral d Hd) as [-> _]. apply IH.
Qed.
Lemma xdigits_scan neg D k es s n u : digits s n -> fextract (FES neg D k es) (s ++ u) = fextract (FX neg D k es n) u /\
  fextract (FE neg D k) (s ++ u) = fextract (FX neg D k false n) u.
Proof.
  intros (ds & Hne & Hd & -> & ->). destruct ds as [|d ds]; [congruence|]. inversion Hd; subst. unfold number. cbn [map app fold_left FloatIO.fextract fnext].
  destruct (digit_numeral d) as [-> _]; [assumption|]. replace (10 * 0 + d) with d by lia. split; now apply xdigits_run.
Qed.
Lemma mantissa_run s D k : mantissa s D k -> (forall neg, exists dot, forall u, fextract (FNum neg false 0 0 false) (s ++ u) = fextract (FNum neg true D k dot) u) /\
  (forall u, fextract FSkip (s ++ u) = fextract (FNum false false 0 0 false) (s ++ u)) /\ 0 <= D.
Proof.
  intros [ds Hne Hd|ds fs Hne Hd].
  - split; [|split].
    + intros neg. exists false. intros u. rewrite fdigits_run by exact Hd. destruct ds; [congruence|]. reflexivity.
    + intros u. destruct ds as [|d ds]; [congruence|]. inversion Hd; subst. cbn [map app FloatIO.fextract fnext]. unfold fbegin.
      destruct (digit_numeral d) as [E _]; [assumption|]. rewrite E. replace (is_ws (numeral d)) with false.
      * now replace (10 * 0 + d) with d by lia.
      * destruct (is_ws (numeral d)) eqn:Ew; [|reflexivity]. apply ws_spaces in Ew. apply space_facts in Ew. destruct Ew. congruence.
    + now apply number_nonneg.
  - pose proof (proj1 (Forall_app _ _ _) Hd) as [Hd1 Hd2]. split; [|split].
    + intros neg. exists true. intros u. rewrite <- app_assoc. rewrite fdigits_run by exact Hd1. cbn [app FloatIO.fextract fnext].
      change (digit_of ".") with (@None Z). cbn [Ascii.eqb Bool.eqb andb negb]. rewrite fdigits_run by exact Hd2. unfold number. rewrite fold_left_app. cbn [orb].
      replace (nonempty ds || nonempty fs) with true; [reflexivity|]. destruct ds, fs; cbn in *; congruence.
    + intros u. destruct ds as [|d ds]; [reflexivity|]. inversion Hd1; subst. cbn [map app FloatIO.fextract fnext]. unfold fbegin.
      destruct (digit_numeral d) as [E _]; [assumption|]. rewrite E. replace (is_ws (numeral d)) with false.
      * now replace (10 * 0 + d) with d by lia.
      * destruct (is_ws (numeral d)) eqn:Ew; [|reflexivity]. apply ws_spaces in Ew. apply space_facts in Ew. destruct Ew. congruence.
    + now apply number_nonneg.
Qed.
Lemma decimal_nonneg s neg D E : decimal_text s neg D E -> 0 <= D.
Proof. intros (sg & u & w & k & X & -> & _ & Hu & _ & _). now apply (mantissa_run u D k). Qed.
(** The whole token is consumed. *)
Lemma decimal_scan s neg D E : decimal_text s neg D E -> exists st, st <> FSkip /\ fconv st = dec_float prec emax neg D E /\ forall u, fextract FSkip (s ++ u) = fextract st u.
Proof.
  intros (sg & m & w & k & X & -> & Hsg & Hm & Hw & ->). destruct (mantissa_run m D k Hm) as (R1 & R2 & _). destruct (R1 neg) as (dot & R1').
  assert (S : forall u, fextract FSkip ((sg ++ m ++ w) ++ u) = fextract (FNum neg true D k dot) (w ++ u)).
  { intros u. rewrite <- !app_assoc. destruct Hsg as [[-> ->]|[[-> ->]|[-> ->]]]; cbn [app].
    - rewrite R2. apply R1'.
    - change (fextract FSkip ("+"%char :: m ++ w ++ u)) with (fextract (FNum false false 0 0 false) (m ++ w ++ u)). apply R1'.
    - change (fextract FSkip ("-"%char :: m ++ w ++ u)) with (fextract (FNum true false 0 0 false) (m ++ w ++ u)). apply R1'. }
  destruct Hw as [|a e X Ha Hx].
  - exists (FNum neg true D k dot). split; [discriminate|]. split; [reflexivity|]. intros u. rewrite S. reflexivity.
  - assert (S2 : forall u, fextract FSkip ((sg ++ m ++ a :: e) ++ u) = fextract (FE neg D k) (e ++ u)).
    { intros u. rewrite S. destruct Ha as [<-|[<-|[]]]; reflexivity. }
    destruct Hx as [Hx|[(v & -> & Hx)|(v & -> & Hx)]].
    + exists (FX neg D k false X). split; [discriminate|]. split; [reflexivity|]. intros u. rewrite S2. now apply xdigits_scan.
    + exists (FX neg D k false X). split; [discriminate|]. split; [reflexivity|]. intros u. rewrite S2. cbn [app].
      change (fextract (FE neg D k) ("+"%char :: v ++ u)) with (fextract (FES neg D k false) (v ++ u)). now apply xdigits_scan.
    + exists (FX neg D k true (- X)). split; [discriminate|]. split; [cbn; now rewrite Z.opp_involutive|]. intros u. rewrite S2. cbn [app].
      change (fextract (FE neg D k) ("-"%char :: v ++ u)) with (fextract (FES neg D k true) (v ++ u)). now apply xdigits_scan.
Qed.
Lemma decimal_extract s neg D E u : decimal_text s neg D E -> fends u -> fextract FSkip (s ++ u) =
  match dec_float prec emax neg D E with Some v => fglue [v] (fextract FSkip u) | None => ([], match u with [] => true | _ => false end) end.
Proof. intros H Hu. destruct (decimal_scan s neg D E H) as (st & Hst & <- & ->). now apply fend. Qed.

(** A text followed by white space. *)
Lemma fwords_scan s xs : fwords prec emax s xs -> forall u, fends u -> fextract FSkip (s ++ u) = fglue xs (fextract FSkip u).
Proof.
  induction 1 as [g Hg|g s neg D E x r xs Hg Hs Hx Hw IH Hr]; intros u Hu.
  - rewrite fgap_skip by exact Hg. unfold fglue. now destruct (fextract FSkip u).
  - rewrite <- !app_assoc. rewrite fgap_skip by exact Hg. rewrite (decimal_extract s neg D E) by (destruct r; [exact Hu|exact Hr] || auto).
    rewrite (dec_float_nearest prec emax neg D E x) by (auto; now apply (decimal_nonneg s neg D E)). rewrite IH by exact Hu. reflexivity.
Qed.
Lemma ftext_good s xs : fwords prec emax s xs -> fextract FSkip s = (xs, true).
Proof. intros H. rewrite <- (app_nil_r s). rewrite (fwords_scan s xs H []) by exact I. unfold fglue. cbn. now rewrite app_nil_r. Qed.
(** White space, then something else. *)
Lemma ftext_then s xs u : fwords prec emax s xs -> forall b, In b spaces -> fextract FSkip (s ++ b :: u) = fglue xs (fextract FSkip u).
Proof. intros H b Hb. rewrite (fwords_scan s xs H) by exact Hb. cbn [FloatIO.fextract fnext]. unfold fbegin. now rewrite (proj1 (space_closed b Hb)). Qed.
(** A character that does not belong to a number. *)
Lemma ftext_foreign s xs b a r : fwords prec emax s xs -> In b spaces -> fforeign a -> fextract FSkip (s ++ b :: a :: r) = (xs, false).
Proof.
  intros H Hb Ha. rewrite (fwords_scan s xs H) by exact Hb. cbn [FloatIO.fextract fnext]. unfold fbegin at 1. rewrite (proj1 (space_closed b Hb)).
  destruct (fforeign_closed a Ha) as (H1 & H2 & H3 & H4 & H5). unfold fbegin. rewrite H1, H2, H3, H4. unfold fglue. cbn. now rewrite app_nil_r.
Qed.
Lemma fforeign_first a r : fforeign a -> fextract FSkip (a :: r) = ([], false).
Proof. intros Ha. cbn [FloatIO.fextract fnext]. destruct (fforeign_closed a Ha) as (H1 & H2 & H3 & H4 & H5). unfold fbegin. now rewrite H1, H2, H3, H4. Qed.
Lemma fsign_first sg a r : In sg signs -> fforeign a -> fextract FSkip (sg :: a :: r) = ([], false).
Proof.
  intros Hs Ha. destruct (fforeign_closed a Ha) as (H1 & H2 & H3 & H4 & H5).
  destruct Hs as [<-|[<-|[]]]; [change (fextract FSkip ("+"%char :: a :: r)) with (fextract (FNum false false 0 0 false) (a :: r))
                               |change (fextract FSkip ("-"%char :: a :: r)) with (fextract (FNum true false 0 0 false) (a :: r))];
    cbn [FloatIO.fextract fnext FloatIO.fconv]; now rewrite H2, H4, H5.
Qed.
(** A number out of range. *)
Lemma ftext_large s neg D E u : decimal_text s neg D E -> too_large prec emax (IZR D * ten_to E) -> fends u ->
  fextract FSkip (s ++ u) = ([], match u with [] => true | _ => false end).
Proof.
  intros Hs HT Hu. rewrite (decimal_extract s neg D E u Hs Hu). rewrite dec_float_large; auto. now apply (decimal_nonneg s neg D E).
Qed.

(** ** Printing *)
Lemma fixed_digits_ok k : forall n, exists fs, fixed_digits k n = map numeral fs /\ Forall (fun d => 0 <= d < 10) fs /\ zlen fs = Z.of_nat k /\
  forall v, fold_left (fun v d => 10 * v + d) fs v = v * 10 ^ Z.of_nat k + n mod 10 ^ Z.of_nat k.
Proof.
  induction k as [|k IH]; intros n.
  - exists []. repeat split; auto. intros v. change (10 ^ Z.of_nat 0) with 1. rewrite Z.mod_1_r. cbn [fold_left]. lia.
  - destruct (IH (n / 10)) as (fs & E1 & E2 & E3 & E4). assert (Hm : 0 <= n mod 10 < 10) by (apply Z.mod_pos_bound; lia).
    exists (fs ++ [n mod 10]). repeat split.
    + cbn [fixed_digits]. rewrite E1, map_app. cbn. now rewrite (proj2 (digit_numeral (n mod 10) Hm)).
    + apply Forall_app. split; auto.
    + rewrite zlen_app, E3. change (zlen [n mod 10]) with 1. lia.
    + intros v. rewrite fold_left_app. cbn [fold_left]. rewrite E4. replace (Z.of_nat (S k)) with (Z.succ (Z.of_nat k)) by lia. rewrite Z.pow_succ_r by lia.
      rewrite Z.rem_mul_r by (try apply Z.pow_nonzero; lia). lia.
Qed.
Lemma exp_digits_ok k : 0 <= k -> digits (exp_digits k) k.
Proof.
  intros H. unfold exp_digits. destruct (Z.ltb_spec k 10); [|now apply udec_digits]. destruct (fixed_digits_ok 2 k) as (fs & E1 & E2 & E3 & E4).
  exists fs. repeat split; auto.
  - intros ->. discriminate.
  - unfold number. rewrite E4. change (10 ^ Z.of_nat 2) with 100. rewrite Z.mod_small; lia.
Qed.
Lemma sign_char_ok neg : sign [sign_char neg] neg.
Proof. destruct neg; unfold sign; cbn; auto. Qed.
Lemma sci_text_ok p q k neg : 0 <= q < 10 ^ (Z.of_nat p + 1) -> decimal_text (sign_char neg :: sci_text p q k) neg q (k - Z.of_nat p).
Proof.
  intros Hq. destruct (fixed_digits_ok p (q mod 10 ^ Z.of_nat p)) as (fs & E1 & E2 & E3 & E4).
  assert (Ht : 0 < 10 ^ Z.of_nat p) by (apply Z.pow_pos_nonneg; lia). rewrite Z.pow_add_r in Hq by lia. change (10 ^ 1) with 10 in Hq.
  assert (Hd : 0 <= q / 10 ^ Z.of_nat p < 10) by (split; [apply Z.div_pos; lia|apply Z.div_lt_upper_bound; lia]).
  exists [sign_char neg], (map numeral [q / 10 ^ Z.of_nat p] ++ "."%char :: map numeral fs), ("e"%char :: sign_char (k <? 0) :: exp_digits (Z.abs k)), (Z.of_nat p), k.
  split; [|split; [apply sign_char_ok|split; [|split; [|lia]]]].
  - unfold sci_text. rewrite E1. cbn [app map]. now rewrite (proj2 (digit_numeral _ Hd)).
  - assert (Q : number ([q / 10 ^ Z.of_nat p] ++ fs) = q).
    { unfold number. cbn [app fold_left]. rewrite E4, Z.mod_mod by lia. pose proof (Z.div_mod q (10 ^ Z.of_nat p)). lia. }
    pose proof (man_frac [q / 10 ^ Z.of_nat p] fs) as M. rewrite E3, Q in M. apply M; [discriminate|]. constructor; auto.
  - constructor; [now left|]. pose proof (exp_digits_ok (Z.abs k) ltac:(lia)) as X. destruct (Z.ltb_spec k 0).
    + right; right. exists (exp_digits (Z.abs k)). split; [reflexivity|]. now replace (- k) with (Z.abs k) by lia.
    + right; left. exists (exp_digits (Z.abs k)). split; [reflexivity|]. now replace k with (Z.abs k) at 2 by lia.
Qed.
Lemma fix_text_ok p q neg : 0 <= q -> decimal_text (sign_char neg :: fix_text p q) neg q (- Z.of_nat p).
Proof.
  intros Hq. destruct (fixed_digits_ok p (q mod 10 ^ Z.of_nat p)) as (fs & E1 & E2 & E3 & E4).
  assert (Ht : 0 < 10 ^ Z.of_nat p) by (apply Z.pow_pos_nonneg; lia).
  destruct (udec_digits (q / 10 ^ Z.of_nat p)) as (ds & Hne & Hd & Es & Ev); [apply Z.div_pos; lia|].
  exists [sign_char neg], (map numeral ds ++ "."%char :: map numeral fs), [], (Z.of_nat p), 0.
  split; [|split; [apply sign_char_ok|split; [|split; [constructor|lia]]]].
  - unfold fix_text. rewrite E1, Es, app_nil_r. reflexivity.
  - assert (Q : number (ds ++ fs) = q).
    { unfold number in *. rewrite fold_left_app, <- Ev, E4, Z.mod_mod by lia. pose proof (Z.div_mod q (10 ^ Z.of_nat p)). lia. }
    pose proof (man_frac ds fs) as M. rewrite E3, Q in M. apply M; [now destruct ds|]. apply Forall_app. now split.
Qed.

Lemma show_sci_digits p x : is_finite x = true -> exists D E, decimal_text (show_sci prec emax p x) (Bsign x) D E /\ rounded_at prec emax x D E /\
  (B2R x <> 0%R -> 10 ^ Z.of_nat p <= D < 10 ^ (Z.of_nat p + 1) /\ exists k, (ten_to k <= Rabs (B2R x) < ten_to (k + 1))%R /\
    (Rabs (IZR D * ten_to E - Rabs (B2R x)) <= / 2 * ten_to (k - Z.of_nat p))%R /\ k - Z.of_nat p <= E).
Proof.
  destruct x as [s|s| |s m e H]; intros Hx; try discriminate.
  - exists 0, (0 - Z.of_nat p). split; [|split].
    + apply sci_text_ok. split; [lia|]. apply Z.pow_pos_nonneg; lia.
    + unfold rounded_at. rewrite Rmult_0_l. cbn [B2R]. rewrite Rabs_R0, Rminus_0_r, Rabs_R0, ten_to_bpow. pose proof (bpow_gt_0 radix10 (0 - Z.of_nat p)). split; [lra|reflexivity].
    + cbn. congruence.
  - destruct (frac_pos m e) as [Pn Pd]. destruct (sci_digits_ok p _ _ Pn Pd) as (B & R & K & T). cbn zeta in *.
    exists (fst (sci_digits p (frac_num m e) (frac_den e))), (snd (sci_digits p (frac_num m e) (frac_den e)) - Z.of_nat p).
    split; [|split]; [|unfold rounded_at; rewrite abs_finite, ten_to_bpow; rewrite frac_val in R, T; split; [|exact T]|].
    + cbn [show_sci]. apply sci_text_ok. split; [|lia]. apply Z.le_trans with (10 ^ Z.of_nat p); [apply Z.pow_nonneg; lia|lia].
    + eapply Rle_trans; [exact R|]. apply Rmult_le_compat_l; [lra|]. apply bpow_le. lia.
    + intros _. split; [exact B|]. exists (dec_exp (frac_num m e) (frac_den e)). rewrite abs_finite, !ten_to_bpow, <- frac_val. split; [apply (dec_exp_ok _ _ Pn Pd)|]. split; [exact R|]. now apply Z.sub_le_mono_r.
Qed.
(** A number with at most p + 1 significant decimal digits is printed exactly. *)
Lemma show_sci_exact p x D0 E0 : is_finite x = true -> Rabs (B2R x) = (IZR D0 * ten_to E0)%R -> 0 <= D0 < 10 ^ (Z.of_nat p + 1) ->
  exists D E, decimal_text (show_sci prec emax p x) (Bsign x) D E /\ (IZR D * ten_to E)%R = Rabs (B2R x).
Proof.
  intros Hx Hv HD. destruct (show_sci_digits p x Hx) as (D & E & HT & (R0 & _) & HN). exists D, E. split; [exact HT|].
  destruct (Req_dec (B2R x) 0) as [Z0|N0].
  - clear HN. rewrite Z0, Rabs_R0 in *. rewrite ten_to_bpow in *. pose proof (bpow_gt_0 radix10 E). rewrite Rminus_0_r in R0.
    apply Rabs_le_inv in R0. assert (D = 0) as ->; [|lra].
    assert (-1 < D < 1); [|lia]. split; apply lt_IZR; nra.
  - destruct (HN N0) as (HB & k & (L & U) & R & DE). clear HN R0 U. rewrite !ten_to_bpow in *. set (P := Z.of_nat p) in *. set (v := Rabs (B2R x)) in *.
    assert (KE : k - P <= E0).
    { destruct (Z_le_gt_dec (k - P) E0) as [|G]; [assumption|exfalso].
      assert (bpow radix10 (P + 1) <= IZR D0)%R.
      { apply Rmult_le_reg_r with (bpow radix10 E0); [apply bpow_gt_0|]. rewrite <- Hv, <- bpow_plus. eapply Rle_trans; [apply bpow_le|exact L]. lia. }
      rewrite <- ten_pow in H by lia. apply le_IZR in H. lia. }
    assert (Sh : forall Q F, k - P <= F -> (IZR Q * bpow radix10 F = IZR (Q * 10 ^ (F - (k - P))) * bpow radix10 (k - P))%R).
    { intros Q F HF. rewrite mult_IZR, ten_pow by lia. rewrite Rmult_assoc, <- bpow_plus. do 2 f_equal. lia. }
    rewrite (Sh D E DE), Hv, (Sh D0 E0 KE) in *. set (a := D * _) in *. set (b := D0 * _) in *. clearbody a b.
    rewrite <- Rmult_minus_distr_r, Rabs_mult, (Rabs_pos_eq (bpow _ _)) in R by apply bpow_ge_0.
    apply Rmult_le_reg_r in R; [|apply bpow_gt_0]. apply Rabs_le_inv in R. rewrite <- minus_IZR in R.
    assert (-1 < a - b < 1) by (split; apply lt_IZR; lra). replace a with b by lia. reflexivity.
Qed.
Theorem print_read_short c p x D0 E0 : is_finite x = true -> Rabs (B2R x) = (IZR D0 * ten_to E0)%R -> 0 <= D0 < 10 ^ (Z.of_nat p + 1) ->
  read_float prec emax c (show_float prec emax true p x) = Ok x.
Proof.
  intros Hx Hv HD. destruct (show_sci_exact p x D0 E0 Hx Hv HD) as (D & E & H1 & H2). cbn [show_float]. unfold read_float. rewrite <- (app_nil_r (show_sci _ _ _ _)).
  rewrite (decimal_extract _ _ _ _ [] H1 I). rewrite (dec_float_nearest prec emax (Bsign x) D E x); auto; [|apply exact_nearest; auto]. now apply (decimal_nonneg _ _ _ _ H1).
Qed.
Lemma show_fix_digits p x : is_finite x = true -> exists D, decimal_text (show_fix prec emax p x) (Bsign x) D (- Z.of_nat p) /\ rounded_at prec emax x D (- Z.of_nat p).
Proof.
  destruct x as [s|s| |s m e H]; intros Hx; try discriminate.
  - exists 0. split; [now apply fix_text_ok|].
    unfold rounded_at. rewrite Rmult_0_l. cbn [B2R]. rewrite Rabs_R0, Rminus_0_r, Rabs_R0, ten_to_bpow. pose proof (bpow_gt_0 radix10 (- Z.of_nat p)). split; [lra|reflexivity].
  - destruct (fix_digits_ok p m e) as (B & R & T & _). eexists. split; [now apply fix_text_ok|]. unfold rounded_at. rewrite abs_finite, ten_to_bpow. now split.
Qed.
Lemma show_float_ok sci p x : is_finite x = true -> enough_digits prec emax sci p x ->
  exists D E, decimal_text (show_float prec emax sci p x) (Bsign x) D E /\ nearest_to prec emax x (Bsign x) (IZR D * ten_to E).
Proof.
  intros Hx Hd. destruct sci; cbn [enough_digits show_float] in *.
  - destruct x as [s|s| |s m e H]; try discriminate.
    + exists 0, (0 - Z.of_nat p). split; [apply sci_text_ok; split; [lia|]; apply Z.pow_pos_nonneg; lia|]. apply exact_nearest; auto. cbn. rewrite Rabs_R0. lra.
    + eexists _, _. split; [|exact (sci_back prec emax s m e H p Hd)]. cbn [show_sci]. apply sci_text_ok. destruct (frac_pos m e) as [Pn Pd].
      destruct (sci_digits_ok p _ _ Pn Pd) as (B & _). split; [|lia]. apply Z.le_trans with (10 ^ Z.of_nat p); [apply Z.pow_nonneg; lia|lia].
  - destruct Hd as (z & Hz). destruct x as [s|s| |s m e H]; try discriminate.
    + exists 0, (- Z.of_nat p). split; [now apply fix_text_ok|]. apply exact_nearest; auto. cbn. rewrite Rabs_R0. lra.
    + eexists _, (- Z.of_nat p). split; [apply fix_text_ok; apply fix_digits_ok|]. apply exact_nearest; auto. rewrite abs_finite.
      destruct (fix_digits_ok p m e) as (_ & _ & _ & Q). rewrite ten_to_bpow in *. rewrite B2R_finite in Hz. destruct s; cbn [signed_by] in Hz.
      * rewrite (Q (- z)); rewrite opp_IZR; lra.
      * now rewrite (Q z).
Qed.
Lemma decimal_nonl s neg D E : decimal_text s neg D E -> ~ In nl s.
Proof.
  assert (HN : forall ds, Forall (fun d => 0 <= d < 10) ds -> ~ In nl (map numeral ds)).
  { intros ds Hds Hj. apply in_map_iff in Hj as (d & E' & Hj). rewrite Forall_forall in Hds. destruct (digit_numeral d (Hds d Hj)) as [E1 _]. rewrite E' in E1. discriminate. }
  intros (sg & m & w & k & X & -> & Hsg & Hm & Hw & ->) Hi. apply in_app_or in Hi as [Hi|Hi]; [|apply in_app_or in Hi as [Hi|Hi]].
  - destruct Hsg as [[-> _]|[[-> _]|[-> _]]]; cbn in Hi; intuition discriminate.
  - destruct Hm as [ds Hne Hd|ds fs Hne Hd]; [now apply (HN ds)|]. apply Forall_app in Hd as [H1 H2].
    apply in_app_or in Hi as [Hi|[Hi|Hi]]; [now apply (HN ds)|discriminate|now apply (HN fs)].
  - destruct Hw as [|a e X Ha Hx]; [destruct Hi|]. destruct Hi as [Hi|Hi]; [subst; cbn in Ha; intuition discriminate|]. now apply (integer_nonl e X).
Qed.

Definition printable (sci : bool) (p : nat) x : Prop := is_finite x = true /\ enough_digits prec emax sci p x.
Lemma fcol_words sci p l : Forall (printable sci p) l -> forall g, gap g -> fwords prec emax (g ++ fprint1_col prec emax sci p l) l.
Proof.
  unfold fprint1_col. intros H. induction H as [|x l [Hx Hd] H IH]; intros g Hg.
  - cbn. rewrite app_nil_r. now constructor.
  - cbn [map concat]. rewrite <- app_assoc. destruct (show_float_ok sci p x Hx Hd) as (D & E & H1 & H2). eapply fwords_cons; eauto.
    + apply (IH [nl]). constructor; [exact in_nl|constructor].
    + exact in_nl.
Qed.
Lemma fjoin_words sci p w l tail : Forall (printable sci p) l -> gap tail -> (forall g, gap g -> fwords prec emax (g ++ fjoin prec emax sci p w l ++ tail) l).
Proof.
  intros H Ht. induction H as [|x l [Hx Hd] H IH]; intros g Hg.
  - cbn. constructor. apply Forall_app. now split.
  - destruct (show_float_ok sci p x Hx Hd) as (D & E & H1 & H2). set (t := show_float prec emax sci p x) in *.
    assert (Gw : gap (g ++ repeat sp (w - length t))) by (apply Forall_app; split; [exact Hg|apply gap_sp]).
    destruct l as [|y l].
    + cbn [fjoin]. fold t. unfold pad. rewrite <- !app_assoc. rewrite app_assoc. eapply fwords_cons; eauto.
      * now constructor.
      * destruct tail; [exact I|]. now inversion Ht.
    + change (fjoin prec emax sci p w (x :: y :: l)) with (pad w t ++ [sp; sp] ++ fjoin prec emax sci p w (y :: l)). unfold pad. rewrite <- !app_assoc. rewrite app_assoc.
      eapply fwords_cons; eauto.
      * apply IH. repeat constructor; exact in_sp.
      * exact in_sp.
Qed.
Lemma fjoin_nonl sci p w l : Forall (printable sci p) l -> ~ In nl (fjoin prec emax sci p w l).
Proof.
  intros H. assert (P : forall x, printable sci p x -> ~ In nl (pad w (show_float prec emax sci p x))).
  { intros x [Hx Hd] Hi. unfold pad in Hi. apply in_app_or in Hi as [Hi|Hi]; [apply repeat_spec in Hi; discriminate|].
    destruct (show_float_ok sci p x Hx Hd) as (D & E & H1 & H2). now apply (decimal_nonl _ _ _ _ H1). }
  induction H as [|x l Hx H IH]; [intros []|]. destruct l as [|y l].
  - now apply P.
  - change (fjoin prec emax sci p w (x :: y :: l)) with (pad w (show_float prec emax sci p x) ++ [sp; sp] ++ fjoin prec emax sci p w (y :: l)). intros Hi.
    apply in_app_or in Hi as [Hi|Hi]; [now apply (P x)|]. apply in_app_or in Hi as [[Hi|[Hi|[]]]|Hi]; [discriminate..|now apply IH].
Qed.
Lemma fwords_line s xs : fwords prec emax s xs -> xs <> [] -> fline_of prec emax s = mkline false xs true.
Proof.
  intros W Hz. unfold fline_of. rewrite (ftext_good s xs W). cbn [fst snd]. f_equal. destruct s; [|reflexivity]. exfalso.
  pose proof (ftext_good [] [] (fwords_nil prec emax [] (Forall_nil _))) as W2. rewrite (ftext_good _ _ W) in W2. congruence.
Qed.

(** ** Arrays *)
Theorem read_float_ok c s neg D E u : decimal_text s neg D E -> ~ too_large prec emax (IZR D * ten_to E) -> (match u with [] => True | a :: _ => In a spaces end) ->
  exists x, read_float prec emax c (s ++ u) = Ok x /\ nearest_to prec emax x neg (IZR D * ten_to E).
Proof.
  intros H HT Hu. unfold read_float. rewrite (decimal_extract s neg D E u H Hu).
  destruct (dec_float_ok prec emax neg D E (decimal_nonneg _ _ _ _ H)) as [(x & -> & N & _)|(_ & HT')]; [|contradiction]. cbn. eauto.
Qed.
Theorem read_float_large c s neg D E u : loud c = true -> decimal_text s neg D E -> too_large prec emax (IZR D * ten_to E) -> (match u with [] => True | a :: _ => In a spaces end) ->
  read_float prec emax c (s ++ u) = Fail (report c).
Proof.
  intros Hc H HT Hu. unfold read_float. rewrite (ftext_large s neg D E u H HT Hu). cbn [fst]. unfold check_always, loud in *. unfold report.
  destruct (exc c); [reflexivity|]. destruct (ndbg c); [discriminate|reflexivity].
Qed.
Theorem print_read_float c sci p x : is_finite x = true -> enough_digits prec emax sci p x -> read_float prec emax c (show_float prec emax sci p x) = Ok x.
Proof.
  intros Hx Hd. destruct (show_float_ok sci p x Hx Hd) as (D & E & H1 & H2). unfold read_float. rewrite <- (app_nil_r (show_float _ _ _ _ _)).
  rewrite (decimal_extract _ _ _ _ [] H1 I). rewrite (dec_float_nearest prec emax (Bsign x) D E x); auto. now apply (decimal_nonneg _ _ _ _ H1).
Qed.
Theorem read1_ftext_ok zero c s xs A : 8 <= amax c < two62 -> 2 * zlen xs <= amax c -> fwords prec emax s xs ->
  exists A', read1_ftext prec emax zero c s A = MOk A' /\ rep A' xs.
Proof. intros Hc Hm W. unfold read1_ftext. rewrite (ftext_good s xs W). cbn [fst snd]. now apply read1_ok. Qed.
Theorem read1_ftext_foreign zero c s xs b a r A : 8 <= amax c < two62 -> 2 * zlen xs <= amax c -> loud c = true -> fwords prec emax s xs -> In b spaces -> fforeign a ->
  read1_ftext prec emax zero c (s ++ b :: a :: r) A = MFail (report c) A.
Proof. intros Hc Hm Hl W Hb Ha. unfold read1_ftext. rewrite (ftext_foreign s xs b a r W Hb Ha). cbn [fst snd]. now apply read1_bad. Qed.
Theorem read1_ftext_large zero c s xs b w neg D E a r A : 8 <= amax c < two62 -> 2 * zlen xs <= amax c -> loud c = true -> fwords prec emax s xs -> In b spaces ->
  decimal_text w neg D E -> too_large prec emax (IZR D * ten_to E) -> In a spaces ->
  read1_ftext prec emax zero c (s ++ b :: w ++ a :: r) A = MFail (report c) A.
Proof.
  intros Hc Hm Hl W Hb Hw HT Ha. unfold read1_ftext. rewrite (fwords_scan s xs W) by exact Hb. cbn [FloatIO.fextract fnext]. unfold fbegin at 1 2.
  rewrite (proj1 (space_closed b Hb)), (ftext_large w neg D E (a :: r) Hw HT Ha). unfold fglue. cbn [fst snd]. rewrite app_nil_r. now apply read1_bad.
Qed.
(** Not noticed at the very end of the text. *)
Theorem read1_ftext_last zero c s xs b w neg D E A : 8 <= amax c < two62 -> 2 * zlen xs <= amax c -> fwords prec emax s xs -> In b spaces ->
  decimal_text w neg D E -> too_large prec emax (IZR D * ten_to E) ->
  exists A', read1_ftext prec emax zero c (s ++ b :: w) A = MOk A' /\ rep A' xs.
Proof.
  intros Hc Hm W Hb Hw HT. unfold read1_ftext. rewrite (fwords_scan s xs W) by exact Hb. cbn [FloatIO.fextract fnext]. unfold fbegin at 1 2.
  rewrite (proj1 (space_closed b Hb)). rewrite <- (app_nil_r w). rewrite (ftext_large w neg D E [] Hw HT I). unfold fglue. cbn [fst snd]. rewrite app_nil_r. now apply read1_ok.
Qed.
Theorem print_read1_float zero c sci p l A : 8 <= amax c < two62 -> 2 * zlen l <= amax c ->
  Forall (fun x => is_finite x = true) l -> Forall (enough_digits prec emax sci p) l ->
  (exists A', read1_ftext prec emax zero c (fprint1_col prec emax sci p l) A = MOk A' /\ rep A' l) /\
  (exists A', read1_ftext prec emax zero c (fprint1_row prec emax sci p l) A = MOk A' /\ rep A' l).
Proof.
  intros Hc Hm H1 H2. assert (H : Forall (printable sci p) l) by (rewrite Forall_forall in *; unfold printable; auto).
  split; apply read1_ftext_ok; auto.
  - apply (fcol_words sci p l H []). constructor.
  - apply (fjoin_words sci p 0 l [nl] H) with (g := []); repeat constructor; exact in_nl.
Qed.
(** Infinities and NaN are printed but not read. *)
Lemma show_special sci p x : is_finite x = false -> exists sg a r, show_float prec emax sci p x = sg :: a :: r /\ In sg signs /\ fforeign a.
Proof.
  intros Hx. assert (Fi : fforeign "i") by (intros H; cbn in H; intuition discriminate). assert (Fn : fforeign "n") by (intros H; cbn in H; intuition discriminate).
  destruct x as [s|s| |s m e H]; try discriminate; destruct sci; cbn [show_float show_sci show_fix]; unfold inf_text, nan_text; eexists _, _, _; (split; [reflexivity|]);
    (split; [unfold sign_char; try destruct s; cbn; auto|assumption]).
Qed.
Theorem special_read c sci p x : loud c = true -> is_finite x = false -> read_float prec emax c (show_float prec emax sci p x) = Fail (report c).
Proof.
  intros Hc Hx. destruct (show_special sci p x Hx) as (sg & a & r & -> & Hs & Ha). unfold read_float. rewrite (fsign_first sg a r Hs Ha). cbn [fst].
  unfold check_always, loud in *. unfold report. destruct (exc c); [reflexivity|]. destruct (ndbg c); [discriminate|reflexivity].
Qed.
Lemma fcol_last sci p l y : Forall (printable sci p) (l ++ [y]) -> forall g, gap g ->
  fwords prec emax (g ++ fprint1_col prec emax sci p l ++ show_float prec emax sci p y) (l ++ [y]).
Proof.
  unfold fprint1_col. induction l as [|z l IH]; intros P g Hg; cbn [app] in P; inversion P as [|? ? [Hx Hd] P']; subst.
  - destruct (show_float_ok sci p y Hx Hd) as (D & E & H1 & H2). cbn [map concat app].
    rewrite <- (app_nil_r (show_float _ _ _ _ _)). eapply fwords_cons; eauto. constructor. constructor.
  - destruct (show_float_ok sci p z Hx Hd) as (D & E & H1 & H2). cbn [map concat app]. rewrite <- !app_assoc.
    eapply fwords_cons; eauto; [|exact in_nl]. apply (IH P' [nl]). constructor; [exact in_nl|constructor].
Qed.
Theorem special_read1 zero c sci p l A : 8 <= amax c < two62 -> 2 * zlen l <= amax c -> loud c = true -> Forall (enough_digits prec emax sci p) l ->
  existsb (fun x => negb (is_finite x)) l = true -> read1_ftext prec emax zero c (fprint1_col prec emax sci p l) A = MFail (report c) A.
Proof.
  intros Hc Hm Hl Hd He'. assert (Sp : exists l1 x l2, l = l1 ++ x :: l2 /\ Forall (fun x => is_finite x = true) l1 /\ is_finite x = false).
  { clear - He'. induction l as [|x l IH]; [discriminate|]. cbn in He'. destruct (is_finite x) eqn:Ex; cbn in He'.
    - destruct (IH He') as (l1 & y & l2 & -> & H1 & H2). exists (x :: l1), y, l2. repeat split; auto.
    - exists [], x, l. repeat split; auto. }
  destruct Sp as (l1 & x & l2 & -> & H1 & H2). rewrite zlen_app, zlen_cons in Hm. pose proof (zlen_nonneg l2). pose proof (zlen_nonneg l1). apply Forall_app in Hd as [Hd _].
  assert (P : Forall (printable sci p) l1) by (rewrite Forall_forall in *; unfold printable; auto).
  unfold read1_ftext. assert (E : fextract FSkip (fprint1_col prec emax sci p (l1 ++ x :: l2)) = (l1, false)).
  { destruct (show_special sci p x H2) as (sg & a & r & Es & Hs & Ha). unfold fprint1_col. rewrite map_app, concat_app. cbn [map concat]. rewrite Es. cbn [app].
    destruct l1 as [|y l1 _] using rev_ind.
    - cbn [map concat app]. now apply fsign_first.
    - rewrite map_app, concat_app. cbn [map concat]. rewrite app_nil_r, <- !app_assoc. cbn [app].
      pose proof (fcol_last sci p l1 y P [] (Forall_nil _)) as W'. cbn [app] in W'. unfold fprint1_col in W'.
      rewrite app_assoc. rewrite (ftext_then _ _ (sg :: a :: r ++ nl :: concat (map (fun x => show_float prec emax sci p x ++ [nl]) l2)) W').
      + rewrite fsign_first by auto. unfold fglue. cbn. now rewrite app_nil_r.
      + exact in_nl. }
  rewrite E. cbn [fst snd]. apply read1_bad; auto; lia.
Qed.

Theorem read2_ftext_ok zero c Ls M n A : cfg_ok c -> 4 <= amax c -> M <> [] -> rect n M -> 0 < n -> 2 * zlen M * n <= amax c ->
  Forall2 (fwords prec emax) Ls M -> Forall one_line Ls -> exists A', read2_ftext prec emax zero c (unlines Ls) A = MOk A' /\ holds A' (zlen M) n (mget M).
Proof.
  intros Hc HA HM HR Pn Hmem H HL. unfold read2_ftext. rewrite <- (app_nil_r (unlines Ls)). rewrite getlines_all by (auto; intros []). rewrite app_nil_r.
  assert (map (fline_of prec emax) Ls = map (fun r => mkline false r true) M) as ->.
  { clear - H HR Pn Hp He. induction H as [|s zs Ls M Hs H IH]; [reflexivity|]. inversion HR; subst. cbn [map]. rewrite IH by assumption.
    rewrite (fwords_line s zs Hs); [reflexivity|]. intros ->. change (zlen (@nil flt)) with 0 in Pn. lia. }
  assert (RL : forall M : list (list flt), rows (map (fun r => mkline false r true) M) = M).
  { clear. induction M as [|r M IH]; [reflexivity|]. cbn [map]. rewrite rows_cons. cbn [lempty ltoks]. now rewrite IH. }
  destruct M as [|r M]; [congruence|]. inversion HR; subst. cbn [map]. rewrite zlen_cons in *.
  destruct (read2_ok zero c [] (mkline false r true) (map (fun r => mkline false r true) M) A) as (A' & E & Hh); cbn [ltoks leof]; rewrite ?RL; auto.
  - intros ->. change (zlen (@nil flt)) with 0 in Pn. lia.
  - match goal with H : Forall _ M |- _ => clear - H; unfold rows_or_empty; induction H; cbn [map]; constructor; auto; right; now repeat split end.
  - cbn [app ltoks] in E, Hh. rewrite RL in Hh. eauto.
Qed.
Theorem print_read2_sci zero c p w M n A : cfg_ok c -> 4 <= amax c -> M <> [] -> rect n M -> 0 < n -> 2 * zlen M * n <= amax c ->
  2 ^ prec < 10 ^ Z.of_nat p -> Forall (Forall (fun x => is_finite x = true)) M ->
  exists s, fprint2 prec emax true p w M = Ok s /\ exists A', read2_ftext prec emax zero c s A = MOk A' /\ holds A' (zlen M) n (mget M).
Proof.
  intros Hc HA HM HR Pn Hmem Hd HF. assert (HP : Forall (Forall (printable true p)) M).
  { rewrite Forall_forall in *. intros r Hr. specialize (HF r Hr). rewrite Forall_forall in *. split; [auto|exact Hd]. }
  unfold fprint2. eexists. split; [reflexivity|]. replace (concat (map (fun r => fjoin prec emax true p 0 r ++ [nl]) M)) with (unlines (map (fjoin prec emax true p 0) M)).
  - apply read2_ftext_ok; auto.
    + clear - HP Hp He. induction HP as [|r M Hr H IH]; cbn [map]; constructor; auto.
      pose proof (fjoin_words true p 0 r [] Hr (Forall_nil _) [] (Forall_nil _)) as W. cbn [app] in W. now rewrite app_nil_r in W.
    + apply Forall_forall. intros s Hs. apply in_map_iff in Hs as (r & <- & Hr). rewrite Forall_forall in HP. apply fjoin_nonl. auto.
  - unfold unlines. now rewrite map_map.
Qed.
(** The width of the fixed format. *)
Definition wider (m x : flt) : flt := Reduce.maxs (fun x y => Bltb y x) x m.
Lemma fmax_fold (l : list flt) : zlen l <= LONG_MAX -> r_max (fun x y => Bltb y x) (src_of_list l) (B754_zero false) =
  Ok (match l with [] => B754_zero false | x :: l' => fold_left wider l' x end).
Proof.
  intros H. unfold r_max. rewrite (fold_ok _ _ (map Ok l)) by now apply yields_list. destruct l as [|x l]; [reflexivity|]. cbn [map bind]. apply foldo_pure.
Qed.
Lemma wider_cases (m x : flt) : wider m x = m \/ wider m x = x.
Proof. unfold wider, Reduce.maxs. destruct (Bltb m x); auto. Qed.
Lemma wider_inf_l (x : flt) : wider (B754_infinity false) x = B754_infinity false.
Proof. unfold wider, Reduce.maxs. now destruct x as [[|]|[|]| |[|] ? ? ?]. Qed.
Lemma wider_inf_r (m : flt) : m = B754_nan \/ Babs m <> m \/ wider m (B754_infinity false) = B754_infinity false.
Proof. unfold wider, Reduce.maxs. destruct m as [[|]|[|]| |[|] m e H]; cbn; auto; right; left; discriminate. Qed.
Lemma wider_nan_l (x : flt) : wider B754_nan x = B754_nan.
Proof. unfold wider, Reduce.maxs. now destruct x. Qed.
Lemma babs_abs (x : flt) : Babs (Babs x) = Babs x.
Proof. now destruct x. Qed.
Lemma wider_fold_inf (l : list flt) : forall m, Babs m = m -> In (B754_infinity false) (m :: map (@Babs prec emax) l) -> is_finite (fold_left wider (map (@Babs prec emax) l) m) = false.
Proof.
  assert (N : forall (f : flt), (forall x, wider f x = f) -> forall l, fold_left wider l f = f) by (intros f Hf; induction l0 as [|x l0 IH]; cbn; rewrite ?Hf; auto).
  induction l as [|x l IH]; intros m Hm Hi; cbn [map fold_left].
  - destruct Hi as [->|[]]. reflexivity.
  - destruct Hi as [->|[Hi|Hi]].
    + rewrite wider_inf_l, N; [reflexivity|apply wider_inf_l].
    + rewrite Hi. destruct (wider_inf_r m) as [->|[Hn|E]]; [|contradiction|].
      * rewrite wider_nan_l, N; [reflexivity|apply wider_nan_l].
      * rewrite E, N; [reflexivity|apply wider_inf_l].
    + apply IH; [|now right]. destruct (wider_cases m (Babs x)) as [-> | ->]; [exact Hm|apply babs_abs].
Qed.
Lemma wider_fold_finite (l : list flt) : forall m, is_finite m = true -> Forall (fun x => is_finite x = true) l -> is_finite (fold_left wider (map (@Babs prec emax) l) m) = true.
Proof.
  induction l as [|x l IH]; intros m Hm H; [exact Hm|]. inversion H; subst. cbn [map fold_left]. apply IH; auto.
  destruct (wider_cases m (Babs x)) as [-> | ->]; [exact Hm|]. now destruct x.
Qed.
Theorem fprint2_fixed_inf p w M x : zlen (concat M) <= LONG_MAX -> In x (concat M) -> (exists s, x = B754_infinity s) -> fprint2 prec emax false p w M = UB.
Proof.
  intros HL Hx (s & ->). unfold fprint2. rewrite fmax_fold by now rewrite zlen_map. cbn [bind]. destruct (concat M) as [|y l]; [destruct Hx|]. cbn [map].
  rewrite wider_fold_inf; [reflexivity|apply babs_abs|]. destruct Hx as [->|Hx]; [now left|]. right. change (B754_infinity false) with (Babs (B754_infinity s : flt)). now apply in_map.
Qed.
Theorem print_read2_fixed zero c p w M n A : cfg_ok c -> 4 <= amax c -> M <> [] -> rect n M -> 0 < n -> 2 * zlen M * n <= amax c -> zlen (concat M) <= LONG_MAX ->
  Forall (Forall (fun x => is_finite x = true)) M -> Forall (Forall (enough_digits prec emax false p)) M ->
  exists s, fprint2 prec emax false p w M = Ok s /\ exists A', read2_ftext prec emax zero c s A = MOk A' /\ holds A' (zlen M) n (mget M).
Proof.
  intros Hc HA HM HR Pn Hmem HL HF Hd. assert (HP : Forall (Forall (printable false p)) M).
  { rewrite Forall_forall in *. intros r Hr. specialize (HF r Hr). specialize (Hd r Hr). rewrite Forall_forall in *. split; auto. }
  unfold fprint2. rewrite fmax_fold by now rewrite zlen_map. cbn [bind].
  assert (HC : Forall (fun x : flt => is_finite x = true) (concat M)) by now apply Forall_concat.
  assert (is_finite (match map (@Babs prec emax) (concat M) with [] => B754_zero false | x :: l' => fold_left wider l' x end) = true) as ->.
  { destruct (concat M) as [|x l]; [reflexivity|]. inversion HC; subst. cbn [map]. apply wider_fold_finite; auto. now destruct x. }
  eexists. split; [reflexivity|]. replace (concat (map (fun r => fjoin prec emax false p w r ++ [nl]) M)) with (unlines (map (fjoin prec emax false p w) M)).
  - apply read2_ftext_ok; auto.
    + clear - HP Hp He. induction HP as [|r M Hr H IH]; cbn [map]; constructor; auto.
      pose proof (fjoin_words false p w r [] Hr (Forall_nil _) [] (Forall_nil _)) as W. cbn [app] in W. now rewrite app_nil_r in W.
    + apply Forall_forall. intros s Hs. apply in_map_iff in Hs as (r & <- & Hr). rewrite Forall_forall in HP. apply fjoin_nonl. auto.
  - unfold unlines. now rewrite map_map.
Qed.
End F.

(** ** Booleans *)
Theorem bools_not_read c l A : 8 <= amax c < two62 -> loud c = true -> l <> [] -> read1_btext c (bprint1_col l) A = MFail (report c) A.
Proof.
  intros Hc Hl Hne. unfold read1_btext. destruct l as [|b l]; [congruence|]. assert (bextract Skip (bprint1_col (b :: l)) = ([], false)) as -> by (destruct b; reflexivity).
  cbn [fst snd]. apply read1_bad; auto. change (zlen (@nil bool)) with 0. lia.
Qed.
Lemma bextract_of st s zs e : extract I32 st s = (zs, e) -> (match st with Digits _ n => 0 <= n | _ => True end) -> Forall (fun z => z = 0 \/ z = 1) zs -> bextract st s = (map (Z.eqb 1) zs, e).
Proof.
  assert (TB : forall neg n, 0 <= n -> match to_int I32 neg n with Some z => (z = 0 \/ z = 1) -> to_bool neg n = Some (Z.eqb 1 z) | None => to_bool neg n = None end).
  { intros neg n Hn. unfold to_int, to_bool. cbn [signed tmin tmax]. destruct neg; cbn [negb andb];
      match goal with |- context [if ?b then Some _ else None] => destruct b eqn:Eb end; try (intros [H|H]); try (destruct (Z.eqb_spec n 0)); try (destruct (Z.eqb_spec n 1)); cbn [andb] in *; try reflexivity; try lia;
      try (subst; reflexivity); try (f_equal; lia). }
  revert st zs e. induction s as [|a s IH]; intros st zs e; cbn [extract bextract].
  - destruct st as [|neg|neg n]; try (intros [= <- <-]; reflexivity). intros H Hn Hz. pose proof (TB neg n Hn) as T. destruct (to_int I32 neg n); injection H as <- <-.
    + inversion Hz; subst. now rewrite T by assumption.
    + now rewrite T.
  - assert (Ha : match digit_of a with Some d => 0 <= d | None => True end) by (unfold digit_of; destruct (_ && _) eqn:Eb; [lia|exact I]).
    destruct st as [|neg|neg n]; destruct (digit_of a) as [d|].
    + intros H _ Hz. apply IH; auto.
    + intros H _ Hz. repeat match type of H with (if ?b then _ else _) = _ => destruct b end; try (apply IH; now auto). injection H as <- <-. reflexivity.
    + intros H _ Hz. apply IH; auto.
    + intros [= <- <-] _ _. reflexivity.
    + intros H Hn Hz. apply IH; auto. lia.
    + intros H Hn Hz. pose proof (TB neg n Hn) as T. destruct (to_int I32 neg n) as [z|]; injection H as <- <-.
      * inversion Hz; subst. rewrite T by assumption. cbn [map].
        match goal with |- (?b :: fst ?r, snd ?r) = (_ :: map _ (fst ?r'), snd ?r') => assert (r = (map (Z.eqb 1) (fst r'), snd r')) as ->; [|reflexivity] end.
        destruct (is_ws a); [apply IH; auto; now destruct (extract I32 Skip s)|].
        destruct (Ascii.eqb a "-"); [apply IH; auto; now destruct (extract I32 (Sign true) s)|].
        destruct (Ascii.eqb a "+"); [apply IH; auto; now destruct (extract I32 (Sign false) s)|]. reflexivity.
      * now rewrite T.
Qed.
Theorem bools_read c s zs A : 8 <= amax c < two62 -> 2 * zlen zs <= amax c -> words I32 s zs -> Forall (fun z => z = 0 \/ z = 1) zs ->
  exists A', read1_btext c s A = MOk A' /\ rep A' (map (Z.eqb 1) zs).
Proof.
  intros Hc Hm W Hz. unfold read1_btext. rewrite (bextract_of Skip s zs true (text_good I32 s zs W) I Hz). cbn [fst snd]. apply read1_ok; auto. now rewrite zlen_map.
Qed.
