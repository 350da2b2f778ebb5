(** Proofs about literals. *)
From Coq Require Import Ascii Reals Lra.
From Flocq Require Import Core BinarySingleNaN.
From Verif Require Import Base.Outcome Base.ZList Model.IntModel Model.ArrayIO Model.FloatIO Model.Random Model.Literals.
From Verif Require Import Spec.IntSpec Spec.IOSpec Spec.FloatSpec Spec.FloatIOSpec Spec.LiteralSpec Proofs.IntProofs Proofs.IOText Proofs.FloatIOProofs Proofs.FloatIOText.
Local Open Scope Z_scope.

Lemma wrap_in t z : tmin t <= z <= tmax t -> wrap t z = z.
Proof. intros H. apply wrap_id. rewrite <- inr_fits. unfold inr. lia. Qed.
Theorem signed_exact c t n : 0 <= n <= tmax t -> lit_signed c t n = Value n.
Proof.
  intros H. unfold lit_signed, ull. assert (n <=? tmax U64 = true) as -> by (destruct t; cbn in *; lia). cbn [bind].
  assert (n <=? tmax t = true) as -> by lia. rewrite check_debug_true. cbn. unfold icast. rewrite wrap_in; [reflexivity|]. destruct t; cbn in *; lia.
Qed.
Theorem signed_rejected c t n : checked c = true -> tmax t < n -> lit_signed c t n = Rejected.
Proof.
  intros HC H. unfold lit_signed, ull. destruct (n <=? tmax U64); [|reflexivity]. cbn [bind].
  assert (n <=? tmax t = false) as -> by lia. rewrite check_debug_false by exact HC. reflexivity.
Qed.
Theorem too_long c t n : tmax U64 < n -> lit_signed c t n = Rejected /\ lit_unsigned t n = Rejected.
Proof. intros H. unfold lit_signed, lit_unsigned, ull. assert (n <=? tmax U64 = false) as -> by lia. now split. Qed.
Lemma wrap_char t z : fits (signed t) (bits t) (wrap t z) /\ exists k, wrap t z = z + k * 2 ^ bits t.
Proof. split; [apply wrap_fits|apply wrap_cong]. Qed.
Theorem signed_wraps c t n : checked c = false -> 0 <= n <= tmax U64 ->
  exists v, lit_signed c t n = Value v /\ fits (signed t) (bits t) v /\ exists k, v = n + k * 2 ^ bits t.
Proof.
  intros HC H. unfold lit_signed, ull. assert (n <=? tmax U64 = true) as -> by lia. cbn [bind].
  destruct (check_debug_cases c (n <=? tmax t)) as [[-> _]|(_ & _ & HC')]; [|congruence]. exists (wrap t n). split; [reflexivity|]. apply wrap_char.
Qed.
Theorem unsigned_wraps t n : 0 <= n <= tmax U64 -> exists v, lit_unsigned t n = Value v /\ fits (signed t) (bits t) v /\ exists k, v = n + k * 2 ^ bits t.
Proof. intros H. unfold lit_unsigned, ull. assert (n <=? tmax U64 = true) as -> by lia. exists (wrap t n). split; [reflexivity|]. apply wrap_char. Qed.
Theorem unsigned_exact t n : 0 <= n <= tmax t -> lit_unsigned t n = Value n.
Proof.
  intros H. unfold lit_unsigned, ull. assert (n <=? tmax U64 = true) as -> by (destruct t; cbn in *; lia). cbn. unfold icast. rewrite wrap_in; [reflexivity|]. destruct t; cbn in *; lia.
Qed.

(** Conversion of formats. *)
Section C.
Context (p e : Z) {Hp : Prec_gt_0 p} {He : Prec_lt_emax p e}.
Lemma convert_ok {p1 e1} (x : binary_float p1 e1) : is_finite x = true ->
  ((Rabs (near p e (B2R x)) < bpow radix2 e)%R /\ is_finite (convert p e x) = true /\ B2R (convert p e x) = near p e (B2R x) /\ Bsign (convert p e x) = Bsign x) \/
  ((bpow radix2 e <= Rabs (near p e (B2R x)))%R /\ is_finite (convert p e x) = false).
Proof.
  destruct x as [s|s| |s m ex H]; intros Hx; try discriminate.
  - left. cbn. rewrite near_0 by assumption. rewrite Rabs_R0. repeat split. apply bpow_gt_0.
  - unfold convert. set (z := if s then Z.neg m else Z.pos m).
    assert (E : F2R (Float radix2 z ex) = B2R (B754_finite s m ex H)) by (unfold z; destruct s; reflexivity).
    pose proof (binary_normalize_correct p e Hp He mode_NE z ex s) as B. rewrite E in B. cbv zeta in B. change (round radix2 (SpecFloat.fexp p e) (round_mode mode_NE) (B2R (B754_finite s m ex H))) with (near p e (B2R (B754_finite s m ex H))) in B.
    revert B. case Rlt_bool_spec; intros HL B.
    + left. destruct B as (B1 & B2 & B3). repeat split; auto. rewrite B3. rewrite <- E. unfold z. destruct s; cbn [Bsign].
      * rewrite Rcompare_Lt; [reflexivity|]. now apply F2R_lt_0.
      * rewrite Rcompare_Gt; [reflexivity|]. now apply F2R_gt_0.
    + right. split; [exact HL|]. rewrite <- is_finite_SF_B2SF. rewrite B. unfold binary_overflow. cbn. now destruct (Rlt_bool _ _).
Qed.
Context (Hle : p <= 64) (Hee : e <= 16384).
Lemma incl (a : binary_float p e) : generic_format radix2 (FLT_exp (3 - 16384 - 64) 64) (B2R a).
Proof.
  apply (generic_inclusion_mag radix2 (FLT_exp (3 - e - p) p)).
  - intros _. unfold FLT_exp. lia.
  - exact (generic_format_B2R p e a).
Qed.
Lemma incl_near (a : binary_float p e) : near 64 16384 (B2R a) = B2R a.
Proof. apply round_generic; auto with typeclass_instances. apply incl. Qed.
Lemma ld_le y y' : (y <= y')%R -> (near 64 16384 y <= near 64 16384 y')%R.
Proof. intros H. apply round_le; auto with typeclass_instances. Qed.
Lemma near_le y y' : (y <= y')%R -> (near p e y <= near p e y')%R.
Proof. intros H. apply round_le; auto with typeclass_instances. Qed.
Lemma near_B2R (a : binary_float p e) : near p e (B2R a) = B2R a.
Proof. apply round_generic; auto with typeclass_instances. apply generic_format_B2R. Qed.
Notation dec D E := (IZR D * ten_to E)%R.
Lemma dec_nonneg D E : 0 <= D -> (0 <= dec D E)%R.
Proof. intros H. apply Rmult_le_pos; [now apply IZR_le|]. rewrite ten_to_bpow. apply bpow_ge_0. Qed.
(** Two roundings. *)
Lemma lit_real_cases D E : 0 <= D ->
  (exists v, lit_real p e D E = Value v /\ is_finite v = true /\ Bsign v = false /\ B2R v = near p e (near 64 16384 (dec D E)) /\ ~ too_large p e (near 64 16384 (dec D E))) \/
  (lit_real p e D E = Rejected /\ too_large p e (near 64 16384 (dec D E))).
Proof.
  intros HD. pose proof (dec_nonneg D E HD) as P. pose proof (near_pos 64 16384 _ P) as PL. pose proof (near_pos p e _ PL) as PN.
  unfold lit_real, ldarg. destruct (dec_float_ok 64 16384 false D E HD) as [(x & -> & (F & V & S) & T)|(-> & T)]; cbn [bind at_compile].
  - cbn [signed_by] in V. set (z := near 64 16384 (dec D E)) in *. unfold too_large.
    destruct (convert_ok x F) as [(L & F' & V' & S')|(L & F')]; rewrite F'; rewrite V, Rabs_pos_eq in L by exact PN.
    + left. exists (convert p e x). repeat split; auto; [congruence|congruence|lra].
    + right. split; [reflexivity|exact L].
  - right. split; [reflexivity|]. unfold too_large in *. set (z := near 64 16384 (dec D E)) in *.
    assert (bpow radix2 e <= z)%R as Hz by (apply Rle_trans with (2 := T); now apply bpow_le).
    rewrite <- (round_generic radix2 (FLT_exp (3 - e - p) p) ZnearestE (bpow radix2 e)).
    + now apply near_le.
    + apply generic_format_bpow. unfold FLT_exp. unfold Prec_gt_0, Prec_lt_emax in *. lia.
Qed.
Theorem real_value D E : 0 <= D -> ~ too_large p e (near 64 16384 (dec D E)) ->
  exists v, lit_real p e D E = Value v /\ is_finite v = true /\ B2R v = near p e (near 64 16384 (dec D E)) /\ Bsign v = false.
Proof. intros HD HT. destruct (lit_real_cases D E HD) as [(v & H1 & H2 & H3 & H4 & _)|(_ & T)]; [|contradiction]. exists v. auto. Qed.
Theorem real_rejected D E : 0 <= D -> too_large p e (near 64 16384 (dec D E)) -> lit_real p e D E = Rejected.
Proof. intros HD HT. destruct (lit_real_cases D E HD) as [(v & _ & _ & _ & _ & T)|(T & _)]; [contradiction|exact T]. Qed.
Theorem real_faithful D E v : 0 <= D -> lit_real p e D E = Value v -> faithful p e v (dec D E).
Proof.
  intros HD HV. destruct (lit_real_cases D E HD) as [(v' & H1 & H2 & _ & H4 & _)|(T & _)]; [|congruence].
  rewrite H1 in HV. injection HV as ->. split; [exact H2|]. intros a Fa. rewrite H4.
  assert (B2R a = near p e (near 64 16384 (B2R a))) as -> by (now rewrite incl_near, near_B2R).
  rewrite !incl_near, !near_B2R. split; intros H; rewrite <- (near_B2R a); apply near_le; rewrite <- (incl_near a); now apply ld_le.
Qed.
Theorem real_exact D E a : 0 <= D -> is_finite a = true -> Bsign a = false -> B2R a = dec D E -> lit_real p e D E = Value a.
Proof.
  intros HD Fa Sa Va. assert (near p e (near 64 16384 (dec D E)) = B2R a) as EN by (rewrite <- Va, incl_near; apply near_B2R).
  destruct (lit_real_cases D E HD) as [(v & H1 & H2 & H3 & H4 & _)|(_ & T)].
  - rewrite H1. f_equal. apply B2R_Bsign_inj; congruence.
  - exfalso. unfold too_large in T. rewrite EN in T. pose proof (abs_B2R_lt_emax p e a) as L. pose proof (Rle_abs (B2R a)). lra.
Qed.
End C.
Theorem long_double_nearest D E : 0 <= D -> ~ too_large 64 16384 (IZR D * ten_to E) ->
  exists v, lit_sld D E = Value v /\ nearest_to 64 16384 v false (IZR D * ten_to E).
Proof. intros HD HT. unfold lit_sld, ldarg. destruct (dec_float_ok 64 16384 false D E HD) as [(x & -> & N & _)|(_ & T)]; [|contradiction]. exists x. now split. Qed.
Theorem long_double_rejected D E : 0 <= D -> too_large 64 16384 (IZR D * ten_to E) -> lit_sld D E = Rejected.
Proof. intros HD HT. unfold lit_sld, ldarg. now rewrite dec_float_large. Qed.

(** Quadruple precision. *)
Section Q.
Context (prec emax : Z) {Hp : Prec_gt_0 prec} {He : Prec_lt_emax prec emax}.
Notation strto := (strto prec emax).
Lemma sdigits_run dot ds u : Forall (fun d => 0 <= d < 10) ds -> forall any D k,
  strto (FNum false any D k dot) (map numeral ds ++ u) =
  strto (FNum false (any || nonempty ds) (fold_left (fun v d => 10 * v + d) ds D) (if dot then k + zlen ds else k) dot) u.
Proof.
  intros H. induction H as [|d ds Hd H IH]; intros any D k.
  - cbn [map app nonempty fold_left]. rewrite orb_false_r. destruct dot; [|reflexivity]. change (zlen (@nil Z)) with 0. now rewrite Z.add_0_r.
  - cbn [map app Literals.strto fnext fold_left nonempty]. destruct (digit_numeral d Hd) as [-> _]. rewrite IH. rewrite orb_true_r. cbn [orb].
    destruct dot; [|reflexivity]. rewrite zlen_cons. now replace (k + 1 + zlen ds) with (k + (1 + zlen ds)) by lia.
Qed.
Lemma sxdigits_run D k es ds u : Forall (fun d => 0 <= d < 10) ds -> forall X,
  strto (FX false D k es X) (map numeral ds ++ u) = strto (FX false D k es (fold_left (fun v d => 10 * v + d) ds X)) u.
Proof. intros H. induction H as [|d ds Hd H IH]; intros X; [reflexivity|]. cbn [map app Literals.strto fnext fold_left]. destruct (digit_numeral d Hd) as [-> _]. apply IH. Qed.
Lemma sxdigits_scan D k es s n u : digits s n -> strto (FES false D k es) (s ++ u) = strto (FX false D k es n) u /\ strto (FE false D k) (s ++ u) = strto (FX false D k false n) u.
Proof.
  intros (ds & Hne & Hd & -> & ->). destruct ds as [|d ds]; [congruence|]. inversion Hd; subst. unfold number. cbn [map app fold_left Literals.strto fnext].
  destruct (digit_numeral d) as [-> _]; [assumption|]. replace (10 * 0 + d) with d by lia. split; now apply sxdigits_run.
Qed.
Lemma smantissa_run s D k : mantissa s D k -> 0 <= D /\ exists dot, forall u, strto (FNum false false 0 0 false) (s ++ u) = strto (FNum false true D k dot) u.
Proof.
  intros [ds Hne Hd|ds fs Hne Hd].
  - split; [now apply number_nonneg|]. exists false. intros u. rewrite sdigits_run by exact Hd. destruct ds; [congruence|]. reflexivity.
  - split; [now apply number_nonneg|]. pose proof (proj1 (Forall_app _ _ _) Hd) as [Hd1 Hd2]. exists true. intros u. rewrite <- app_assoc. rewrite sdigits_run by exact Hd1. cbn [app Literals.strto fnext].
    change (digit_of ".") with (@None Z). cbn [Ascii.eqb Bool.eqb andb negb]. rewrite sdigits_run by exact Hd2. unfold number. rewrite fold_left_app. cbn [orb].
    replace (nonempty ds || nonempty fs) with true; [reflexivity|]. destruct ds, fs; cbn in *; congruence.
Qed.
Definition value_of D E : binary_float prec emax := match dec_float prec emax false D E with Some v => v | None => B754_infinity false end.
(** The whole literal is consumed. *)
Lemma literal_scan s D E : literal_text s D E -> 0 <= D /\ exists st, strto_end prec emax st = value_of D E /\ (forall a, digit_of a = None -> is_e a = false -> Ascii.eqb a "." = false -> fnext st a = None) /\
  forall u, strto (FNum false false 0 0 false) (s ++ u) = strto st u.
Proof.
  intros (m & w & k & X & -> & Hm & Hw & ->). destruct (smantissa_run m D k Hm) as (PD & dot & R). split; [exact PD|].
  assert (CL : forall es Y a, digit_of a = None -> fnext (FX false D k es Y) a = None) by (intros es Y a H; cbn; now rewrite H).
  destruct Hw as [|a w X Ha Hx].
  - exists (FNum false true D k dot). split; [reflexivity|]. split; [intros a H1 H2 H3; cbn; rewrite H1, H2, H3; reflexivity|]. intros u. now rewrite app_nil_r.
  - assert (S2 : forall u, strto (FNum false false 0 0 false) ((m ++ a :: w) ++ u) = strto (FE false D k) (w ++ u)).
    { intros u. rewrite <- app_assoc, R. destruct Ha as [<-|[<-|[]]]; reflexivity. }
    destruct Hx as [Hx|[(v & -> & Hx)|(v & -> & Hx)]].
    + exists (FX false D k false X). split; [reflexivity|]. split; [auto|]. intros u. rewrite S2. now apply sxdigits_scan.
    + exists (FX false D k false X). split; [reflexivity|]. split; [auto|]. intros u. rewrite S2. cbn [app].
      change (strto (FE false D k) ("+"%char :: v ++ u)) with (strto (FES false D k false) (v ++ u)). now apply sxdigits_scan.
    + exists (FX false D k true (- X)). split; [unfold strto_end; cbn; now rewrite Z.opp_involutive|]. split; [auto|]. intros u. rewrite S2. cbn [app].
      change (strto (FE false D k) ("-"%char :: v ++ u)) with (strto (FES false D k true) (v ++ u)). now apply sxdigits_scan.
Qed.
Definition tick (u : text) : Prop := match u with [] => True | a :: _ => a = "'"%char end.
Lemma literal_strto s D E u : literal_text s D E -> tick u -> 0 <= D /\ strto (FNum false false 0 0 false) (s ++ u) = value_of D E.
Proof.
  intros H Hu. destruct (literal_scan s D E H) as (PD & st & <- & HN & R). split; [exact PD|]. rewrite R. destruct u as [|a u]; [reflexivity|]. cbn in Hu. subst a.
  cbn. rewrite HN; reflexivity.
Qed.
Lemma digit_of_char a d : digit_of a = Some d -> 0 <= d < 10 /\ a = numeral d.
Proof. all_ascii a; vm_compute; intros H; try discriminate; injection H as <-; repeat split; try reflexivity; discriminate. Qed.
Lemma octal_leading s : octal s = true -> leading_zero s \/ exists r b, s = "0"%char :: b :: r /\ (b = "b"%char \/ b = "B"%char).
Proof.
  destruct s as [|a [|b r]]; try discriminate. unfold octal. intros H. apply andb_true_iff in H as [H1 H2]. apply Ascii.eqb_eq in H1. subst a.
  apply orb_true_iff in H2 as [H2|H2].
  - right. exists r, b. split; [reflexivity|]. apply orb_true_iff in H2 as [H2|H2]; apply Ascii.eqb_eq in H2; auto.
  - left. destruct (digit_of b) as [d|] eqn:Eb; [|discriminate]. destruct (digit_of_char b d Eb) as [Hd ->]. exists d, r. split; [lia|reflexivity].
Qed.
Lemma leading_octal s : leading_zero s -> octal s = true.
Proof. intros (d & r & Hd & ->). unfold octal. destruct (digit_numeral d) as [-> _]; [lia|]. replace (d <=? 7) with true by lia. cbn. now rewrite !orb_true_r. Qed.
Lemma literal_octal s D E : literal_text s D E -> ~ leading_zero s -> octal s = false.
Proof.
  intros H HZ. destruct (octal s) eqn:HO; [|reflexivity]. exfalso. destruct (octal_leading s HO) as [HL|(r & b & -> & Hb)]; [contradiction|].
  destruct (literal_scan _ D E H) as (_ & st & _ & _ & _). destruct H as (u & w & k & X & Hs & Hm & Hw & _).
  assert (NB : forall d, 0 <= d < 10 -> b <> numeral d).
  { intros d Hd ->. destruct (digit_numeral d Hd) as [E1 _]. destruct Hb as [Hb|Hb]; rewrite Hb in E1; discriminate. }
  assert (HB : b <> "."%char /\ b <> "e"%char /\ b <> "E"%char) by (destruct Hb as [-> | ->]; repeat split; discriminate).
  assert (HW : forall y, w = b :: y -> False).
  { intros y ->. destruct HB as (_ & HB1 & HB2). inversion Hw; subst. match goal with H : In _ _ |- _ => destruct H as [H|[H|[]]]; congruence end. }
  assert (H0 : forall y, w = "0"%char :: y -> False).
  { intros y ->. inversion Hw; subst. match goal with H : In _ _ |- _ => destruct H as [H|[H|[]]]; discriminate end. }
  inversion Hm as [ds Hne Hd E1|ds fs Hne Hd E1]; subst u.
  - destruct ds as [|d1 [|d2 ds]]; [congruence| |].
    + cbn in Hs. injection Hs as _ Hs. eauto.
    + cbn in Hs. injection Hs as _ Hs _. inversion Hd as [|? ? _ Hd']; subst. inversion Hd'; subst. eapply NB; eauto.
  - destruct ds as [|d1 [|d2 ds]].
    + cbn in Hs. discriminate.
    + cbn in Hs. injection Hs as _ Hs _. destruct HB; congruence.
    + cbn in Hs. injection Hs as _ Hs _. inversion Hd as [|? ? _ Hd']; subst. inversion Hd'; subst. eapply NB; eauto.
Qed.
Theorem quad_nearest c s D E : literal_text s D E -> ~ leading_zero s -> ~ too_large prec emax (IZR D * ten_to E) ->
  exists x, lit_sq prec emax c s = Ok x /\ nearest_to prec emax x false (IZR D * ten_to E).
Proof.
  intros H HZ HT. destruct (literal_strto s D E [] H I) as (PD & R). rewrite app_nil_r in R. unfold lit_sq.
  rewrite (literal_octal s D E H HZ). cbn. rewrite R. unfold value_of. destruct (dec_float_ok prec emax false D E PD) as [(x & -> & N & _)|(_ & T)]; [|contradiction]. exists x. now split.
Qed.
Theorem quad_large c s D E : literal_text s D E -> ~ leading_zero s -> too_large prec emax (IZR D * ten_to E) ->
  lit_sq prec emax c s = Ok (B754_infinity false).
Proof.
  intros H HZ HT. destruct (literal_strto s D E [] H I) as (PD & R). rewrite app_nil_r in R. unfold lit_sq.
  rewrite (literal_octal s D E H HZ). cbn. rewrite R. unfold value_of. now rewrite dec_float_large.
Qed.
Theorem quad_octal c s : loud c = true -> leading_zero s -> lit_sq prec emax c s = Fail (report c).
Proof. intros HC HZ. unfold lit_sq. rewrite leading_octal by exact HZ. revert HC. unfold loud, check_always, report. cbn. destruct (exc c), (ndbg c); cbn; congruence. Qed.
Theorem quad_separator c s D E r : literal_text s D E -> lit_sq prec emax c (s ++ "'"%char :: r) = lit_sq prec emax c s.
Proof.
  intros H. unfold lit_sq. destruct (literal_strto s D E ("'"%char :: r) H eq_refl) as (_ & ->). destruct (literal_strto s D E [] H I) as (_ & R). rewrite app_nil_r in R. rewrite R.
  assert (octal (s ++ "'"%char :: r) = octal s) as ->; [|reflexivity].
  destruct s as [|a [|b s]]; [exfalso|cbn; apply andb_false_r|reflexivity].
  destruct H as (u & w & k & X & Hs & Hm & _). destruct u; [|discriminate]. inversion Hm as [ds Hne Hd E1|ds fs Hne Hd E1]; [destruct ds; [congruence|discriminate]|destruct ds; discriminate].
Qed.
End Q.

(** Statements for each literal. *)
From Verif Require Import Proofs.RandomProofs.
Theorem integers c n : 0 <= n ->
  (n < 2 ^ 31 -> lit_si c n = Value n) /\ (n < 2 ^ 63 -> lit_sl c n = Value n) /\
  (n < 2 ^ 32 -> lit_sui n = Value n) /\ (n < 2 ^ 64 -> lit_sul n = Value n).
Proof. intros H. repeat split; intros H'; [apply signed_exact|apply signed_exact|apply unsigned_exact|apply unsigned_exact]; cbn in *; lia. Qed.
Theorem signed_large c n : checked c = true -> (2 ^ 31 <= n -> lit_si c n = Rejected) /\ (2 ^ 63 <= n -> lit_sl c n = Rejected).
Proof. intros HC. split; intros H; apply signed_rejected; auto; cbn in *; lia. Qed.
Theorem beyond c n : 2 ^ 64 <= n -> lit_si c n = Rejected /\ lit_sl c n = Rejected /\ lit_sui n = Rejected /\ lit_sul n = Rejected.
Proof. intros H. assert (tmax U64 < n) as H' by (cbn in *; lia). repeat split; apply too_long; assumption || exact c || exact (mkcfg true true true 0). Qed.
Theorem signed_unchecked c n : checked c = false -> 0 <= n < 2 ^ 64 ->
  (exists v k, lit_si c n = Value v /\ fits true 32 v /\ v = n + k * 2 ^ 32) /\ (exists v k, lit_sl c n = Value v /\ fits true 64 v /\ v = n + k * 2 ^ 64).
Proof.
  intros HC H. assert (0 <= n <= tmax U64) as H' by (cbn in *; lia).
  split; [destruct (signed_wraps c I32 n HC H') as (v & H1 & H2 & k & H3)|destruct (signed_wraps c I64 n HC H') as (v & H1 & H2 & k & H3)]; exists v, k; auto.
Qed.
Theorem sui_mod n : 0 <= n < 2 ^ 64 -> lit_sui n = Value (n mod 2 ^ 32).
Proof.
  intros H. unfold lit_sui, lit_unsigned, ull. assert (n <=? tmax U64 = true) as -> by (cbn in *; lia). cbn [bind at_compile]. f_equal. unfold icast, wrap. cbn [tmod tmax].
  change (2 ^ 32) with 4294967296. pose proof (Z.mod_pos_bound n 4294967296 ltac:(lia)). destruct (Z.leb_spec (n mod 4294967296) 4294967295); lia.
Qed.
Theorem reals_value D E : 0 <= D ->
  (~ too_large 24 128 (near 64 16384 (IZR D * ten_to E)) ->
     exists v, lit_sf D E = Value v /\ is_finite v = true /\ B2R v = near 24 128 (near 64 16384 (IZR D * ten_to E)) /\ Bsign v = false) /\
  (~ too_large 53 1024 (near 64 16384 (IZR D * ten_to E)) ->
     exists v, lit_sd D E = Value v /\ is_finite v = true /\ B2R v = near 53 1024 (near 64 16384 (IZR D * ten_to E)) /\ Bsign v = false).
Proof. intros HD. split; intros HT; apply real_value; auto; lia. Qed.
Theorem reals_rejected D E : 0 <= D ->
  (too_large 24 128 (near 64 16384 (IZR D * ten_to E)) -> lit_sf D E = Rejected) /\
  (too_large 53 1024 (near 64 16384 (IZR D * ten_to E)) -> lit_sd D E = Rejected).
Proof. intros HD. split; intros HT; apply real_rejected; auto; lia. Qed.
Theorem reals_faithful D E : 0 <= D ->
  (forall v, lit_sf D E = Value v -> faithful 24 128 v (IZR D * ten_to E)) /\ (forall v, lit_sd D E = Value v -> faithful 53 1024 v (IZR D * ten_to E)).
Proof. intros HD. split; intros v HV; [apply (@real_faithful 24 128 _ _)|apply (@real_faithful 53 1024 eq_refl eq_refl)]; auto; lia. Qed.
Theorem reals_exact D E : 0 <= D ->
  (forall a, is_finite a = true -> Bsign a = false -> B2R a = (IZR D * ten_to E)%R -> lit_sf D E = Value a) /\
  (forall a, is_finite a = true -> Bsign a = false -> B2R a = (IZR D * ten_to E)%R -> lit_sd D E = Value a).
Proof. intros HD. split; intros a H1 H2 H3; apply real_exact; auto; lia. Qed.
(** 1 + 2^-53 + 2^-70 as a decimal. *)
Definition tie_digits : Z := (2 ^ 70 + 2 ^ 17 + 1) * 5 ^ 70.
Definition sf_opt {p e} (x : option (binary_float p e)) : SpecFloat.spec_float := match x with Some v => B2SF v | None => SpecFloat.S754_nan end.
Definition sf_lit {p e} (x : compiled (binary_float p e)) : SpecFloat.spec_float := match x with Value v => B2SF v | Rejected => SpecFloat.S754_nan end.
Lemma double_rounding_at D E mx ex mv ev : 0 <= D -> sf_opt (dec_float 53 1024 false D E) = SpecFloat.S754_finite false mx ex ->
  sf_lit (lit_sd D E) = SpecFloat.S754_finite false mv ev -> (IZR (Zpos mv) * bpow radix2 ev < IZR (Zpos mx) * bpow radix2 ex)%R ->
  exists v x, lit_sd D E = Value v /\ nearest_to 53 1024 x false (IZR D * ten_to E) /\ (B2R v < B2R x)%R.
Proof.
  intros HD Tx Tv HL. destruct (dec_float_ok 53 1024 false D E HD) as [(x & Hx & N & _)|(Hx & _)]; rewrite Hx in Tx; [|discriminate].
  destruct (lit_sd D E) as [v|] eqn:Hv; [|discriminate]. cbn [sf_opt sf_lit] in Tx, Tv. exists v, x. split; [reflexivity|]. split; [exact N|].
  rewrite <- !SF2R_B2SF, Tv, Tx. exact HL.
Qed.
Theorem double_rounding : exists D E v x, 0 <= D /\ lit_sd D E = Value v /\ nearest_to 53 1024 x false (IZR D * ten_to E) /\ (B2R v < B2R x)%R.
Proof.
  exists tie_digits, (-70). destruct (double_rounding_at tie_digits (-70) 4503599627370497 (-52) 4503599627370496 (-52)) as (v & x & H).
  - vm_compute. discriminate.
  - vm_compute. reflexivity.
  - vm_compute. reflexivity.
  - apply Rmult_lt_compat_r; [apply bpow_gt_0|now apply IZR_lt].
  - exists v, x. split; [vm_compute; discriminate|exact H].
Qed.
Theorem quad_decimal_refuted c : loud c = true -> exists s D E, literal_text s D E /\ ~ too_large 113 16384 (IZR D * ten_to E) /\ lit_sq 113 16384 c s = Fail (report c).
Proof.
  intros HC. exists ["0"; "1"; "."; "5"]%char, 15, (-1). split; [|split].
  - exists ["0"; "1"; "."; "5"]%char, [], 1, 0. split; [reflexivity|]. split; [|split; [constructor|reflexivity]]. apply (man_frac [0; 1] [5]); [discriminate|]. repeat constructor; lia.
  - destruct (dec_float_ok 113 16384 false 15 (-1) ltac:(lia)) as [(x & _ & _ & T)|(Hx & _)]; [exact T|]. exfalso. assert (sf_opt (dec_float 113 16384 false 15 (-1)) <> SpecFloat.S754_nan) as HN by (vm_compute; discriminate). rewrite Hx in HN. now apply HN.
  - apply quad_octal; [exact HC|]. exists 1, ["."; "5"]%char. split; [lia|reflexivity].
Qed.
