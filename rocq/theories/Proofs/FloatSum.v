(** stable_sum and stable_dot_prod in IEEE arithmetic. *)
From Coq Require Import ZArith Reals Lra Lia.
From Flocq Require Import Core BinarySingleNaN Plus_error Mult_error Sterbenz Pff2Flocq.
From Verif Require Import Base.Outcome Base.ZList Model.Index Model.Expr Model.Reduce Model.StableOps Model.FloatModel.
From Verif Require Import Spec.ExprSpec Spec.ReduceSpec Spec.NormSpec Spec.FloatSpec.
From Verif Require Import Proofs.ReduceProofs Proofs.StableLoops Proofs.FloatProofs.
Local Open Scope R_scope.

Section FS.
Context (prec emax : Z) {Hp : Prec_gt_0 prec} {He : Prec_lt_emax prec emax}.
Hypothesis P2 : (1 < prec)%Z.
Notation flt := (binary_float prec emax).
Notation fexp := (SpecFloat.fexp prec emax).
Notation emin := (3 - emax - prec)%Z.
Notation format := (generic_format radix2 fexp).
Notation rnd := (round radix2 fexp ZnearestE).
Notation F := (fnum prec emax).
Notation ulpm := (bpow radix2 (emax - prec)).
Notation top := (bpow radix2 emax).
Notation fadd := (fadd prec emax).
Notation fmul := (fmul prec emax).
Notation fzero := (fzero prec emax).
Notation fsum := (fsum prec emax).
Notation u := (uro prec).
Existing Instance fexp_valid.
Existing Instance fexp_mono.

Lemma finite_top (x : flt) : Rabs (B2R x) < top.
Proof. apply abs_B2R_lt_emax. Qed.

(** ** Comparison of magnitudes *)
Lemma nabs_fin (x : flt) : is_finite x = true -> is_finite (nabs F x) = true /\ B2R (nabs F x) = Rabs (B2R x).
Proof.
  intros H. unfold nabs, ngt. change (nlt F (nzero F) x) with (Bltb (B754_zero false : flt) x). rewrite Bltb_correct by (reflexivity || assumption).
  change (B2R (B754_zero false : flt)) with 0. case Rlt_bool_spec; intros L.
  - split; [assumption|]. now rewrite Rabs_pos_eq by lra.
  - change (nneg F x) with (Bopp x). rewrite is_finite_Bopp, B2R_Bopp. split; [assumption|]. now rewrite Rabs_left1 by lra.
Qed.
Lemma nge_abs (x y : flt) : is_finite x = true -> is_finite y = true ->
  nge F (nabs F x) (nabs F y) = Rle_bool (Rabs (B2R y)) (Rabs (B2R x)).
Proof.
  intros Hx Hy. destruct (nabs_fin x Hx) as [X1 X2]. destruct (nabs_fin y Hy) as [Y1 Y2]. unfold nge.
  change (nle F (nabs F y) (nabs F x)) with (Bleb (nabs F y) (nabs F x)). rewrite Bleb_correct by assumption. now rewrite X2, Y2.
Qed.

(** ** One step of stable_sum *)
Lemma fast_core (a b t : flt) : is_finite a = true -> is_finite b = true -> is_finite t = true -> Rabs (B2R b) <= Rabs (B2R a) ->
  B2R t = rnd (B2R a + B2R b) ->
  is_finite (nadd F (nsub F a t) b) = true /\ B2R t + B2R (nadd F (nsub F a t) b) = B2R a + B2R b.
Proof.
  intros Ha Hb Ht L Et.
  assert (FZ : format (B2R a - B2R t)).
  { replace (B2R a - B2R t) with (- (B2R t - B2R a)) by ring. apply generic_format_opp. rewrite Et. apply dekker; try assumption; apply generic_format_B2R. }
  assert (RZ : rnd (B2R a - B2R t) = B2R a - B2R t) by (apply round_generic; [typeclasses eauto|exact FZ]).
  assert (BZ : Rabs (B2R a - B2R t) < top).
  { pose proof (finite_top a) as TA. pose proof (finite_top t) as TT. destruct (Rle_or_lt 0 (B2R a)) as [S|S].
    - assert (0 <= B2R t). { rewrite Et. rewrite <- (round_0 radix2 fexp ZnearestE). apply round_le; [typeclasses eauto|typeclasses eauto|]. rewrite (Rabs_pos_eq (B2R a)) in L by assumption. apply Rabs_le_inv in L. lra. }
      rewrite Rabs_pos_eq in TA, TT by assumption. apply Rabs_def1; lra.
    - assert (B2R t <= 0). { rewrite Et. rewrite <- (round_0 radix2 fexp ZnearestE). apply round_le; [typeclasses eauto|typeclasses eauto|]. rewrite (Rabs_left (B2R a)) in L by assumption. apply Rabs_le_inv in L. lra. }
      rewrite Rabs_left in TA by assumption. rewrite Rabs_left1 in TT by assumption. apply Rabs_def1; lra. }
  destruct (minus_fin prec emax a t Ha Ht) as [Z1 Z2]; [rewrite RZ; exact BZ|]. rewrite RZ in Z1.
  assert (FE : format (B2R a - B2R t + B2R b)).
  { replace (B2R a - B2R t + B2R b) with (- (B2R t - (B2R a + B2R b))) by ring. apply generic_format_opp. rewrite Et. apply plus_error; [typeclasses eauto|typeclasses eauto|apply generic_format_B2R|apply generic_format_B2R]. }
  assert (RE : rnd (B2R a - B2R t + B2R b) = B2R a - B2R t + B2R b) by (apply round_generic; [typeclasses eauto|exact FE]).
  assert (BE : Rabs (B2R a - B2R t + B2R b) < top).
  { replace (B2R a - B2R t + B2R b) with (- (B2R t - (B2R a + B2R b))) by ring. rewrite Rabs_Ropp, Et. 
    apply Rle_lt_trans with (ulpm / 2).
    - apply err_small; try assumption. apply (rnd_below_inv prec); try assumption. rewrite <- Et. apply finite_top.
    - assert (0 < ulpm) by apply bpow_gt_0. apply Rlt_le_trans with ulpm; [lra|]. apply bpow_le. unfold Prec_gt_0 in *. lia. }
  destruct (plus_fin prec emax (nsub F a t) b Z2 Hb) as [E1 E2]; [rewrite Z1, RE; exact BE|]. rewrite Z1, RE in E1.
  split; [exact E2|]. rewrite E1. ring.
Qed.
Lemma sum_step_ok (s co x : flt) : is_finite (fadd s x) = true ->
  exists e, sum_step F (s, co) x = (fadd s x, fadd co e) /\ is_finite e = true /\ B2R (fadd s x) + B2R e = B2R s + B2R x.
Proof.
  intros Ht. change (fadd s x) with (nadd F s x) in *. destruct (plus_args prec emax s x Ht) as [Hs Hx].
  destruct (plus_inv prec emax s x Hs Hx Ht) as [Et _]. unfold sum_step. rewrite nge_abs by assumption. case Rle_bool_spec; intros L.
  - destruct (fast_core s x (nadd F s x) Hs Hx Ht L Et) as [E1 E2]. exists (nadd F (nsub F s (nadd F s x)) x). repeat split; assumption.
  - destruct (fast_core x s (nadd F s x) Hx Hs Ht) as [E1 E2]; [lra|rewrite Et; f_equal; ring|]. exists (nadd F (nsub F x (nadd F s x)) s). repeat split; try assumption. rewrite E2. ring.
Qed.

(** ** Decomposition of stable_sum *)
Lemma sums_finite_cons s x l : sums_finite prec emax s (x :: l) <-> is_finite s = true /\ sums_finite prec emax (fadd s x) l.
Proof.
  split.
  - intros H. split; [apply (H O)|]. intros k. apply (H (S k)).
  - intros [H1 H2] [|k]; [exact H1|]. apply (H2 k).
Qed.
Lemma sums_finite_nil s : sums_finite prec emax s [] <-> is_finite s = true.
Proof. split; [intros H; apply (H O)|intros H [|k]; exact H]. Qed.
Lemma sums_finite_head s l : sums_finite prec emax s l -> is_finite s = true.
Proof. intros H. apply (H O). Qed.
Lemma fold_steps l : forall s co, sums_finite prec emax s l ->
  exists es, fold_left (sum_step F) l (s, co) = (fsum s l, fsum co es) /\ add_errors prec emax s l es.
Proof.
  induction l as [|x l IH]; intros s co H.
  - exists []. split; reflexivity.
  - apply sums_finite_cons in H. destruct H as [H1 H2]. destruct (sum_step_ok s co x (sums_finite_head _ _ H2)) as (e & E1 & E2 & E3).
    cbn [fold_left]. rewrite E1. destruct (IH (fadd s x) (fadd co e) H2) as (es & E4 & E5). exists (e :: es). split; [exact E4|]. cbn [add_errors]. repeat split; assumption.
Qed.
Lemma add_errors_sum s l es : add_errors prec emax s l es -> B2R (fsum s l) + rsum (reals prec emax es) = B2R s + rsum (reals prec emax l).
Proof.
  revert s es. induction l as [|x l IH]; intros s [|e es] H; cbn [add_errors] in H; try contradiction.
  - cbn. reflexivity.
  - destruct H as (H1 & H2 & H3). specialize (IH _ _ H3). change (fsum s (x :: l)) with (fsum (fadd s x) l).
    unfold rsum, total, reals in *. cbn [map fold_right]. lra.
Qed.
Theorem stable_sum_float A l d : yields A (map Ok l) -> l <> [] -> sums_finite prec emax fzero l ->
  exists es, stable_sum F A d = Ok (fadd (fsum fzero l) (fsum fzero es)) /\ add_errors prec emax fzero l es /\
    B2R (fsum fzero l) + rsum (reals prec emax es) = rsum (reals prec emax l).
Proof.
  intros HA HN HF. destruct (fold_steps l fzero fzero HF) as (es & E1 & E2). exists es.
  rewrite (stable_sum_loop F A l d HA HN). change (nzero F) with fzero. rewrite E1. split; [reflexivity|]. split; [exact E2|].
  rewrite (add_errors_sum _ _ _ E2). cbn [B2R FloatSpec.fzero]. ring.
Qed.

(** ** Special values *)
Definition bad (sc : flt * flt) : Prop :=
  is_nan (fst sc) = true \/ is_nan (snd sc) = true \/ exists b, sc = (B754_infinity b, B754_infinity (negb b)).
Lemma bad_fin sc : bad sc -> is_nan (fin F sc) = true.
Proof.
  unfold fin. intros [H|[H|[b ->]]]; [now apply plus_nan_l|now apply plus_nan_r|]. destruct b; reflexivity.
Qed.
Lemma bad_step sc x : bad sc -> bad (sum_step F sc x).
Proof.
  destruct sc as [s co]. intros [H|[H|[b [= -> ->]]]]; cbn [fst snd] in *.
  - left. unfold sum_step. destruct (nge F (nabs F s) (nabs F x)); cbn [fst]; now apply plus_nan_l.
  - right. left. unfold sum_step. destruct (nge F (nabs F s) (nabs F x)); cbn [snd]; now apply plus_nan_l.
  - destruct x as [a|a| |a m e h]; unfold bad, sum_step; destruct b; try destruct a; cbn; auto.
Qed.
Lemma bad_fold l : forall sc, bad sc -> bad (fold_left (sum_step F) l sc).
Proof. induction l as [|x l IH]; intros sc H; [exact H|]. cbn [fold_left]. apply IH. now apply bad_step. Qed.
Lemma overflow_sign (s x : flt) : is_finite s = true -> is_finite x = true -> is_finite (nadd F s x) = false -> exists b, nadd F s x = B754_infinity b.
Proof.
  intros Hs Hx H. generalize (Bplus_correct prec emax Hp He mode_NE s x Hs Hx). cbn [round_mode]. case Rlt_bool_spec; intros L.
  - intros (A & B & _). exfalso. assert (T : is_finite (nadd F s x) = true) by exact B. rewrite H in T. discriminate.
  - intros (A & _). change (Bplus mode_NE s x) with (nadd F s x) in A. destruct (nadd F s x) as [b|b| |b m e h]; try discriminate. now exists b.
Qed.
Lemma bad_enter s co x : is_finite s = true -> is_finite (fadd s x) = false -> bad (sum_step F (s, co) x).
Proof.
  intros Hs Ht. change (fadd s x) with (nadd F s x) in Ht. destruct (is_finite x) eqn:Hx.
  - destruct (overflow_sign s x Hs Hx Ht) as [b Eb]. unfold sum_step. rewrite Eb.
    assert (Z1 : nsub F s (B754_infinity b) = B754_infinity (negb b)) by (destruct s; try discriminate; destruct b; reflexivity).
    assert (Z2 : nsub F x (B754_infinity b) = B754_infinity (negb b)) by (destruct x; try discriminate; destruct b; reflexivity).
    assert (W1 : nadd F (B754_infinity (negb b)) x = B754_infinity (negb b)) by (destruct x; try discriminate; destruct b; reflexivity).
    assert (W2 : nadd F (B754_infinity (negb b)) s = B754_infinity (negb b)) by (destruct s; try discriminate; destruct b; reflexivity).
    rewrite Z1, Z2, W1, W2. assert (G : bad (B754_infinity b, nadd F co (B754_infinity (negb b)))).
    { unfold bad. cbn [fst snd]. destruct co as [a|a| |a m e h].
      - right. right. exists b. reflexivity.
      - destruct (Bool.bool_dec a (negb b)) as [->|Hab]; [right; right; exists b; destruct b; reflexivity|right; left]. destruct a, b; try reflexivity; contradiction Hab; reflexivity.
      - right. left. reflexivity.
      - right. right. exists b. reflexivity. }
    destruct (nge F (nabs F s) (nabs F x)); exact G.
  - destruct x as [a|a| |a m e h]; try discriminate; destruct s as [a'|a'| |a' m' e' h']; try discriminate; unfold bad, sum_step; cbn; try (now left); try (right; left).
    + destruct a; destruct co; reflexivity.
    + destruct a, a'; destruct co; reflexivity.
Qed.
Lemma bad_sums l : forall s co k, is_finite s = true -> is_finite (fsum s (firstn k l)) = false -> bad (fold_left (sum_step F) l (s, co)).
Proof.
  induction l as [|x l IH]; intros s co k Hs H.
  - rewrite firstn_nil in H. cbn in H. congruence.
  - destruct k as [|k]; [cbn in H; congruence|]. change (fsum s (firstn (S k) (x :: l))) with (fsum (fadd s x) (firstn k l)) in H. cbn [fold_left].
    destruct (is_finite (fadd s x)) eqn:E.
    + destruct (sum_step_ok s co x E) as (e & E1 & _). rewrite E1. apply (IH _ _ k E H).
    + apply bad_fold. now apply bad_enter.
Qed.
Theorem stable_sum_nan A l d k : yields A (map Ok l) -> is_finite (fsum fzero (firstn k l)) = false ->
  exists v, stable_sum F A d = Ok v /\ is_nan v = true.
Proof.
  intros HA H. destruct l as [|x l]; [rewrite firstn_nil in H; discriminate|].
  eexists. rewrite (stable_sum_loop F A (x :: l) d HA) by discriminate. split; [reflexivity|]. apply bad_fin. apply (bad_sums _ _ _ k); [reflexivity|exact H].
Qed.
Lemma fsum_nonfinite l : forall s, is_finite s = false -> is_finite (fsum s l) = false.
Proof.
  induction l as [|x l IH]; intros s H; [exact H|]. change (fsum s (x :: l)) with (fsum (fadd s x) l). apply IH.
  destruct (is_finite (fadd s x)) eqn:E; [|reflexivity]. apply (plus_args prec emax s x) in E. destruct E. congruence.
Qed.
Theorem stable_sum_special A l x d : yields A (map Ok l) -> In x l -> is_finite x = false -> exists v, stable_sum F A d = Ok v /\ is_nan v = true.
Proof.
  intros HA HI Hx. apply (stable_sum_nan A l d (length l) HA). rewrite firstn_all. apply in_split in HI. destruct HI as (l1 & l2 & ->).
  unfold FloatSpec.fsum. rewrite fold_left_app. cbn [fold_left]. apply fsum_nonfinite. destruct (is_finite (fadd _ x)) eqn:E; [|reflexivity].
  apply (plus_args prec emax _ x) in E. destruct E. congruence.
Qed.
(** The plain sum of the same array. *)
Lemma fsum_inf l b : Forall (fun y => is_finite y = true) l -> fsum (B754_infinity b) l = B754_infinity b.
Proof.
  induction 1 as [|y l Hy HF IH]; [reflexivity|]. change (fsum (B754_infinity b) (y :: l)) with (fsum (fadd (B754_infinity b) y) l).
  replace (fadd (B754_infinity b) y) with (B754_infinity b : flt); [exact IH|]. destruct y; try discriminate; reflexivity.
Qed.
Theorem plain_sum_inf A y l1 l2 b d : yields A (map Ok (y :: l1 ++ B754_infinity b :: l2)) -> sums_finite prec emax y l1 ->
  Forall (fun y => is_finite y = true) l2 ->
  r_sum (fun x y => Ok (nadd F x y)) A d = Ok (B754_infinity b).
Proof.
  intros HA HS HF. unfold r_sum. rewrite (fold_ok _ A _ d HA). cbn [map bind]. rewrite foldo_pure. f_equal. rewrite fold_left_app. cbn [fold_left].
  assert (HL : is_finite (fold_left (nadd F) l1 y) = true). { specialize (HS (length l1)). rewrite firstn_all in HS. exact HS. }
  replace (nadd F (fold_left (nadd F) l1 y) (B754_infinity b)) with (B754_infinity b : flt); [apply (fsum_inf l2 b HF)|].
  destruct (fold_left (nadd F) l1 y); try discriminate; reflexivity.
Qed.
(** A finite result means that every running sum was finite. *)
Theorem stable_sum_finite A l d v : yields A (map Ok l) -> l <> [] -> stable_sum F A d = Ok v -> is_finite v = true -> sums_finite prec emax fzero l.
Proof.
  intros HA HN HV HF k. destruct (is_finite (fsum fzero (firstn k l))) eqn:E; [reflexivity|].
  destruct (stable_sum_nan A l d k HA E) as (w & E1 & E2). rewrite HV in E1. injection E1 as <-. apply nan_nonfinite in E2. congruence.
Qed.

(** ** Decomposition of stable_dot_prod *)
Lemma dot_fold l k : forall p s, zlen l = zlen k -> no_underflows prec emax l k -> is_finite p = true ->
  is_finite (snd (fold_left (dot_step F) (combine l k) (p, s))) = true ->
  exists qs rs, add_errors prec emax p (products fmul l k) qs /\ mul_errors prec emax l k rs /\
    fold_left (dot_step F) (combine l k) (p, s) = (fsum p (products fmul l k), fsum s (products fadd qs rs)).
Proof.
  revert k. induction l as [|a l IH]; intros [|b k] p s HL HU HP HF.
  - exists [], []. repeat split.
  - rewrite zlen_cons, zlen_nil in HL. pose proof (zlen_nonneg k). lia.
  - rewrite zlen_cons, zlen_nil in HL. pose proof (zlen_nonneg l). lia.
  - rewrite !zlen_cons in HL. cbn [combine fold_left] in HF. destruct HU as [HU1 HU2].
    set (st := dot_step F (p, s) (a, b)) in *.
    assert (ES : st = (fst (two_sums F p (nmul F a b)), nadd F s (nadd F (snd (two_sums F p (nmul F a b))) (snd (two_prods F a b))))) by reflexivity.
    assert (HS : is_finite (snd st) = true).
    { destruct (is_finite (snd st)) eqn:E; [reflexivity|]. exfalso.
      assert (G : forall m (q : flt * flt), is_finite (snd q) = false -> is_finite (snd (fold_left (dot_step F) m q)) = false).
      { clear. induction m as [|[x y] m IHm]; intros q Hq; [exact Hq|]. cbn [fold_left]. apply IHm. unfold dot_step. destruct (two_prods F _ _) as [h r]. destruct (two_sums F _ _) as [p' q']. cbn [snd].
        destruct (is_finite (nadd F (snd q) (nadd F q' r))) eqn:E; [|reflexivity]. apply plus_args in E. destruct E. congruence. }
      rewrite (G _ _ E) in HF. discriminate. }
    rewrite ES in HS. cbn [snd] in HS. apply plus_args in HS. destruct HS as [_ HS]. apply plus_args in HS. destruct HS as [HS1 HS2].
    destruct (two_sums_fin prec emax P2 p (nmul F a b) HS1) as (T1 & T2 & T3). destruct (two_prods_fin prec emax P2 a b HS2 HU1) as (T4 & T5).
    rewrite T1 in ES. rewrite ES in HF. destruct (IH k _ _ ltac:(lia) HU2 T2 HF) as (qs & rs & A1 & A2 & A3).
    exists (snd (two_sums F p (nmul F a b)) :: qs), (snd (two_prods F a b) :: rs). split; [|split].
    + cbn [products add_errors]. repeat split; assumption.
    + cbn [mul_errors]. repeat split; assumption.
    + cbn [combine fold_left]. fold st. rewrite ES, A3. reflexivity.
Qed.
Lemma mul_errors_sum l : forall k rs, mul_errors prec emax l k rs ->
  rsum (reals prec emax (products fmul l k)) + rsum (reals prec emax rs) = rsum (products Rmult (reals prec emax l) (reals prec emax k)).
Proof.
  induction l as [|a l IH]; intros [|b k] [|r rs] H; cbn [mul_errors] in H; try contradiction; [cbn; ring|].
  destruct H as (H1 & H2 & H3). specialize (IH _ _ H3). unfold rsum, total, reals in *. cbn [products map fold_right]. lra.
Qed.
Theorem stable_dot_float c A B l k d v : yields A (map Ok l) -> yields B (map Ok k) -> zlen l = zlen k -> l <> [] -> no_underflows prec emax l k ->
  stable_dot_prod F c A B d = Ok v -> is_finite v = true ->
  exists h hs q r qs rs, products fmul l k = h :: hs /\ add_errors prec emax h hs qs /\ mul_errors prec emax l k (r :: rs) /\
    q = fsum r (products fadd qs rs) /\ v = fadd (fsum h hs) q /\
    B2R (fsum h hs) + (rsum (reals prec emax qs) + rsum (reals prec emax (r :: rs))) = rsum (products Rmult (reals prec emax l) (reals prec emax k)).
Proof.
  intros HA HB HL HN HU HV HF. destruct l as [|a l]; [contradiction|]. destruct k as [|b k]; [rewrite zlen_cons, zlen_nil in HL; pose proof (zlen_nonneg l); lia|].
  unfold stable_dot_prod in HV. pose proof HA as (E1 & _). pose proof HB as (E2 & _). rewrite zlen_map in E1, E2. rewrite E1, E2, HL, Z.eqb_refl in HV.
  rewrite !zlen_cons in HL. rewrite (stable_dot_loop F c A B a b l k d HA HB) in HV by lia. injection HV as HV.
  destruct HU as [HU1 HU2]. rewrite <- HV in HF. unfold fin in HF. apply plus_args in HF. destruct HF as [HF1 HF2].
  assert (ET : two_prods F a b = (nmul F a b, snd (two_prods F a b))) by reflexivity.
  assert (HR : is_finite (snd (two_prods F a b)) = true).
  { destruct (is_finite (snd (two_prods F a b))) eqn:E; [reflexivity|]. exfalso.
      assert (G : forall m (q : flt * flt), is_finite (snd q) = false -> is_finite (snd (fold_left (dot_step F) m q)) = false).
      { clear. induction m as [|[x y] m IHm]; intros q Hq; [exact Hq|]. cbn [fold_left]. apply IHm. unfold dot_step. destruct (two_prods F _ _) as [h r]. destruct (two_sums F _ _) as [p' q']. cbn [snd].
        destruct (is_finite (nadd F (snd q) (nadd F q' r))) eqn:E; [|reflexivity]. apply plus_args in E. destruct E. congruence. }
      rewrite (G _ _ E) in HF2. discriminate. }
  destruct (two_prods_fin prec emax P2 a b HR HU1) as (T1 & T2). rewrite ET in HF2, HV.
  destruct (dot_fold l k _ _ ltac:(lia) HU2 T1 HF2) as (qs & rs & A1 & A2 & A3). rewrite A3 in HV.
  exists (fmul a b), (products fmul l k), (fsum (snd (two_prods F a b)) (products fadd qs rs)), (snd (two_prods F a b)), qs, rs.
  assert (ME : mul_errors prec emax (a :: l) (b :: k) (snd (two_prods F a b) :: rs)) by (cbn [mul_errors]; repeat split; assumption).
  split; [reflexivity|]. split; [exact A1|]. split; [exact ME|]. split; [reflexivity|]. split; [now rewrite <- HV|].
  rewrite <- (mul_errors_sum _ _ _ ME). cbn [products]. unfold reals at 3. cbn [map]. pose proof (add_errors_sum _ _ _ A1) as AS.
  change (nmul F a b) with (fmul a b) in AS. match goal with |- _ = ?X + _ => change X with (B2R (fmul a b) + rsum (reals prec emax (products fmul l k))) end. rewrite <- AS. ring.
Qed.
End FS.
