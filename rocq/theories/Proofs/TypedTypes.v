(** What compiles, and what abs and inv compute. *)
From Coq Require Import ZArith Bool List Lia Reals.
From Flocq Require Import Core BinarySingleNaN.
From Verif Require Import Base.Outcome Base.ZList Model.IntModel Model.FloatModel Model.StableOps Model.Scalars Model.Typed.
From Verif Require Import Spec.IntSpec Spec.Configs Spec.ScalarSpec Spec.TypedSpec Proofs.FloatMathProofs Proofs.TypedProofs.
Import ListNotations.
Local Open Scope Z_scope.

(** ** Types *)
Lemma bty_eqb_iff a b : bty_eqb a b = true <-> a = b.
Proof. split; [|intros <-; now destruct a as [|[]|[]]]. destruct a as [|[]|[]], b as [|[]|[]]; cbn; congruence. Qed.
Lemma real_iff b : is_real b = true <-> b <> TB.
Proof. destruct b; cbn; split; congruence. Qed.
Lemma unary_iff o b r : un_result o b = Some r <-> r = b /\ unary_op o b.
Proof.
  destruct o, b as [|t|f]; cbn [un_result unary_op].
  5: { destruct (signed t) eqn:HS; split.
    - intros [= <-]. split; [reflexivity|]. left. now exists t.
    - now intros [-> _].
    - discriminate.
    - intros (-> & [(t' & [= <-] & H)|(f & [=])]). congruence. }
  all: split; [intros H; first [discriminate H|injection H as <-; split; [reflexivity|try congruence; eauto]]|intros [-> H]; first [reflexivity|congruence|exfalso]].
  - destruct H as [(t & [=] & _)|(f & [=])].
  - destruct H as (t & [=]).
  - destruct H as (t & [=]).
Qed.
Lemma binary_iff o b r : (acmp o = false /\ op_result o b = Some r) <-> r = b /\ binary_op o b.
Proof.
  destruct o, b as [|t|f]; cbn [acmp op_result binary_op]; split; intros [H1 H2]; first [discriminate|contradiction|injection H2 as <-; split; [reflexivity|try congruence; eauto]|subst r; split; [reflexivity|first [reflexivity|congruence|exfalso]]].
  all: first [destruct H2 as (t & [=])|now apply (H2 f)].
Qed.
Section T.
Context (K : list (bool * bty)) (G : list vty).
Lemma object_atyp d b e : object K G d b e -> atyp K G e = Some (mkaty d b false).
Proof.
  intros H. induction H as [k d b H|o d b e H IH U|d b e H IH U|d f e H IH|o d b e1 e2 H1 IH1 H2 IH2 U|o d b x e X H IH U|o d b x e H IH X U|d b b' e H IH]; cbn [atyp]; rewrite ?H, ?IH, ?IH1, ?IH2, ?X.
  - reflexivity.
  - now rewrite (proj2 (unary_iff o b b) (conj eq_refl U)).
  - now rewrite (proj2 (real_iff b) U).
  - reflexivity.
  - destruct (proj2 (binary_iff o b b) (conj eq_refl U)) as [A R]. now rewrite Bool.eqb_reflx, (proj2 (bty_eqb_iff b b) eq_refl), A, R.
  - destruct (proj2 (binary_iff o b b) (conj eq_refl U)) as [A R]. now rewrite (proj2 (bty_eqb_iff b b) eq_refl), A, R.
  - destruct (proj2 (binary_iff o b b) (conj eq_refl U)) as [A R]. now rewrite (proj2 (bty_eqb_iff b b) eq_refl), A, R.
  - reflexivity.
Qed.
Lemma array_atyp d b e : array K G d b e -> exists t, atyp K G e = Some (mkaty d b t).
Proof. intros H. induction H as [d b e H|d b e H [t IH]]; [eexists; now apply object_atyp|]. exists true. cbn [atyp]. now rewrite IH. Qed.
Lemma atyp_rules e : forall d b t, atyp K G e = Some (mkaty d b t) -> array K G d b e /\ (t = false -> object K G d b e).
Proof.
  assert (OB : forall d b t e, object K G d b e -> array K G d b e /\ (t = false -> object K G d b e)) by (intros; split; [now constructor|auto]).
  induction e as [k|o e IH|e IH|e IH|o e1 IH1 e2 IH2|o x e IH|o e IH x|b0 e IH|e IH]; intros d b t; cbn [atyp].
  - destruct (nth_error K k) as [[d' b']|] eqn:E; [|discriminate]. intros [= <- <- <-]. apply OB. now constructor.
  - destruct (atyp K G e) as [[d' b' []]|] eqn:E; try discriminate. destruct (un_result o b') as [r|] eqn:R; [|discriminate]. intros [= <- <- <-]. apply unary_iff in R as [-> U]. apply OB. constructor; [|exact U]. now apply (proj2 (IH _ _ _ eq_refl)).
  - destruct (atyp K G e) as [[d' b' []]|] eqn:E; try discriminate. destruct (is_real b') eqn:R; [|discriminate]. intros [= <- <- <-]. apply OB. constructor; [|now apply real_iff]. now apply (proj2 (IH _ _ _ eq_refl)).
  - destruct (atyp K G e) as [[d' b' []]|] eqn:E; try discriminate. destruct b' as [| |f]; cbn [is_flt]; try discriminate. intros [= <- <- <-]. apply OB. constructor. now apply (proj2 (IH _ _ _ eq_refl)).
  - destruct (atyp K G e1) as [[d1 b1 []]|] eqn:E1; try discriminate. destruct (atyp K G e2) as [[d2 b2 []]|] eqn:E2; try discriminate.
    destruct (Bool.eqb d1 d2) eqn:D; [|discriminate]. destruct (bty_eqb b1 b2) eqn:B; [|discriminate]. destruct (acmp o) eqn:A; [discriminate|]. cbn [andb negb]. destruct (op_result o b1) as [r|] eqn:R; [|discriminate]. intros [= <- <- <-].
    apply Bool.eqb_prop in D. apply bty_eqb_iff in B. subst d2 b2. destruct (proj1 (binary_iff o b1 r) (conj A R)) as [-> U]. apply OB. constructor; [|  |exact U]; [now apply (proj2 (IH1 _ _ _ eq_refl))|now apply (proj2 (IH2 _ _ _ eq_refl))].
  - destruct (typ G x) as [[|b1]|] eqn:X; try discriminate. destruct (atyp K G e) as [[d2 b2 []]|] eqn:E2; try discriminate.
    destruct (bty_eqb b2 b1) eqn:B; [|discriminate]. destruct (acmp o) eqn:A; [discriminate|]. cbn [andb negb]. destruct (op_result o b2) as [r|] eqn:R; [|discriminate]. intros [= <- <- <-].
    apply bty_eqb_iff in B. subst b1. destruct (proj1 (binary_iff o b2 r) (conj A R)) as [-> U]. apply OB. constructor; [exact X| |exact U]. now apply (proj2 (IH _ _ _ eq_refl)).
  - destruct (typ G x) as [[|b1]|] eqn:X; try discriminate. destruct (atyp K G e) as [[d2 b2 []]|] eqn:E2; try discriminate.
    destruct (bty_eqb b2 b1) eqn:B; [|discriminate]. destruct (acmp o) eqn:A; [discriminate|]. cbn [andb negb]. destruct (op_result o b2) as [r|] eqn:R; [|discriminate]. intros [= <- <- <-].
    apply bty_eqb_iff in B. subst b1. destruct (proj1 (binary_iff o b2 r) (conj A R)) as [-> U]. apply OB. constructor; [|exact X|exact U]. now apply (proj2 (IH _ _ _ eq_refl)).
  - destruct (atyp K G e) as [[d' b' []]|] eqn:E; try discriminate. intros [= <- <- <-]. apply OB. econstructor. now apply (proj2 (IH _ _ _ eq_refl)).
  - destruct (atyp K G e) as [[d' b' t']|] eqn:E; try discriminate. intros [= <- <- <-]. split; [|discriminate]. apply ar_temp. now apply (proj1 (IH _ _ _ eq_refl)).
Qed.
Theorem atyp_iff e d b : (exists t, atyp K G e = Some (mkaty d b t)) <-> array K G d b e.
Proof. split; [intros [t H]; now apply (atyp_rules e d b t)|apply array_atyp]. Qed.
Lemma atyp_get e u : atyp K G e = Some u -> array K G (adim u) (ael u) e.
Proof. destruct u as [d b t]. intros H. now apply (atyp_rules e d b t). Qed.
Lemma assign_iff o b : op_assign o b = true <-> binary_op o b /\ b <> TB.
Proof. destruct o, b as [|t|f]; cbn; split; try congruence; try (intros [[? ?] ?]; congruence); try (intros [H ?]; congruence); try (intros _; split; eauto; congruence); try tauto. Qed.
Lemma str_iff b o : is_str b o = true <-> o = Some (Str b).
Proof. unfold is_str. destruct o as [[|b']|]; try (split; congruence). rewrite bty_eqb_iff. split; congruence. Qed.
Lemma index_iff o : is_index o = true <-> exists i, (i = I32 \/ i = I64) /\ (o = Some (Raw (TI i)) \/ o = Some (Str (TI i))).
Proof.
  split.
  - destruct o as [[[|[]|]|[|[]|]]|]; cbn; try discriminate; intros _; eexists; eauto.
  - intros (i & [->| ->] & [->| ->]); reflexivity.
Qed.
Lemma indexes_iff is : forallb (fun s => is_index (typ G s)) is = true <-> Forall (fun x => exists i, (i = I32 \/ i = I64) /\ (typ G x = Some (Raw (TI i)) \/ typ G x = Some (Str (TI i)))) is.
Proof. rewrite forallb_forall, Forall_forall. split; intros H x Hx; specialize (H x Hx); now apply index_iff. Qed.
Theorem styp_iff t E' : styp (K, G) t = Some E' <-> compiles K G t E'.
Proof.
  assert (PE : forall e d b, array K G d b e -> exists t, atyp K G e = Some (mkaty d b t)) by (intros; now apply array_atyp).
  destruct t as [x|e|e1 e2|k is|k is x|e|k e|k x|o k e|o k x|k e]; cbn [styp compiles].
  - destruct (typ G x) as [v|]; split; [intros [= <-]; eauto|intros (? & [= <-] & ->); reflexivity|discriminate|intros (? & [=] & _)].
  - split.
    + destruct (atyp K G e) as [u|] eqn:E; [|discriminate]. destruct (is_real (ael u)) eqn:R; [|discriminate]. intros [= <-]. exists (adim u), (ael u). split; [now apply atyp_get|]. split; [now apply real_iff|reflexivity].
    + intros (d & b & H & N & ->). destruct (PE _ _ _ H) as [t ->]. cbn [ael]. now rewrite (proj2 (real_iff b) N).
  - split.
    + destruct (atyp K G e1) as [u|] eqn:E; [|discriminate]. destruct (atyp K G e2) as [w|] eqn:E2; [|discriminate]. destruct (Bool.eqb _ _) eqn:D; [|discriminate]. destruct (bty_eqb _ _) eqn:B; [|discriminate]. intros [= <-].
      exists (adim u), (ael u). apply Bool.eqb_prop in D. apply bty_eqb_iff in B. split; [now apply atyp_get|]. split; [rewrite D, B; now apply atyp_get|reflexivity].
    + intros (d & b & H1 & H2 & ->). destruct (PE _ _ _ H1) as [t ->]. destruct (PE _ _ _ H2) as [t' ->]. cbn [ael adim]. now rewrite Bool.eqb_reflx, (proj2 (bty_eqb_iff b b) eq_refl).
  - split.
    + destruct (nth_error K k) as [[d b]|] eqn:E; [|discriminate]. destruct (Nat.eqb_spec (length is) (if d then 2%nat else 1%nat)) as [L|]; [|discriminate]. destruct (forallb _ is) eqn:F; [|discriminate]. intros [= <-]. exists d, b. split; [|reflexivity]. split; [reflexivity|]. split; [exact L|now apply indexes_iff].
    + intros (d & b & (E & L & F) & ->). rewrite E, L, Nat.eqb_refl. now rewrite (proj2 (indexes_iff is) F).
  - split.
    + destruct (nth_error K k) as [[d b]|] eqn:E; [|discriminate]. destruct (Nat.eqb_spec (length is) (if d then 2%nat else 1%nat)) as [L|]; [|discriminate]. destruct (forallb _ is) eqn:F; [|discriminate]. destruct (is_str b _) eqn:X; [|discriminate]. intros [= <-]. exists d, b. split; [split; [reflexivity|split; [exact L|now apply indexes_iff]]|]. split; [now apply str_iff|reflexivity].
    + intros (d & b & (E & L & F) & X & ->). rewrite E, L, Nat.eqb_refl. rewrite (proj2 (indexes_iff is) F). now rewrite (proj2 (str_iff b _) X).
  - split.
    + destruct (atyp K G e) as [u|] eqn:E; [|discriminate]. intros [= <-]. exists (adim u), (ael u). split; [now apply atyp_get|reflexivity].
    + intros (d & b & H & ->). now destruct (PE _ _ _ H) as [t ->].
  - split.
    + destruct (nth_error K k) as [[d b]|] eqn:E; [|discriminate]. destruct (atyp K G e) as [u|] eqn:E2; [|discriminate]. destruct (Bool.eqb _ _) eqn:D; [|discriminate]. destruct (bty_eqb _ _) eqn:B; [|discriminate]. intros [= <-]. apply Bool.eqb_prop in D. apply bty_eqb_iff in B. exists d, b. subst d b. split; [reflexivity|]. split; [now apply atyp_get|reflexivity].
    + intros (d & b & E & H & ->). rewrite E. destruct (PE _ _ _ H) as [t ->]. cbn [ael adim]. now rewrite Bool.eqb_reflx, (proj2 (bty_eqb_iff b b) eq_refl).
  - split.
    + destruct (nth_error K k) as [[d b]|] eqn:E; [|discriminate]. destruct (is_str b _) eqn:X; [|discriminate]. intros [= <-]. exists d, b. split; [reflexivity|]. split; [now apply str_iff|reflexivity].
    + intros (d & b & E & X & ->). rewrite E. now rewrite (proj2 (str_iff b _) X).
  - split.
    + destruct (nth_error K k) as [[d b]|] eqn:E; [|discriminate]. destruct (atyp K G e) as [u|] eqn:E2; [|discriminate]. destruct (Bool.eqb _ _) eqn:D; [|discriminate]. destruct (bty_eqb _ _) eqn:B; [|discriminate]. destruct (op_assign o b) eqn:A; [|discriminate]. intros [= <-]. apply Bool.eqb_prop in D. apply bty_eqb_iff in B. apply assign_iff in A as [A1 A2]. exists d, b. subst d b. split; [reflexivity|]. split; [now apply atyp_get|auto].
    + intros (d & b & E & H & A1 & A2 & ->). rewrite E. destruct (PE _ _ _ H) as [t ->]. cbn [ael adim]. rewrite Bool.eqb_reflx, (proj2 (bty_eqb_iff b b) eq_refl). now rewrite (proj2 (assign_iff o b) (conj A1 A2)).
  - split.
    + destruct (nth_error K k) as [[d b]|] eqn:E; [|discriminate]. destruct (is_str b _) eqn:X; [|discriminate]. destruct (op_assign o b) eqn:A; [|discriminate]. intros [= <-]. apply assign_iff in A as [A1 A2]. exists d, b. split; [reflexivity|]. split; [now apply str_iff|auto].
    + intros (d & b & E & X & A1 & A2 & ->). rewrite E. rewrite (proj2 (str_iff b _) X). now rewrite (proj2 (assign_iff o b) (conj A1 A2)).
  - split.
    + destruct (nth_error K k) as [[d b]|] eqn:E; [|discriminate]. destruct (atyp K G e) as [u|] eqn:E2; [|discriminate]. destruct (Bool.eqb _ _) eqn:D; [|discriminate]. destruct (bty_eqb _ _) eqn:B; [|discriminate]. intros [= <-]. apply Bool.eqb_prop in D. apply bty_eqb_iff in B. exists d, b. subst d b. split; [reflexivity|]. split; [now apply atyp_get|reflexivity].
    + intros (d & b & E & H & ->). rewrite E. destruct (PE _ _ _ H) as [t ->]. cbn [ael adim]. now rewrite Bool.eqb_reflx, (proj2 (bty_eqb_iff b b) eq_refl).
Qed.
End T.

(** ** abs and inv *)
Theorem abs_int c t z : fits (signed t) (bits t) z -> vabs c (VI t z) = Some (if (if signed t then z =? - 2 ^ (bits t - 1) else false) then UB else Ok (VI t (Z.abs z))).
Proof.
  intros F. cbn [vabs]. destruct t; cbn [signed bits] in *; unfold fits in F; cbn in F.
  1,2: destruct (Z.ltb_spec 0 z) as [L|L]; [replace (z =? _) with false by (symmetry; apply Z.eqb_neq; cbn; lia); repeat f_equal; lia|]; cbn [apply1 signed]; unfold ineg, arith; cbn [signed]; unfold inr; cbn [tmin tmax].
  - destruct (Z.eqb_spec z (- 2 ^ (32 - 1))) as [E|E]; [cbn in E; subst z; reflexivity|]. cbn in E. replace (_ && _) with true by lia. cbn [bind]. repeat f_equal. lia.
  - destruct (Z.eqb_spec z (- 2 ^ (64 - 1))) as [E|E]; [cbn in E; subst z; reflexivity|]. cbn in E. replace (_ && _) with true by lia. cbn [bind]. repeat f_equal. lia.
  - repeat f_equal; lia.
  - repeat f_equal; lia.
Qed.
Theorem abs_flt c f (x : flt f) : vabs c (VF f x) = Some (Ok (VF f (if above_zero x then x else Bopp x))).
Proof.
  cbn [vabs]. unfold constant. cbn [cast bindo]. cbn [apply2 bindo]. destruct (fmt_eq f f) as [E|N]; [|congruence]. rewrite (Eqdep_dec.UIP_dec fmt_eq E eq_refl). cbn [eq_rect fop bindo].
  assert (nlt (fnum (fprec f) (femax f)) (int_to_flt f 0) x = above_zero x) as ->.
  { assert (int_to_flt f 0 = B754_zero false) as -> by (destruct f; reflexivity). destruct x as [[]|[]| |[] m e h]; reflexivity. }
  now destruct (above_zero x).
Qed.
Theorem inv_flt c f (x : flt f) : exists one : flt f, is_finite one = true /\ B2R one = 1%R /\ vinv c (VF f x) = Some (Ok (VF f (Bdiv mode_NE one x))).
Proof.
  exists (int_to_flt f 1). split; [|split].
  - destruct f; reflexivity.
  - apply (FloatMathProofs.small_int (fprec f) (femax f) 1); tauto.
  - cbn [vinv]. unfold constant. cbn [cast bindo]. cbn [apply2 bindo]. destruct (fmt_eq f f) as [E|N]; [|congruence]. rewrite (Eqdep_dec.UIP_dec fmt_eq E eq_refl). reflexivity.
Qed.
