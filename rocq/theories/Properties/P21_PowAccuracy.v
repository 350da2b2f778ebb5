(** Property C67: the accuracy of powers and polynomials in floating point. *)
From Coq Require Import ZArith Reals Lra Lia.
From Flocq Require Import Core BinarySingleNaN.
From Verif Require Import Base.Outcome Base.ZList Model.IntModel Model.Index Model.Array1D Model.Expr Model.Reduce Model.StableOps Model.FloatModel.
From Verif Require Import Spec.ExprSpec Spec.ReduceSpec Spec.NormSpec Spec.StableSpec Spec.FloatSpec Spec.LpSpec Spec.Configs.
Import ListNotations.
From Verif Require Import Proofs.ExprProofs Proofs.ExprMore Proofs.FloatProd Proofs.FloatPow Proofs.FloatPowPoly.
Local Open Scope Z_scope.

(** ** C67: powers *)
(** When pow_prods(x, p) returns finite r and s, r + s is x^p up to a relative error of 4 p^2 u^2, where u is half the distance from 1 to
    the next number (2^-53 for double): about twice the working precision.  8 p u <= 1, and x^p is not in the underflow range. *)
Theorem C67_pow : forall prec emax (Hp : Prec_gt_0 prec) (He : Prec_lt_emax prec emax), 1 < prec -> prec + 3 <= emax ->
  forall c (x : binary_float prec emax) p r s, 0 <= p <= LONG_MAX -> (8 * (IZR p * uro prec) <= 1)%R ->
  (B2R x = 0 \/ bpow radix2 (3 - emax + prec) <= Rabs (B2R x) ^ Z.to_nat p)%R ->
  pow_prods (fnum prec emax) c x p = Ok (r, s) -> is_finite r = true -> is_finite s = true ->
  let u := uro prec in
  (Rabs (B2R r + B2R s - B2R x ^ Z.to_nat p) <= 4 * (IZR p * u * (IZR p * u) * Rabs (B2R x) ^ Z.to_nat p))%R.
Proof. intros prec emax Hp He P2 P3 c x p r s H1 H2 H3 H4 H5 H6. apply (pow_acc prec emax P2 P3 c x p r s); assumption. Qed.
Print Assumptions C67_pow.

(** 3^40 has 64 bits: r is the rounded value and s what is missing. *)
Definition fD := fnum 53 1024.
Definition show2 (x : outcome (double * double)) := match x with Ok (r, s) => Some (B2SF r, B2SF s) | _ => None end.
Lemma small_u p : p <= 2 ^ 50 -> (8 * (IZR p * uro 53) <= 1)%R.
Proof.
  intros H. apply IZR_le in H. unfold uro. change (bpow radix2 (- (53))) with (/ IZR (Z.pow_pos 2 53))%R. assert (IZR (2 ^ 50) * 8 = IZR (Z.pow_pos 2 53))%R as E by (rewrite <- mult_IZR; reflexivity).
  assert (0 < IZR (Z.pow_pos 2 53))%R as P by (apply IZR_lt; reflexivity). apply Rmult_le_reg_r with (IZR (Z.pow_pos 2 53)); [exact P|]. rewrite Rmult_1_l.
  replace (8 * (IZR p * / IZR (Z.pow_pos 2 53)) * IZR (Z.pow_pos 2 53))%R with (8 * IZR p)%R by (field; apply Rgt_not_eq, P). rewrite <- E. lra.
Qed.
Lemma big_pow (x : R) n : (1 <= x)%R -> (bpow radix2 (3 - 1024 + 53) <= Rabs x ^ n)%R.
Proof. intros H. apply Rle_trans with 1%R; [change 1%R with (bpow radix2 0); apply bpow_le; lia|]. apply pow_R1_Rle. rewrite Rabs_pos_eq; lra. Qed.
Lemma ge1 (x : double) : is_finite x = true -> Bleb (Bone : double) x = true -> (1 <= B2R x)%R.
Proof. intros HF H. rewrite Bleb_correct in H by (reflexivity || exact HF). replace 1%R with (B2R (Bone : double)) by apply Bone_correct. destruct (Rle_bool_spec (B2R (Bone : double)) (B2R x)); [assumption|discriminate]. Qed.
Example C67_pow_case : (8 * (IZR 40 * uro 53) <= 1)%R /\ (bpow radix2 (3 - 1024 + 53) <= Rabs (B2R (dbl 3 0)) ^ Z.to_nat 40)%R /\
  show2 (pow_prods fD c_dbg (dbl 3 0) 40) = Some (B2SF (dbl 5936360087430141 11), B2SF (dbl 33 0)) /\ 3 ^ 40 = 5936360087430141 * 2 ^ 11 + 33.
Proof. split; [apply small_u; vm_compute; congruence|]. split; [|vm_compute; repeat split]. apply big_pow, ge1; reflexivity. Qed.

(** ** C67: polynomials *)
(** stable_gpolynomial is the exact value of the polynomial rounded once, up to the sum of the absolute values of its terms times
    4 Q^2 u^2 + 6 G^2; Q bounds the powers and G is about 2 n u for n terms. *)
Theorem C67_polynomial : forall prec emax (Hp : Prec_gt_0 prec) (He : Prec_lt_emax prec emax), 1 < prec -> prec + 3 <= emax ->
  forall c (A X : src1 (binary_float prec emax)) (P : src1 Z) cs xs ps prs d v Q, yields A (map Ok cs) -> yields X (map Ok xs) -> yields P (map Ok ps) ->
  zlen cs = zlen xs -> cs <> [] -> Forall (fun p => 0 <= p <= Q) ps -> Q <= LONG_MAX -> (8 * (IZR Q * uro prec) <= 1)%R ->
  pow_pairs (fnum prec emax) c xs ps prs -> 2 * zlen cs <= LONG_MAX ->
  (forall i x p, znth xs i = Some x -> znth ps i = Some p -> B2R x = 0 \/ bpow radix2 (3 - emax + prec) <= Rabs (B2R x) ^ Z.to_nat p)%R ->
  no_underflows prec emax (cs ++ cs) (map fst prs ++ map snd prs) ->
  stable_gpolynomial (fnum prec emax) c A X P d = Ok v -> is_finite v = true ->
  let u := uro prec in let G := ((1 + u) ^ (2 * length cs) - 1)%R in let T := gpoly_terms 1%R Rmult (reals prec emax cs) (reals prec emax xs) ps in
  (Rabs (B2R v - rsum T) <= u * Rabs (rsum T) + (1 + u) * (4 * (IZR Q * u * (IZR Q * u)) + 6 * (G * G)) * norm1 T)%R.
Proof. exact gpoly_acc. Qed.
Print Assumptions C67_polynomial.

(** 3^40 - R with R the rounded value of 3^40: the result is exactly the rounding error. *)
Definition fshow (x : outcome double) := match x with Ok v => Some (B2SF v) | _ => None end.
Definition qc : list double := [dbl 1 0; dbl (-1) 0].
Definition qx : list double := [dbl 3 0; dbl 5936360087430141 11].
Definition qp : list Z := [40; 1].
Definition qq : list (double * double) := map (fun xp => match pow_prods fD c_dbg (fst xp) (snd xp) with Ok q => q | _ => (dbl 0 0, dbl 0 0) end) (combine qx qp).
Example C67_polynomial_case : yields (src_of_list qc) (map Ok qc) /\ yields (src_of_list qx) (map Ok qx) /\ yields (src_of_list qp) (map Ok qp) /\
  Forall (fun p => 0 <= p <= 40) qp /\ (8 * (IZR 40 * uro 53) <= 1)%R /\ pow_pairs fD c_dbg qx qp qq /\
  (forall i x p, znth qx i = Some x -> znth qp i = Some p -> bpow radix2 (3 - 1024 + 53) <= Rabs (B2R x) ^ Z.to_nat p)%R /\
  no_underflows 53 1024 (qc ++ qc) (map fst qq ++ map snd qq) /\
  fshow (stable_gpolynomial fD c_dbg (src_of_list qc) (src_of_list qx) (src_of_list qp) (dbl 0 0)) = Some (B2SF (dbl 33 0)).
Proof.
  split; [apply yields_list; vm_compute; congruence|]. split; [apply yields_list; vm_compute; congruence|]. split; [apply yields_list; vm_compute; congruence|].
  split; [repeat constructor; vm_compute; congruence|]. split; [apply small_u; vm_compute; congruence|]. split; [|split; [|split]].
  - split; [reflexivity|]. split; [reflexivity|]. intros i x p Hx Hp. pose proof (znth_lt _ _ _ Hx) as HB. change (zlen qx) with 2 in HB.
    assert (i = 0 \/ i = 1) as [-> | ->] by lia; injection Hx as <-; injection Hp as <-; (eexists; split; [reflexivity|]); reflexivity.
  - intros i x p Hx Hp. apply big_pow. pose proof (znth_lt _ _ _ Hx) as HB. change (zlen qx) with 2 in HB.
    assert (i = 0 \/ i = 1) as [-> | ->] by lia; injection Hx as <-; apply ge1; vm_compute; reflexivity.
  - apply nubs_ok; vm_compute; reflexivity.
  - vm_compute. reflexivity.
Qed.

(** ** C67: lp norms *)
(** stable_norm_lp raises to the power 1/p a number s that is |x0|^p + |x1|^p + ... with a relative error of u plus a
    second order term: to first order the error does not depend on the number of elements. *)
Theorem C67_norm_lp : forall prec emax (Hp : Prec_gt_0 prec) (He : Prec_lt_emax prec emax), 1 < prec -> prec + 3 <= emax ->
  forall c pow (A : src1 (binary_float prec emax)) l p prs d v, yields A (map Ok l) -> l <> [] -> Forall (fun x => is_finite x = true) l ->
  0 < p <= LONG_MAX -> (8 * (IZR p * uro prec) <= 1)%R -> 2 * zlen l <= LONG_MAX ->
  pow_pairs (fnum prec emax) c (map (nabs (fnum prec emax)) l) (map (fun _ => p) l) prs ->
  Forall (fun x => B2R x = 0 \/ bpow radix2 (3 - emax + prec) <= Rabs (B2R x) ^ Z.to_nat p)%R l ->
  Forall (fun q => no_underflow prec emax Bone (fst q) /\ no_underflow prec emax Bone (snd q)) prs ->
  stable_norm_lp (fnum prec emax) c pow A p d = Ok v ->
  exists s, v = pow s (ninvs (fnum prec emax) (nofZ (fnum prec emax) p)) /\ (is_finite s = true ->
    let u := uro prec in let G := ((1 + u) ^ (2 * length l) - 1)%R in
    (Rabs (B2R s - lp_sum p (reals prec emax l)) <= (u + (1 + u) * (4 * (IZR p * u * (IZR p * u)) + 6 * (G * G))) * lp_sum p (reals prec emax l))%R).
Proof. exact norm_lp_acc. Qed.
Print Assumptions C67_norm_lp.

Definition nl : list double := [dbl (-3) 0; dbl 5 0].
Definition nq : list (double * double) := map (fun x => match pow_prods fD c_dbg (nabs fD x) 3 with Ok q => q | _ => (dbl 0 0, dbl 0 0) end) nl.
Lemma bone_nub (x : double) : nub 53 1024 Bone x = true -> no_underflow 53 1024 Bone x. Proof. apply nub_ok. Qed.
Example C67_norm_lp_case : yields (src_of_list nl) (map Ok nl) /\ Forall (fun x => is_finite x = true) nl /\ (8 * (IZR 3 * uro 53) <= 1)%R /\
  pow_pairs fD c_dbg (map (nabs fD) nl) (map (fun _ => 3) nl) nq /\ Forall (fun x => bpow radix2 (3 - 1024 + 53) <= Rabs (B2R x) ^ Z.to_nat 3)%R nl /\
  Forall (fun q => no_underflow 53 1024 Bone (fst q) /\ no_underflow 53 1024 Bone (snd q)) nq /\
  fshow (stable_norm_lp fD c_dbg (fun s _ => s) (src_of_list nl) 3 (dbl 0 0)) = Some (B2SF (dbl 152 0)).
Proof.
  split; [apply yields_list; vm_compute; congruence|]. split; [repeat constructor|]. split; [apply small_u; vm_compute; congruence|]. split; [|split; [|split]].
  - split; [reflexivity|]. split; [reflexivity|]. intros i x p Hx Hp. pose proof (znth_lt _ _ _ Hx) as HB. change (zlen (map (nabs fD) nl)) with 2 in HB.
    assert (i = 0 \/ i = 1) as [-> | ->] by lia; injection Hx as <-; injection Hp as <-; (eexists; split; [reflexivity|]); reflexivity.
  - unfold nl. apply Forall_cons; [|apply Forall_cons; [|apply Forall_nil]]; [|apply big_pow, ge1; vm_compute; reflexivity]. replace (Rabs (B2R (dbl (-3) 0))) with (Rabs (B2R (Bopp (dbl (-3) 0)))) by (rewrite B2R_Bopp; apply Rabs_Ropp). apply big_pow, ge1; vm_compute; reflexivity.
  - unfold nq, nl. cbn [map]. apply Forall_cons; [|apply Forall_cons; [|apply Forall_nil]]; split; apply bone_nub; vm_compute; reflexivity.
  - vm_compute. reflexivity.
Qed.
