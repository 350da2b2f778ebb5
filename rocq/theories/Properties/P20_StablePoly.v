(** Property C66: stable polynomials and lp norms. *)
From Coq Require Import ZArith Reals Lra Lia.
From Flocq Require Import Core BinarySingleNaN.
From Verif Require Import Base.Outcome Base.ZList Model.IntModel Model.Index Model.Array1D Model.Expr Model.Reduce Model.StableOps Model.FloatModel.
From Verif Require Import Spec.ExprSpec Spec.ReduceSpec Spec.NormSpec Spec.StableSpec Spec.FloatSpec Spec.LpSpec Spec.Configs.
From Verif Require Import Proofs.ExprProofs Proofs.ExprMore Proofs.ReduceProofs Proofs.ReduceThms Proofs.NormThms Proofs.FloatProd Proofs.StablePoly Proofs.LpProofs Proofs.FloatPoly.
Local Open Scope Z_scope.

Definition zNum := znum Z.ltb Z.leb.
Definition zs (l : list Z) : src1 Z := src_of_list l.

(** ** C66: polynomials *)
(** Over exact arithmetic stable_gpolynomial is c0 x0^p0 + c1 x1^p1 + ...; each power must have its table of partial powers
    (pow_fits) and twice the size must be a valid size. *)
Theorem C66_gpolynomial : forall (V : Type) (N : num V) (c : cfg), exact_num N -> forall (A X : src1 V) (P : src1 Z) cs xs ps d,
  yields A (map Ok cs) -> yields X (map Ok xs) -> yields P (map Ok ps) -> zlen cs = zlen xs -> zlen xs = zlen ps -> cs <> [] -> Forall (pow_fits c) ps -> 2 * zlen cs <= LONG_MAX ->
  stable_gpolynomial N c A X P d = Ok (total (nadd N) (nzero N) (gpoly_terms (none_ N) (nmul N) cs xs ps)).
Proof. exact @stable_gpoly_exact. Qed.
Print Assumptions C66_gpolynomial.

(** stable_polynomial(coeffs, x, powers). *)
Theorem C66_powers : forall (V : Type) (N : num V) (c : cfg), exact_num N -> forall (A : src1 V) (P : src1 Z) cs ps x d,
  yields A (map Ok cs) -> yields P (map Ok ps) -> zlen cs = zlen ps -> cs <> [] -> Forall (pow_fits c) ps -> 2 * zlen cs <= LONG_MAX ->
  stable_polynomial_powers N c A x P d = Ok (total (nadd N) (nzero N) (gpoly_terms (none_ N) (nmul N) cs (map (fun _ => x) cs) ps)).
Proof. exact @stable_poly_powers_exact. Qed.
Print Assumptions C66_powers.

(** stable_polynomial(coeffs, x) is c0 + c1 x + c2 x^2 + ... for up to 2^31 coefficients. *)
Theorem C66_polynomial : forall (V : Type) (N : num V) (c : cfg), exact_num N -> forall (A : src1 V) cs x d,
  yields A (map Ok cs) -> cs <> [] -> zlen cs <= 2 ^ 31 -> pow_fits c (zlen cs - 1) ->
  stable_polynomial N c A x d = Ok (total (nadd N) (nzero N) (poly_terms (none_ N) (nmul N) x 0 cs)).
Proof. exact @stable_poly_exact. Qed.
Print Assumptions C66_polynomial.

(** No coefficients: the default. *)
Theorem C66_empty : forall (V : Type) (N : num V) (c : cfg) (A X : src1 V) (P : src1 Z) x d, yields A [] ->
  stable_polynomial N c A x d = Ok d /\ (yields P [] -> stable_polynomial_powers N c A x P d = Ok d) /\ (yields P [] -> yields X [] -> stable_gpolynomial N c A X P d = Ok d).
Proof. intros V N c A X P x d HA. split; [now apply stable_poly_empty|]. split; intros; [now apply stable_poly_powers_empty|now apply stable_gpoly_empty]. Qed.
Print Assumptions C66_empty.

(** Different sizes are reported, and so is a negative power. *)
Theorem C66_mismatch : forall (V : Type) (N : num V) (c : cfg) (A X : src1 V) (P : src1 Z) l k p x d, yields A l -> yields X k -> yields P p -> checked c = true ->
  (zlen l <> zlen k \/ zlen k <> zlen p -> stable_gpolynomial N c A X P d = Fail (report c)) /\
  (zlen l <> zlen p -> stable_polynomial_powers N c A x P d = Fail (report c)).
Proof. intros V N c A X P l k p x d HA HX HP HC. split; intros H; [exact (stable_gpoly_mismatch N c A X P l k p d HA HX HP H HC)|exact (stable_poly_powers_mismatch N c A P l p x d HA HP H HC)]. Qed.
Print Assumptions C66_mismatch.
Theorem C66_negative : forall (V : Type) (N : num V) (c : cfg) (A X : src1 V) (P : src1 Z) l k ps x d, yields A l -> yields X k -> yields P (map Ok ps) -> zlen l = zlen k -> zlen k = zlen ps ->
  ~ Forall (fun p => 0 <= p) ps -> checked c = true ->
  stable_gpolynomial N c A X P d = Fail (report c) /\ stable_polynomial_powers N c A x P d = Fail (report c).
Proof.
  intros V N c A X P l k ps x d HA HX HP H1 H2 HF HC. split; [exact (stable_gpoly_negative N c A X P l k ps d HA HX HP H1 H2 HF HC)|]. apply (stable_poly_powers_negative N c A P l ps x d HA HP); try assumption. congruence.
Qed.
Print Assumptions C66_negative.

Example C66_polynomial_case : exact_num zNum /\ yields (zs [5; 0; -2; 1]) (map Ok [5; 0; -2; 1]) /\ Forall (pow_fits c_dbg) [9; 0; 3] /\ pow_fits c_dbg 3 /\
  stable_polynomial zNum c_dbg (zs [5; 0; -2; 1]) 3 0 = Ok 14 /\ stable_gpolynomial zNum c_dbg (zs [1; 7; 2]) (zs [2; 5; 3]) (zs [9; 0; 3]) 0 = Ok 573 /\
  stable_polynomial_powers zNum c_dbg (zs [1; 7; 2]) 2 (zs [9; 0; 3]) 0 = Ok 535 /\
  stable_polynomial zNum c_dbg (zs []) 3 (-7) = Ok (-7) /\ stable_gpolynomial zNum c_dbg (zs [1; 7; 2]) (zs [2; 5]) (zs [9; 0; 3]) 0 = Fail Throw /\
  stable_polynomial_powers zNum c_dbg (zs [1; 7; 2]) 2 (zs [9; -1; 3]) 0 = Fail Throw.
Proof.
  split; [apply znum_exact|]. split; [apply yields_list; vm_compute; congruence|]. split; [repeat constructor; try lia; vm_compute; try congruence; left; congruence|]. split; [split; [vm_compute; split; congruence|right; lia]|]. repeat split; vm_compute; reflexivity.
Qed.

(** With more than 2^31 coefficients the powers, a sequence of int, wrap around to negative ones: the function reports an
    error on valid arguments. *)
Theorem C66_polynomial_large : forall (V : Type) (N : num V) (c : cfg) (A : src1 V) cs x d, yields A (map Ok cs) -> 2 ^ 31 < zlen cs -> checked c = true ->
  stable_polynomial N c A x d = Fail (report c).
Proof. exact @stable_poly_large. Qed.
Print Assumptions C66_polynomial_large.
(** So "stable_polynomial evaluates every polynomial whose coefficients and tables fit into memory" is false. *)
Theorem C66_polynomial_refuted : exists c (A : src1 Z) cs x d, checked c = true /\ yields A (map Ok cs) /\ cs <> [] /\ pow_fits c (zlen cs - 1) /\ 2 * zlen cs <= amax c /\ amax c <= LONG_MAX /\
  stable_polynomial zNum c A x d = Fail (report c).
Proof. exact (stable_poly_refuted zNum 1). Qed.
Print Assumptions C66_polynomial_refuted.

(** In any arithmetic the value is the stable_dot_prod of the coefficients, twice, with the leading parts and then the corrections
    of the powers. *)
Theorem C66_pairs : forall (V : Type) (N : num V) (c : cfg) (A X : src1 V) (P : src1 Z) CP RS cs xs ps prs d, yields A (map Ok cs) -> yields X (map Ok xs) -> yields P (map Ok ps) ->
  zlen cs = zlen xs -> cs <> [] -> Forall (fun p => 0 <= p) ps -> pow_pairs N c xs ps prs -> 2 * zlen cs <= LONG_MAX ->
  yields CP (map Ok (cs ++ cs)) -> yields RS (map Ok (map fst prs ++ map snd prs)) ->
  stable_gpolynomial N c A X P d = stable_dot_prod N c CP RS (nzero N).
Proof. exact @stable_gpoly_value. Qed.
Print Assumptions C66_pairs.

(** In floating point: the exact value of c0 (r0 + s0) + c1 (r1 + s1) + ... rounded once, plus a second order term; (ri, si) is
    what pow_prods returned for xi^pi. *)
Theorem C66_float : forall (prec emax : Z) (Hp : Prec_gt_0 prec) (He : Prec_lt_emax prec emax), 1 < prec ->
  forall c (A X : src1 (binary_float prec emax)) (P : src1 Z) cs xs ps prs d v, yields A (map Ok cs) -> yields X (map Ok xs) -> yields P (map Ok ps) ->
  zlen cs = zlen xs -> cs <> [] -> Forall (fun p => 0 <= p) ps -> pow_pairs (fnum prec emax) c xs ps prs -> 2 * zlen cs <= LONG_MAX ->
  no_underflows prec emax (cs ++ cs) (map fst prs ++ map snd prs) ->
  stable_gpolynomial (fnum prec emax) c A X P d = Ok v -> is_finite v = true ->
  let u := uro prec in let G := ((1 + u) ^ (2 * length cs) - 1)%R in
  let real := reals prec emax in let t := pair_terms Rplus Rmult (real cs) (map (fun q => (B2R (fst q), B2R (snd q))) prs) in
  (Rabs (B2R v - rsum t) <= u * Rabs (rsum t) + (1 + u) * (G * G) * (norm1 (products Rmult (real cs) (real (map fst prs))) + norm1 (products Rmult (real cs) (real (map snd prs)))))%R.
Proof. exact stable_gpoly_acc. Qed.
Print Assumptions C66_float.

(** (2^27 + 1)^2 - 2^54 - 2^28 = 1: the plain evaluation loses it. *)
Definition fD := fnum 53 1024.
Definition fshow (x : outcome double) := match x with Ok v => Some (B2SF v) | _ => None end.
Definition pc : list double := [dbl 1 0; dbl (-1) 54; dbl (-1) 28].
Definition px : list double := [dbl 134217729 0; dbl 1 0; dbl 1 0].
Definition pp : list Z := [2; 1; 1].
Definition pq : list (double * double) := map (fun xp => match pow_prods fD c_dbg (fst xp) (snd xp) with Ok q => q | _ => (dbl 0 0, dbl 0 0) end) (combine px pp).
Example C66_float_case : yields (src_of_list pc) (map Ok pc) /\ yields (src_of_list px) (map Ok px) /\ yields (src_of_list pp) (map Ok pp) /\
  pow_pairs fD c_dbg px pp pq /\ no_underflows 53 1024 (pc ++ pc) (map fst pq ++ map snd pq) /\
  fshow (stable_gpolynomial fD c_dbg (src_of_list pc) (src_of_list px) (src_of_list pp) (dbl 0 0)) = Some (B2SF (dbl 1 0)).
Proof.
  split; [apply yields_list; vm_compute; congruence|]. split; [apply yields_list; vm_compute; congruence|]. split; [apply yields_list; vm_compute; congruence|]. split.
  - split; [reflexivity|]. split; [reflexivity|]. intros i x p Hx Hp. pose proof (znth_lt _ _ _ Hx) as HB. change (zlen px) with 3 in HB.
    assert (i = 0 \/ i = 1 \/ i = 2) as [-> | [-> | ->]] by lia; injection Hx as <-; injection Hp as <-; (eexists; split; [reflexivity|]); reflexivity.
  - split; [apply nubs_ok; vm_compute; reflexivity|]. vm_compute. reflexivity.
Qed.

(** ** C66: lp norms, over the real numbers *)
(** stable_norm_lp and its scaled form compute the same values as norm_lp and norm_lp_scaled: (|x0|^p + |x1|^p + ...)^(1/p), and that
    divided by n^(1/p).  powr is what std::pow computes. *)
Theorem C66_norm_lp : forall c powr (A : src1 R) l p d, yields A (map Ok l) -> l <> [] -> 0 < p -> pow_fits c p -> 2 * zlen l <= LONG_MAX ->
  let v := powr (lp_sum p l) (1 / IZR p)%R in let s := (v / powr (IZR (zlen l)) (1 / IZR p))%R in
  stable_norm_lp rnum c powr A p d = Ok v /\ stable_norm_lp_scaled rnum c powr A p d = Ok s /\
  r_norm_lp_scaled c radd (fun x y => Ok (x / y)%R) (fun i => Ok (IZR i)) 1%R Rabs (fun x p => Ok (x ^ Z.to_nat p)%R) powr 0%R A p d = Ok s.
Proof. intros c powr A l p d HA HN Hp HF HL v s. split; [now apply stable_norm_lp_ok|]. split; [now apply stable_norm_lp_scaled_ok|now apply norm_lp_scaled_ok]. Qed.
Print Assumptions C66_norm_lp.
(** That value is the lp norm when powr takes roots. *)
Theorem C66_is_lp : forall powr p l, roots powr p -> is_lp p l (powr (lp_sum p l) (1 / IZR p)%R).
Proof. exact roots_lp. Qed.
Print Assumptions C66_is_lp.
(** And the lp norm is a norm, for every p > 0 (an integer): zero only at zero, homogeneous, triangle inequality; between the maximum norm and the
    1-norm, smaller for larger p; for p = 1 and p = 2 the other norms. *)
Theorem C66_norm : forall p, 0 < p ->
  (forall l r r', is_lp p l r -> is_lp p l r' -> r = r') /\
  (forall l r, is_lp p l r -> (r = 0%R <-> Forall (fun x => x = 0%R) l)) /\
  (forall a l r, is_lp p l r -> is_lp p (scale a l) (Rabs a * r)%R) /\
  (forall l k a b r, length l = length k -> is_lp p l a -> is_lp p k b -> is_lp p (vadd l k) r -> (r <= a + b)%R) /\
  (forall l r, is_lp p l r -> (norminf l <= r)%R) /\
  (forall q l a b, p <= q -> is_lp p l a -> is_lp q l b -> (b <= a)%R).
Proof.
  intros p Hp. split; [now apply lp_unique|]. split; [now apply lp_def|]. split; [now apply lp_scale|]. split; [now apply lp_triangle|]. split; [now apply lp_inf|].
  intros q l a b Hq. apply lp_antitone. lia.
Qed.
Print Assumptions C66_norm.
Theorem C66_norm_12 : forall l, is_lp 1 l (norm1 l) /\ is_lp 2 l (norm2 l).
Proof. intros l. split; [apply lp_1|apply lp_2]. Qed.
Print Assumptions C66_norm_12.
(** The scaled norm of a constant array is the absolute value of the constant, whatever the size. *)
Theorem C66_scaled_const : forall powr p a k, 0 < p -> roots powr p -> (0 < k)%nat -> (powr (lp_sum p (repeat a k)) (1 / IZR p) / powr (INR k) (1 / IZR p) = Rabs a)%R.
Proof. exact lp_const. Qed.
Print Assumptions C66_scaled_const.
(** p <= 0 is reported; no elements give the default. *)
Theorem C66_norm_bad : forall (V : Type) (N : num V) c pow (A : src1 V) p d, p <= 0 -> checked c = true ->
  stable_norm_lp N c pow A p d = Fail (report c) /\ stable_norm_lp_scaled N c pow A p d = Fail (report c).
Proof. exact @stable_norm_lp_bad. Qed.
Print Assumptions C66_norm_bad.
Theorem C66_norm_plain_bad : forall (V : Type) c add div cast one abs powi pow zero (A : src1 V) p d, p <= 0 -> checked c = true ->
  r_norm_lp_scaled c add div cast one abs powi pow zero A p d = Fail (report c).
Proof. exact @norm_lp_scaled_bad. Qed.
Print Assumptions C66_norm_plain_bad.
Theorem C66_norm_empty : forall (V : Type) (N : num V) c pow (A : src1 V) p d, 0 < p -> yields A [] ->
  stable_norm_lp N c pow A p d = Ok d /\ stable_norm_lp_scaled N c pow A p d = Ok d.
Proof. exact @stable_norm_lp_empty. Qed.
Print Assumptions C66_norm_empty.
Example C66_norm_case : (forall p, 0 < p -> roots rpow p) /\ yields (src_of_list [3; -4]%R) (map Ok [3; -4]%R) /\ pow_fits c_dbg 7 /\ is_lp 3 [3; 4; 5]%R 6%R /\
  stable_norm_lp zNum c_dbg (fun x _ => x) (zs [1; -2; 3]) 3 0 = Ok 36 /\ stable_norm_lp zNum c_dbg (fun x _ => x) (zs [1; -2; 3]) 0 0 = Fail Throw /\
  stable_norm_lp_scaled zNum c_dbg (fun x _ => x) (zs [1; -2; 3]) 3 0 = Ok 12.
Proof.
  split; [exact rpow_roots|]. split; [apply yields_list; vm_compute; congruence|]. split; [split; [vm_compute; split; congruence|left; vm_compute; congruence]|]. split.
  - unfold is_lp, lp_sum, rsum, total. cbn [map fold_right]. change (Z.to_nat 3) with 3%nat. rewrite !Rabs_pos_eq by lra. split; lra.
  - repeat split; vm_compute; reflexivity.
Qed.
