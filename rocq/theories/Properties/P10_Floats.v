(** Properties C09-C16, C44, C53, C57 and the floating-point parts of C40 and C42.  [prec] and [emax] range over all binary
    formats (float: 24, 128; double: 53, 1024; long double: 64, 16384; __float128: 113, 16384). *)
From Coq Require Import ZArith Reals Lra Lia Ring_theory.
From Flocq Require Import Core BinarySingleNaN.
From Verif Require Import Base.Outcome Base.ZList Model.IntModel Model.Index Model.Array1D Model.Expr Model.Reduce Model.StableOps Model.FloatModel.
From Verif Require Import Spec.ExprSpec Spec.ReduceSpec Spec.NormSpec Spec.StableSpec Spec.DualSpec Spec.FloatSpec Spec.Configs.
From Verif Require Import Proofs.ExprMore Proofs.StableLoops Proofs.ExactProofs Proofs.PowProofs Proofs.FloatProofs Proofs.FloatSum Proofs.FloatProd Proofs.FloatAcc Proofs.FloatCmp Proofs.FloatTol.
Local Open Scope Z_scope.

Definition fsrc (l : list double) : src1 double := src_of_list l.
Definition dF := fnum 53 1024.
Definition zN := znum Z.ltb Z.leb.
Definition show (x : outcome double) := match x with Ok v => Some (B2SF v) | _ => None end.

(** ** C09 *)
(** two_sums: the correctly rounded sum and its exact error, provided the sum is finite and y is not the largest finite
    number (or the first difference the code computes does not overflow). *)
Theorem C09_exact : forall (prec emax : Z) (Hp : Prec_gt_0 prec) (He : Prec_lt_emax prec emax), 1 < prec -> forall x y : binary_float prec emax,
  is_finite x = true -> is_finite y = true -> is_finite (fadd prec emax x y) = true ->
  (Rabs (B2R y) < fmax prec emax)%R \/ is_finite (Bminus mode_NE (fadd prec emax x y) x) = true ->
  exists r s, two_sums (fnum prec emax) x y = (r, s) /\ is_finite r = true /\ is_finite s = true /\
    B2R r = near prec emax (B2R x + B2R y) /\ (B2R r + B2R s = B2R x + B2R y)%R.
Proof. exact two_sums_ok. Qed.
Print Assumptions C09_exact.

(** An overflowing or otherwise non-finite sum is returned as such, with NaN for the error. *)
Theorem C09_nonfinite : forall (prec emax : Z) (Hp : Prec_gt_0 prec) (He : Prec_lt_emax prec emax) (x y : binary_float prec emax),
  is_finite (fadd prec emax x y) = false ->
  fst (two_sums (fnum prec emax) x y) = fadd prec emax x y /\ is_nan (snd (two_sums (fnum prec emax) x y)) = true.
Proof. exact two_sums_nonfinite. Qed.
Print Assumptions C09_nonfinite.

Example C09_case : let x := dbl 1 0 in let y := dbl 1 (-60) in
  is_finite x = true /\ is_finite y = true /\ is_finite (fadd 53 1024 x y) = true /\ is_finite (Bminus mode_NE (fadd 53 1024 x y) x) = true /\
  B2SF (fst (two_sums dF x y)) = B2SF (dbl 1 0) /\ B2SF (snd (two_sums dF x y)) = B2SF (dbl 1 (-60)) /\
  is_finite (fadd 53 1024 (dbl 1 1023) (dbl 1 1023)) = false /\ is_nan (snd (two_sums dF (dbl 1 1023) (dbl 1 1023))) = true.
Proof. repeat split; vm_compute; reflexivity. Qed.
(** Without the condition on y the claim fails: x = -3 * 2^970 and y = the largest double have a finite sum, but the error
    returned is NaN. *)
Theorem C09_finite_sum_refuted : exists x y : double, is_finite x = true /\ is_finite y = true /\ is_finite (fadd 53 1024 x y) = true /\ is_nan (snd (two_sums (fnum 53 1024) x y)) = true.
Proof. exists (dbl (-3) 970), (dbl (2 ^ 53 - 1) 971). repeat split; vm_compute; reflexivity. Qed.
Print Assumptions C09_finite_sum_refuted.

(** ** C10 *)
(** two_prods: the correctly rounded product and its exact error. *)
Theorem C10_exact : forall (prec emax : Z) (Hp : Prec_gt_0 prec) (He : Prec_lt_emax prec emax), 1 < prec -> forall x y : binary_float prec emax,
  is_finite x = true -> is_finite y = true -> is_finite (fmul prec emax x y) = true -> no_underflow prec emax x y ->
  exists r s, two_prods (fnum prec emax) x y = (r, s) /\ is_finite r = true /\ is_finite s = true /\
    B2R r = near prec emax (B2R x * B2R y) /\ (B2R r + B2R s = B2R x * B2R y)%R.
Proof. exact two_prods_ok. Qed.
Print Assumptions C10_exact.

(** Underflow included, the pair is off by at most half the smallest positive number. *)
Theorem C10_underflow : forall (prec emax : Z) (Hp : Prec_gt_0 prec) (He : Prec_lt_emax prec emax), 1 < prec -> forall x y : binary_float prec emax,
  is_finite x = true -> is_finite y = true -> is_finite (fmul prec emax x y) = true ->
  exists r s, two_prods (fnum prec emax) x y = (r, s) /\ is_finite r = true /\ is_finite s = true /\
    B2R r = near prec emax (B2R x * B2R y) /\ (Rabs (B2R r + B2R s - B2R x * B2R y) <= bpow radix2 (3 - emax - prec) / 2)%R.
Proof. exact two_prods_bound. Qed.
Print Assumptions C10_underflow.

(** Overflow gives opposite infinities. *)
Theorem C10_overflow : forall (prec emax : Z) (Hp : Prec_gt_0 prec) (He : Prec_lt_emax prec emax) (x y : binary_float prec emax),
  is_finite x = true -> is_finite y = true -> is_finite (fmul prec emax x y) = false ->
  exists b, two_prods (fnum prec emax) x y = (B754_infinity b, B754_infinity (negb b)).
Proof. exact two_prods_overflow. Qed.
Print Assumptions C10_overflow.

Example C10_case : let x := dbl 134217729 0 in
  is_finite x = true /\ is_finite (fmul 53 1024 x x) = true /\ no_underflow 53 1024 x x /\
  B2SF (fst (two_prods dF x x)) = B2SF (dbl (134217729 * 134217729 - 1) 0) /\ B2SF (snd (two_prods dF x x)) = B2SF (dbl 1 0) /\
  is_finite (fmul 53 1024 (dbl 1 1000) (dbl 1 1000)) = false.
Proof. cbv zeta. split; [|split; [|split; [apply nub_ok|split; [|split]]]]; vm_compute; reflexivity. Qed.
(** Underflow does lose the error: the smallest double squared gives (0, 0). *)
Theorem C10_no_underflow_refuted : exists x : double, is_finite x = true /\ is_finite (fmul 53 1024 x x) = true /\
  B2SF (fst (two_prods (fnum 53 1024) x x)) = SpecFloat.S754_zero false /\ B2SF (snd (two_prods (fnum 53 1024) x x)) = SpecFloat.S754_zero false /\ Beqb x (B754_zero false) = false.
Proof. exists (dbl 1 (-1074)). repeat split; vm_compute; reflexivity. Qed.
Print Assumptions C10_no_underflow_refuted.

(** ** C11 *)
(** pow_prods over exact arithmetic with an arbitrary splitting of products into a main part and a residue: up to multiples of
    products of two residues the two results add up to x^p.  [J] is any ideal that contains these products. *)
Theorem C11_first_order : forall (V : Type) (N : num V) (c : cfg) (tp : V -> V -> V * V) (J : V -> Prop) x p,
  exact_num N -> (forall a b, nadd N (fst (tp a b)) (snd (tp a b)) = nmul N a b) ->
  ideal N J -> (forall a b a' b', J (nmul N (snd (tp a b)) (snd (tp a' b')))) ->
  0 <= p <= LONG_MAX -> 2 * (p / 2 - 1) <= amax c \/ p < 6 ->
  exists r s, pow_prods_tp N c tp x p = Ok (r, s) /\ J (nsub N (power (none_ N) (nmul N) x (Z.to_nat p)) (nadd N r s)).
Proof. exact (fun V N c tp J x p HX TP HJ JR => pow_ideal N c tp HX TP J HJ JR x p). Qed.
Print Assumptions C11_first_order.

(** With exact products pow_prods is the power. *)
Theorem C11_exact : forall (V : Type) (N : num V) (c : cfg) x p, exact_num N -> 0 <= p <= LONG_MAX -> 2 * (p / 2 - 1) <= amax c \/ p < 6 ->
  exists r s, pow_prods N c x p = Ok (r, s) /\ nadd N r s = power (none_ N) (nmul N) x (Z.to_nat p).
Proof. exact @pow_exact. Qed.
Print Assumptions C11_exact.

(** A negative exponent is reported; an exponent whose table of partial powers does not fit into memory fails with bad_alloc. *)
Theorem C11_negative : forall (V : Type) (N : num V) (c : cfg) x p, p < 0 -> checked c = true -> pow_prods N c x p = Fail (report c).
Proof. exact (fun V N c x p => pow_negative N c (two_prods N) x p). Qed.
Print Assumptions C11_negative.
Theorem C11_too_long : forall (V : Type) (N : num V) (c : cfg) x p, 6 <= p <= LONG_MAX -> amax c < 2 * (p / 2 - 1) -> pow_prods N c x p = Fail BadAlloc.
Proof. exact (fun V N c x p => pow_too_long N c (two_prods N) x p). Qed.
Print Assumptions C11_too_long.

(** Dual numbers: every product loses a multiple of e, the residues are nonzero and multiply to zero. *)
Example C11_case : exact_num dual /\ (forall a b, nadd dual (fst (dual_tp a b)) (snd (dual_tp a b)) = nmul dual a b) /\ ideal dual (fun x => x = (0, 0)) /\
  (forall a b a' b', nmul dual (snd (dual_tp a b)) (snd (dual_tp a' b')) = (0, 0)) /\
  pow_prods_tp dual c_dbg dual_tp (3, 0) 13 = Ok ((1594323, -1085026), (0, 1085026)) /\ pow_prods_tp dual c_dbg dual_tp (3, 0) 5 = Ok ((243, -58), (0, 58)) /\
  pow_prods zN c_dbg 3 13 = Ok (1594323, 0) /\ pow_prods zN c_dbg 3 (-1) = Fail Throw.
Proof.
  split; [exact dual_exact|]. split; [intros [a a'] [b b']; cbn; f_equal; lia|]. split.
  - split; [reflexivity|]. split; [intros a b -> ->; reflexivity|]. intros a b ->. cbn. f_equal; lia.
  - split; [intros a b a' b'; reflexivity|]. repeat split; vm_compute; reflexivity.
Qed.

(** ** C12 *)
(** stable_sum in floating point: the plain sum and, added to it, the sum of the exact errors of all its additions. *)
Theorem C12_float : forall (prec emax : Z) (Hp : Prec_gt_0 prec) (He : Prec_lt_emax prec emax), 1 < prec ->
  forall (A : src1 (binary_float prec emax)) l d, yields A (map Ok l) -> l <> [] -> sums_finite prec emax (fzero prec emax) l ->
  exists es, stable_sum (fnum prec emax) A d = Ok (fadd prec emax (fsum prec emax (fzero prec emax) l) (fsum prec emax (fzero prec emax) es)) /\
    add_errors prec emax (fzero prec emax) l es /\
    (B2R (fsum prec emax (fzero prec emax) l) + rsum (reals prec emax es) = rsum (reals prec emax l))%R.
Proof. exact stable_sum_float. Qed.
Print Assumptions C12_float.

(** Over exact arithmetic, whatever the comparison of absolute values says, it is the sum. *)
Theorem C12_exact : forall (V : Type) (N : num V), exact_num N -> forall (A : src1 V) l d, yields A (map Ok l) -> l <> [] ->
  stable_sum N A d = Ok (total (nadd N) (nzero N) l).
Proof. exact (fun V N HX => stable_sum_exact N HX). Qed.
Print Assumptions C12_exact.

(** An empty array gives the default of the caller. *)
Theorem C12_empty : forall (V : Type) (N : num V) (A : src1 V) d, yields A [] -> stable_sum N A d = Ok d.
Proof. exact (fun V N A d => stable_sum_empty N A d). Qed.
Print Assumptions C12_empty.

Definition hard : list double := [dbl 1 0; dbl 1 100; dbl 1 0; dbl (-1) 100].
Example C12_case : yields (fsrc hard) (map Ok hard) /\ sums_finite 53 1024 (fzero 53 1024) hard /\
  show (stable_sum dF (fsrc hard) (dbl 0 0)) = Some (B2SF (dbl 2 0)) /\ show (r_sum (fun x y => Ok (nadd dF x y)) (fsrc hard) (dbl 0 0)) = Some (B2SF (dbl 0 0)) /\
  stable_sum zN (src_of_list [5; -7; 9]) 0 = Ok 7.
Proof.
  split; [apply yields_list; vm_compute; congruence|]. split; [apply fsum_finite_all; vm_compute; reflexivity|]. repeat split; vm_compute; reflexivity.
Qed.

(** ** C13 *)
(** stable_dot_prod in floating point: h hs are the rounded products, r rs their exact errors, qs the exact errors of the sum
    of h hs; the high part and all the errors add up to the exact dot product, and the result is the high part plus the rounded sum of the
    errors. *)
Theorem C13_float : forall (prec emax : Z) (Hp : Prec_gt_0 prec) (He : Prec_lt_emax prec emax), 1 < prec ->
  forall (c : cfg) (A B : src1 (binary_float prec emax)) l k d v, yields A (map Ok l) -> yields B (map Ok k) -> zlen l = zlen k -> l <> [] -> no_underflows prec emax l k ->
  stable_dot_prod (fnum prec emax) c A B d = Ok v -> is_finite v = true ->
  exists h hs q r qs rs, products (fmul prec emax) l k = h :: hs /\ add_errors prec emax h hs qs /\ mul_errors prec emax l k (r :: rs) /\
    q = fsum prec emax r (products (fadd prec emax) qs rs) /\ v = fadd prec emax (fsum prec emax h hs) q /\
    (B2R (fsum prec emax h hs) + (rsum (reals prec emax qs) + rsum (reals prec emax (r :: rs))) = rsum (products Rmult (reals prec emax l) (reals prec emax k)))%R.
Proof. exact stable_dot_float. Qed.
Print Assumptions C13_float.

(** Over exact arithmetic it is the dot product. *)
Theorem C13_exact : forall (V : Type) (N : num V) (c : cfg), exact_num N -> forall (A B : src1 V) l k d, yields A (map Ok l) -> yields B (map Ok k) -> zlen l = zlen k -> l <> [] ->
  stable_dot_prod N c A B d = Ok (total (nadd N) (nzero N) (products (nmul N) l k)).
Proof. exact (fun V N c HX => stable_dot_prod_exact N c HX). Qed.
Print Assumptions C13_exact.

(** Different sizes are reported. *)
Theorem C13_mismatch : forall (V : Type) (N : num V) (c : cfg) (A B : src1 V) d, checked c = true -> ssize A <> ssize B -> stable_dot_prod N c A B d = Fail (report c).
Proof. exact @stable_dot_mismatch. Qed.
Print Assumptions C13_mismatch.

Definition hard2 : list double := [dbl 134217729 0; dbl (-1) 54; dbl 1 28].
Definition hard3 : list double := [dbl 134217729 0; dbl 1 0; dbl (-1) 0].
Example C13_case : yields (fsrc hard2) (map Ok hard2) /\ yields (fsrc hard3) (map Ok hard3) /\ no_underflows 53 1024 hard2 hard3 /\
  show (stable_dot_prod dF c_dbg (fsrc hard2) (fsrc hard3) (dbl 0 0)) = Some (B2SF (dbl 1 0)) /\
  show (r_dot c_dbg (fun x y => Ok (nadd dF x y)) (fun x y => Ok (nmul dF x y)) (dbl 0 0) (fsrc hard2) (fsrc hard3) (dbl 0 0)) = Some (B2SF (dbl 0 0)) /\
  stable_dot_prod zN c_dbg (src_of_list [1; 2; 3]) (src_of_list [4; 5; 6]) 0 = Ok 32 /\
  stable_dot_prod zN c_dbg (src_of_list [1; 2; 3]) (src_of_list [4; 5]) 0 = Fail Throw.
Proof.
  split; [apply yields_list; vm_compute; congruence|]. split; [apply yields_list; vm_compute; congruence|]. split; [apply nubs_ok; vm_compute; reflexivity|]. repeat split; vm_compute; reflexivity.
Qed.

(** ** C14 *)
(** stable_prod in floating point: es are the exact errors of the multiplications; the exact product is the plain product plus
    the sum over the steps of error times product of the later elements; the result adds to the plain product the stable_sum of these terms,
    rounded, last step first. *)
Theorem C14_float : forall (prec emax : Z) (Hp : Prec_gt_0 prec) (He : Prec_lt_emax prec emax), 1 < prec ->
  forall (c : cfg) (A : src1 (binary_float prec emax)) x l d, zlen l <= amax c -> yields A (map Ok (x :: l)) -> is_finite (fprod prec emax x l) = true -> steps_no_underflow prec emax x l ->
  exists es off, stable_prod (fnum prec emax) c A d = Ok (fadd prec emax (fprod prec emax x l) off) /\ step_errors prec emax x l es /\
    stable_sum (fnum prec emax) (src_of_list (corrections prec emax Bone (rev (combine es l)))) (fzero prec emax) = Ok off /\
    (rprod (reals prec emax (x :: l)) = B2R (fprod prec emax x l) + carried prec emax es l)%R.
Proof. exact stable_prod_float. Qed.
Print Assumptions C14_float.

(** The hypothesis on the plain product follows from a finite result. *)
Theorem C14_float_finite : forall (prec emax : Z) (Hp : Prec_gt_0 prec) (He : Prec_lt_emax prec emax)
  (c : cfg) (A : src1 (binary_float prec emax)) x l d v, zlen l <= amax c -> yields A (map Ok (x :: l)) ->
  stable_prod (fnum prec emax) c A d = Ok v -> is_finite v = true -> is_finite (fprod prec emax x l) = true.
Proof. exact stable_prod_finite. Qed.
Print Assumptions C14_float_finite.

(** Over exact arithmetic it is the product (the array of errors must fit into memory). *)
Theorem C14_exact : forall (V : Type) (N : num V) (c : cfg), exact_num N -> forall (A : src1 V) l d, zlen l <= amax c + 1 -> yields A (map Ok l) -> l <> [] ->
  stable_prod N c A d = Ok (total (nmul N) (none_ N) l).
Proof. exact (fun V N c HX => stable_prod_exact N c HX). Qed.
Print Assumptions C14_exact.

(** An empty array gives the default of the caller. *)
Theorem C14_empty : forall (V : Type) (N : num V) (c : cfg) (A : src1 V) d, yields A [] -> stable_prod N c A d = Ok d.
Proof. exact (fun V N c A d => stable_prod_empty N c A d). Qed.
Print Assumptions C14_empty.

Definition thirds : list double := [dbl 134217729 0; dbl 134217729 0].
Example C14_case : yields (fsrc thirds) (map Ok thirds) /\ is_finite (fprod 53 1024 (dbl 134217729 0) [dbl 134217729 0]) = true /\ steps_no_underflow 53 1024 (dbl 134217729 0) [dbl 134217729 0] /\
  show (stable_prod dF c_dbg (fsrc thirds) (dbl 0 0)) = Some (B2SF (dbl (134217729 * 134217729) 0)) /\
  stable_prod zN c_dbg (src_of_list [2; -3; 7; 5]) 0 = Ok (-210) /\ stable_prod zN c_dbg (src_of_list [9]) 0 = Ok 9 /\ stable_prod zN c_dbg (src_of_list []) 4 = Ok 4.
Proof.
  split; [apply yields_list; vm_compute; congruence|]. split; [vm_compute; reflexivity|]. split; [apply snubs_ok; vm_compute; reflexivity|]. repeat split; vm_compute; reflexivity.
Qed.
(** The product of an array with the single element -0.0 is +0.0: stable_prod is not the identity on singletons. *)
Theorem C14_singleton_refuted : exists (A : src1 double) (x : double), yields A [Ok x] /\ show (stable_prod (fnum 53 1024) c_dbg A (fzero 53 1024)) <> show (Ok x).
Proof. exists (fsrc [B754_zero true]), (B754_zero true). split; [apply (yields_list [B754_zero true : double]); vm_compute; congruence|]. vm_compute. discriminate. Qed.
Print Assumptions C14_singleton_refuted.

(** ** C15 *)
(** semi_stable_sum over exact arithmetic: blocks of 64 and the remainder cover every element once. *)
Theorem C15_exact : forall (V : Type) (N : num V) (c : cfg), exact_num N -> forall (A : src1 V) l d, yields A (map Ok l) -> l <> [] -> zlen l / 64 <= amax c ->
  semi_stable_sum N c A d = Ok (total (nadd N) (nzero N) l).
Proof. exact (fun V N c HX => semi_stable_exact N c HX). Qed.
Print Assumptions C15_exact.
Theorem C15_empty : forall (V : Type) (N : num V) (c : cfg) (A : src1 V) d, yields A [] -> semi_stable_sum N c A d = Ok d.
Proof. exact (fun V N c A d => semi_stable_empty N c A d). Qed.
Print Assumptions C15_empty.
Example C15_case : let l := zseq 1 130 in yields (src_of_list l) (map Ok l) /\ zlen l / 64 <= amax c_dbg /\ exact_num zN /\ semi_stable_sum zN c_dbg (src_of_list l) 0 = Ok 8515.
Proof. cbv zeta. split; [apply yields_list; vm_compute; congruence|]. split; [vm_compute; congruence|]. split; [apply znum_exact|]. vm_compute. reflexivity. Qed.

(** ** C16 *)
(** Once a running sum is not finite, stable_sum is NaN. *)
Theorem C16_overflow : forall (prec emax : Z) (Hp : Prec_gt_0 prec) (He : Prec_lt_emax prec emax), 1 < prec ->
  forall (A : src1 (binary_float prec emax)) l d k, yields A (map Ok l) -> is_finite (fsum prec emax (fzero prec emax) (firstn k l)) = false ->
  exists v, stable_sum (fnum prec emax) A d = Ok v /\ is_nan v = true.
Proof. exact stable_sum_nan. Qed.
Print Assumptions C16_overflow.

(** In particular for an array that contains an infinity or a NaN. *)
Theorem C16_special : forall (prec emax : Z) (Hp : Prec_gt_0 prec) (He : Prec_lt_emax prec emax), 1 < prec ->
  forall (A : src1 (binary_float prec emax)) l x d, yields A (map Ok l) -> In x l -> is_finite x = false ->
  exists v, stable_sum (fnum prec emax) A d = Ok v /\ is_nan v = true.
Proof. exact stable_sum_special. Qed.
Print Assumptions C16_special.

(** The plain sum of an array with one infinity, preceded by a finite sum and followed by finite elements, is that infinity. *)
Theorem C16_plain : forall (prec emax : Z) (Hp : Prec_gt_0 prec) (He : Prec_lt_emax prec emax)
  (A : src1 (binary_float prec emax)) y l1 l2 b d, yields A (map Ok (y :: l1 ++ B754_infinity b :: l2)) -> sums_finite prec emax y l1 ->
  Forall (fun y => is_finite y = true) l2 ->
  r_sum (fun x y => Ok (nadd (fnum prec emax) x y)) A d = Ok (B754_infinity b).
Proof. exact plain_sum_inf. Qed.
Print Assumptions C16_plain.
Example C16_case : let l := [dbl 1 0; dbl 2 0; dinf false; dbl 7 0] in yields (fsrc l) (map Ok l) /\ sums_finite 53 1024 (dbl 1 0) [dbl 2 0] /\
  show (stable_sum dF (fsrc l) (dbl 0 0)) = Some SpecFloat.S754_nan /\ show (r_sum (fun x y => Ok (nadd dF x y)) (fsrc l) (dbl 0 0)) = Some (SpecFloat.S754_infinity false) /\
  show (stable_sum dF (fsrc [dbl 1 1023; dbl 1 1023]) (dbl 0 0)) = Some SpecFloat.S754_nan.
Proof. cbv zeta. split; [apply yields_list; vm_compute; congruence|]. split; [apply fsum_finite_all; vm_compute; reflexivity|]. repeat split; vm_compute; reflexivity. Qed.

(** ** C40, C42: floating-point parts *)
(** linspace with one point is NaN for all end points. *)
Theorem C40_linspace_one : forall (prec emax : Z) (Hp : Prec_gt_0 prec) (He : Prec_lt_emax prec emax) (c : cfg) (a b : binary_float prec emax),
  let F := fnum prec emax in
  exists R, x_linspace c (fun x y => Ok (nadd F x y)) (fun x y => Ok (nsub F x y)) (fun x y => Ok (nmul F x y)) (fun x y => Ok (ndiv F x y)) (fun i => Ok (nofZ F i)) 1 a b = Ok R /\
    ssize R = 1 /\ sun R 0 = Ok B754_nan.
Proof. exact linspace_one. Qed.
Print Assumptions C40_linspace_one.
Example C40_linspace_one_case : show (R <- x_linspace c_dbg (fun x y => Ok (nadd dF x y)) (fun x y => Ok (nsub dF x y)) (fun x y => Ok (nmul dF x y)) (fun x y => Ok (ndiv dF x y)) (fun i => Ok (nofZ dF i)) 1 (dbl 3 0) (dbl 3 0) ;; sun R 0) = Some SpecFloat.S754_nan /\
  show (R <- x_linspace c_dbg (fun x y => Ok (nadd dF x y)) (fun x y => Ok (nsub dF x y)) (fun x y => Ok (nmul dF x y)) (fun x y => Ok (ndiv dF x y)) (fun i => Ok (nofZ dF i)) 3 (dbl 3 0) (dbl 5 0) ;; sun R 1) = Some (B2SF (dbl 4 0)).
Proof. split; vm_compute; reflexivity. Qed.

(** An array of floating-point numbers equals itself exactly when it contains no NaN. *)
Theorem C42_nan : forall (prec emax : Z) (A : src1 (binary_float prec emax)) l, yields A (map Ok l) ->
  ((forall x, In x l -> is_nan x = false) -> x_eq1 (neqo (@Beqb prec emax)) A A = Ok true) /\
  ((exists x, In x l /\ is_nan x = true) -> x_eq1 (neqo (@Beqb prec emax)) A A = Ok false /\ x_neq1 (neqo (@Beqb prec emax)) A A = Ok true).
Proof. exact eq_nan. Qed.
Print Assumptions C42_nan.
Example C42_nan_case : x_eq1 (neqo (@Beqb 53 1024)) (fsrc [dbl 1 0; dnan]) (fsrc [dbl 1 0; dnan]) = Ok false /\ x_eq1 (neqo (@Beqb 53 1024)) (fsrc [dbl 1 0; B754_zero true]) (fsrc [dbl 1 0; B754_zero false]) = Ok true.
Proof. split; vm_compute; reflexivity. Qed.

(** ** C44 *)
(** Unless the first element is NaN, max returns the largest of the elements that are not NaN ... *)
Theorem C44_max : forall (prec emax : Z) (Hp : Prec_gt_0 prec) (He : Prec_lt_emax prec emax) (A : src1 (binary_float prec emax)) x l d, yields A (map Ok (x :: l)) -> is_nan x = false ->
  exists v, r_max (ngt (fnum prec emax)) A d = Ok v /\ is_nan v = false /\ In v (x :: l) /\ forall y, In y (x :: l) -> is_nan y = false -> Bleb y v = true.
Proof. exact max_nonan. Qed.
Print Assumptions C44_max.
(** ... and min the smallest. *)
Theorem C44_min : forall (prec emax : Z) (Hp : Prec_gt_0 prec) (He : Prec_lt_emax prec emax) (A : src1 (binary_float prec emax)) x l d, yields A (map Ok (x :: l)) -> is_nan x = false ->
  exists v, r_min (nlt (fnum prec emax)) A d = Ok v /\ is_nan v = false /\ In v (x :: l) /\ forall y, In y (x :: l) -> is_nan y = false -> Bleb v y = true.
Proof. exact min_nonan. Qed.
Print Assumptions C44_min.
(** A NaN in first position is the minimum and the maximum. *)
Theorem C44_first : forall (prec emax : Z) (Hp : Prec_gt_0 prec) (He : Prec_lt_emax prec emax) (A : src1 (binary_float prec emax)) x l d, yields A (map Ok (x :: l)) -> is_nan x = true ->
  r_max (ngt (fnum prec emax)) A d = Ok B754_nan /\ r_min (nlt (fnum prec emax)) A d = Ok B754_nan.
Proof. exact minmax_nan. Qed.
Print Assumptions C44_first.
(** norm_inf likewise. *)
Theorem C44_norm_inf : forall (prec emax : Z) (Hp : Prec_gt_0 prec) (He : Prec_lt_emax prec emax) (A : src1 (binary_float prec emax)) x l d, yields A (map Ok (x :: l)) ->
  (is_nan x = true -> norm_inf (fnum prec emax) A d = Ok B754_nan) /\
  (is_nan x = false -> exists v, norm_inf (fnum prec emax) A d = Ok v /\ is_nan v = false /\ (exists y, In y (x :: l) /\ is_nan y = false /\ Beqb v (Babs y) = true) /\
    forall y, In y (x :: l) -> is_nan y = false -> Bleb (Babs y) v = true).
Proof. exact (fun prec emax Hp He A x l d HA => conj (norm_inf_nan prec emax A x l d HA) (norm_inf_nonan prec emax A x l d HA)). Qed.
Print Assumptions C44_norm_inf.
(** max_abs_error likewise, over the differences. *)
Theorem C44_max_abs_error : forall (prec emax : Z) (Hp : Prec_gt_0 prec) (He : Prec_lt_emax prec emax) (c : cfg) (A B : src1 (binary_float prec emax)) x y l k d,
  yields A (map Ok (x :: l)) -> yields B (map Ok (y :: k)) -> zlen l = zlen k ->
  (is_nan (Bminus mode_NE x y) = true -> max_abs_error (fnum prec emax) c A B d = Ok B754_nan) /\
  (is_nan (Bminus mode_NE x y) = false -> exists v, max_abs_error (fnum prec emax) c A B d = Ok v /\ is_nan v = false /\
    (exists a b, In (a, b) (combine (x :: l) (y :: k)) /\ is_nan (Bminus mode_NE a b) = false /\ Beqb v (Babs (Bminus mode_NE a b)) = true) /\
    forall a b, In (a, b) (combine (x :: l) (y :: k)) -> is_nan (Bminus mode_NE a b) = false -> Bleb (Babs (Bminus mode_NE a b)) v = true).
Proof. exact (fun prec emax Hp He c A B x y l k d HA HB HL => conj (max_abs_error_nan prec emax c A B x y l k d HA HB HL) (max_abs_error_nonan prec emax c A B x y l k d HA HB HL)). Qed.
Print Assumptions C44_max_abs_error.
Example C44_case : let l := [dbl 1 0; dnan; dbl (-5) 0; dbl 3 0] in yields (fsrc l) (map Ok l) /\
  show (r_max (ngt dF) (fsrc l) dnan) = Some (B2SF (dbl 3 0)) /\ show (r_min (nlt dF) (fsrc l) dnan) = Some (B2SF (dbl (-5) 0)) /\ show (norm_inf dF (fsrc l) dnan) = Some (B2SF (dbl 5 0)) /\
  show (r_max (ngt dF) (fsrc [dnan; dbl 1 0]) (dbl 0 0)) = Some SpecFloat.S754_nan.
Proof. cbv zeta. split; [apply yields_list; vm_compute; congruence|]. repeat split; vm_compute; reflexivity. Qed.
(** Data with a NaN can have a largest absolute error of zero. *)
Theorem C44_error_hidden_refuted : exists A B : list double, existsb is_nan A = true /\ show (max_abs_error (fnum 53 1024) c_dbg (fsrc A) (fsrc B) (dbl 1 0)) = Some (SpecFloat.S754_zero true).
Proof. exists [dbl 1 0; dnan], [dbl 1 0; dbl 1 0]. split; vm_compute; reflexivity. Qed.
Print Assumptions C44_error_hidden_refuted.

(** ** C53 *)
(** within_tol_abs: the rounded distance is at most the tolerance. *)
Theorem C53_abs : forall (prec emax : Z) (Hp : Prec_gt_0 prec) (He : Prec_lt_emax prec emax) (c : cfg) (x y tol : binary_float prec emax),
  is_finite x = true -> is_finite y = true -> is_finite tol = true -> Bleb (fzero prec emax) tol = true ->
  exists b : bool, within_tol_abs (fnum prec emax) c x y tol = Ok b /\ (b = true <-> (Rabs (near prec emax (B2R x - B2R y)) <= B2R tol)%R).
Proof. exact abs_value. Qed.
Print Assumptions C53_abs.
(** So no pair within the tolerance is rejected, and accepted pairs are within the tolerance up to one rounding. *)
Theorem C53_abs_sound : forall (prec emax : Z) (Hp : Prec_gt_0 prec) (He : Prec_lt_emax prec emax) (c : cfg) (x y tol : binary_float prec emax),
  is_finite x = true -> is_finite y = true -> is_finite tol = true -> Bleb (fzero prec emax) tol = true ->
  ((Rabs (B2R x - B2R y) <= B2R tol)%R -> within_tol_abs (fnum prec emax) c x y tol = Ok true) /\
  (within_tol_abs (fnum prec emax) c x y tol = Ok true -> (Rabs (B2R x - B2R y) <= (1 + uro prec) * B2R tol)%R).
Proof. exact abs_sound. Qed.
Print Assumptions C53_abs_sound.
(** Symmetric for all arguments, NaN and infinities included. *)
Theorem C53_abs_symmetric : forall (prec emax : Z) (Hp : Prec_gt_0 prec) (He : Prec_lt_emax prec emax) (c : cfg) (x y tol : binary_float prec emax),
  within_tol_abs (fnum prec emax) c x y tol = within_tol_abs (fnum prec emax) c y x tol.
Proof. exact abs_sym. Qed.
Print Assumptions C53_abs_symmetric.
(** Reflexive on finite numbers. *)
Theorem C53_abs_reflexive : forall (prec emax : Z) (Hp : Prec_gt_0 prec) (He : Prec_lt_emax prec emax) (c : cfg) (x tol : binary_float prec emax),
  is_finite x = true -> Bleb (fzero prec emax) tol = true -> within_tol_abs (fnum prec emax) c x x tol = Ok true.
Proof. exact abs_refl. Qed.
Print Assumptions C53_abs_reflexive.
(** Monotone in the tolerance. *)
Theorem C53_abs_monotone : forall (prec emax : Z) (Hp : Prec_gt_0 prec) (He : Prec_lt_emax prec emax) (c : cfg) (x y tol tol' : binary_float prec emax),
  Bleb (fzero prec emax) tol = true -> Bleb tol tol' = true -> within_tol_abs (fnum prec emax) c x y tol = Ok true -> within_tol_abs (fnum prec emax) c x y tol' = Ok true.
Proof. exact abs_mono. Qed.
Print Assumptions C53_abs_monotone.
(** NaN is near nothing, and an infinity is not near itself. *)
Theorem C53_abs_special : forall (prec emax : Z) (Hp : Prec_gt_0 prec) (He : Prec_lt_emax prec emax) (c : cfg) (x y tol : binary_float prec emax),
  Bleb (fzero prec emax) tol = true -> (is_nan x = true \/ is_nan y = true \/ exists s, x = B754_infinity s /\ y = B754_infinity s) ->
  within_tol_abs (fnum prec emax) c x y tol = Ok false.
Proof. exact abs_special. Qed.
Print Assumptions C53_abs_special.
(** within_tol_rel: both near zero, or the rounded relative distance at most the tolerance. *)
Theorem C53_rel : forall (prec emax : Z) (Hp : Prec_gt_0 prec) (He : Prec_lt_emax prec emax) (c : cfg) (x y tol nz : binary_float prec emax),
  is_finite x = true -> is_finite y = true -> is_finite (Bminus mode_NE x y) = true -> is_finite tol = true -> is_finite nz = true ->
  Bleb (fzero prec emax) tol = true -> Bleb (fzero prec emax) nz = true ->
  exists b : bool, within_tol_rel (fnum prec emax) c x y tol nz = Ok b /\
    (b = true <-> (Rmax (Rabs (B2R x)) (Rabs (B2R y)) <= B2R nz)%R \/
       (near prec emax (Rabs (near prec emax (B2R x - B2R y)) / Rmax (Rabs (B2R x)) (Rabs (B2R y))) <= B2R tol)%R).
Proof. exact rel_value. Qed.
Print Assumptions C53_rel.
(** Symmetric for arguments that are not NaN. *)
Theorem C53_rel_symmetric : forall (prec emax : Z) (Hp : Prec_gt_0 prec) (He : Prec_lt_emax prec emax) (c : cfg) (x y tol nz : binary_float prec emax),
  is_nan x = false -> is_nan y = false -> Bleb (fzero prec emax) nz = true ->
  within_tol_rel (fnum prec emax) c x y tol nz = within_tol_rel (fnum prec emax) c y x tol nz.
Proof. exact rel_sym. Qed.
Print Assumptions C53_rel_symmetric.
(** Reflexive on finite numbers. *)
Theorem C53_rel_reflexive : forall (prec emax : Z) (Hp : Prec_gt_0 prec) (He : Prec_lt_emax prec emax) (c : cfg) (x tol nz : binary_float prec emax),
  is_finite x = true -> Bleb (fzero prec emax) tol = true -> Bleb (fzero prec emax) nz = true -> within_tol_rel (fnum prec emax) c x x tol nz = Ok true.
Proof. exact rel_refl. Qed.
Print Assumptions C53_rel_reflexive.
(** Monotone in both tolerances. *)
Theorem C53_rel_monotone : forall (prec emax : Z) (Hp : Prec_gt_0 prec) (He : Prec_lt_emax prec emax) (c : cfg) (x y tol tol' nz nz' : binary_float prec emax),
  Bleb (fzero prec emax) tol = true -> Bleb tol tol' = true -> Bleb (fzero prec emax) nz = true -> Bleb nz nz' = true ->
  within_tol_rel (fnum prec emax) c x y tol nz = Ok true -> within_tol_rel (fnum prec emax) c x y tol' nz' = Ok true.
Proof. exact rel_mono. Qed.
Print Assumptions C53_rel_monotone.
(** A NaN in second position is rejected; in first position it is accepted whenever the other argument is near zero. *)
Theorem C53_rel_nan : forall (prec emax : Z) (Hp : Prec_gt_0 prec) (He : Prec_lt_emax prec emax) (c : cfg) (x tol nz : binary_float prec emax),
  Bleb (fzero prec emax) tol = true -> Bleb (fzero prec emax) nz = true ->
  within_tol_rel (fnum prec emax) c x B754_nan tol nz = Ok false /\ within_tol_rel (fnum prec emax) c B754_nan x tol nz = Ok (Bleb (Babs x) nz).
Proof. exact (fun prec emax Hp He c x tol nz HT HZ => conj (rel_nan_right prec emax c x tol nz HT HZ) (rel_nan_left prec emax c x tol nz HT HZ)). Qed.
Print Assumptions C53_rel_nan.
(** A negative or NaN tolerance is reported. *)
Theorem C53_tolerance : forall (prec emax : Z) (Hp : Prec_gt_0 prec) (He : Prec_lt_emax prec emax) (c : cfg) (x y tol nz : binary_float prec emax),
  checked c = true -> Bleb (fzero prec emax) tol = false -> within_tol_abs (fnum prec emax) c x y tol = Fail (report c) /\ within_tol_rel (fnum prec emax) c x y tol nz = Fail (report c).
Proof. exact tol_bad. Qed.
Print Assumptions C53_tolerance.
(** Arrays: all pairs. *)
Theorem C53_abs_arrays : forall (prec emax : Z) (Hp : Prec_gt_0 prec) (He : Prec_lt_emax prec emax) (c : cfg) (A B : src1 (binary_float prec emax)) l k tol d,
  yields A (map Ok l) -> yields B (map Ok k) -> zlen l = zlen k -> l <> [] -> Bleb (fzero prec emax) tol = true ->
  exists b : bool, within_tol_abs_arr (fnum prec emax) c A B tol d = Ok b /\ (b = true <-> forall x y, In (x, y) (combine l k) -> within_tol_abs (fnum prec emax) c x y tol = Ok true).
Proof. exact abs_array. Qed.
Print Assumptions C53_abs_arrays.
Theorem C53_rel_arrays : forall (prec emax : Z) (Hp : Prec_gt_0 prec) (He : Prec_lt_emax prec emax) (c : cfg) (A B : src1 (binary_float prec emax)) l k tol nz d,
  yields A (map Ok l) -> yields B (map Ok k) -> zlen l = zlen k -> l <> [] -> Bleb (fzero prec emax) tol = true -> Bleb (fzero prec emax) nz = true ->
  exists b : bool, within_tol_rel_arr (fnum prec emax) c A B tol nz d = Ok b /\ (b = true <-> forall x y, In (x, y) (combine l k) -> within_tol_rel (fnum prec emax) c x y tol nz = Ok true).
Proof. exact rel_array. Qed.
Print Assumptions C53_rel_arrays.
(** Different sizes are reported; empty arrays give the default. *)
Theorem C53_arrays_mismatch : forall (prec emax : Z) (Hp : Prec_gt_0 prec) (He : Prec_lt_emax prec emax) (c : cfg) (A B : src1 (binary_float prec emax)) tol nz d e,
  checked c = true -> ssize A <> ssize B ->
  within_tol_abs_arr (fnum prec emax) c A B tol d = Fail (report c) /\ within_tol_rel_arr (fnum prec emax) c A B tol nz d = Fail (report c) /\
  max_abs_error (fnum prec emax) c A B e = Fail (report c) /\ max_rel_error (fnum prec emax) c A B e = Fail (report c).
Proof. exact arrays_bad. Qed.
Print Assumptions C53_arrays_mismatch.
Theorem C53_arrays_empty : forall (prec emax : Z) (Hp : Prec_gt_0 prec) (He : Prec_lt_emax prec emax) (c : cfg) (A B : src1 (binary_float prec emax)) tol nz d e,
  yields A [] -> yields B [] ->
  within_tol_abs_arr (fnum prec emax) c A B tol d = Ok d /\ within_tol_rel_arr (fnum prec emax) c A B tol nz d = Ok d /\
  max_abs_error (fnum prec emax) c A B e = Ok e /\ max_rel_error (fnum prec emax) c A B e = Ok (Some e).
Proof. exact arrays_empty. Qed.
Print Assumptions C53_arrays_empty.
Example C53_case : let t := dbl 1 (-10) in Bleb (fzero 53 1024) t = true /\
  within_tol_abs dF c_dbg (dbl 1 0) (dbl 1025 (-10)) t = Ok true /\ within_tol_abs dF c_dbg (dbl 1 0) (dbl 1026 (-10)) t = Ok false /\ within_tol_abs dF c_dbg (dinf true) (dinf true) t = Ok false /\
  within_tol_rel dF c_dbg (dbl 1024 0) (dbl 1025 0) t t = Ok true /\ within_tol_rel dF c_dbg (dbl 1024 0) (dbl 1027 0) t t = Ok false /\
  within_tol_abs dF c_dbg (dbl 1 0) (dbl 1 0) (dbl (-1) 0) = Fail Throw /\
  within_tol_abs_arr dF c_dbg (fsrc [dbl 1 0; dbl 2 0]) (fsrc [dbl 1 0; dbl 2 0]) t false = Ok true /\ within_tol_rel_arr dF c_dbg (fsrc [dbl 1 0; dbl 2 0]) (fsrc [dbl 1 0; dbl 3 0]) t t false = Ok false.
Proof. repeat split; vm_compute; reflexivity. Qed.
(** within_tol_rel is not symmetric: (NaN, 0) is accepted and (0, NaN) rejected. *)
Theorem C53_rel_symmetric_refuted : exists x y t : double, Bleb (fzero 53 1024) t = true /\ within_tol_rel (fnum 53 1024) c_dbg x y t t = Ok true /\ within_tol_rel (fnum 53 1024) c_dbg y x t t = Ok false.
Proof. exists dnan, (dbl 0 0), (dbl 1 (-40)). repeat split; vm_compute; reflexivity. Qed.
Print Assumptions C53_rel_symmetric_refuted.
(** Without the condition on x - y, C53_rel fails: the relative distance of the largest double and its opposite is 2, but a tolerance of 3 rejects them. *)
Theorem C53_rel_overflow_refuted : exists x y t : double, is_finite x = true /\ is_finite y = true /\ Bleb (dbl 3 0) t = true /\ Beqb x (Bopp y) = true /\ within_tol_rel (fnum 53 1024) c_dbg x y t t = Ok false.
Proof. exists (dbl (2 ^ 53 - 1) 971), (dbl (1 - 2 ^ 53) 971), (dbl 3 0). repeat split; vm_compute; reflexivity. Qed.
Print Assumptions C53_rel_overflow_refuted.

(** ** C57 *)
(** The plain sum: the error grows with the number of elements times the sum of absolute values. *)
Theorem C57_plain : forall (prec emax : Z) (Hp : Prec_gt_0 prec) (He : Prec_lt_emax prec emax) (A : src1 (binary_float prec emax)) l d v, yields A (map Ok l) -> l <> [] ->
  r_sum (fun x y => Ok (nadd (fnum prec emax) x y)) A d = Ok v -> is_finite v = true ->
  (Rabs (B2R v - rsum (reals prec emax l)) <= ((1 + uro prec) ^ (length l - 1) - 1) * norm1 (reals prec emax l))%R.
Proof. exact plain_sum_acc. Qed.
Print Assumptions C57_plain.
(** stable_sum: the exact sum rounded once, plus a second order term; a finite result is all that is needed. *)
Theorem C57_stable_sum : forall (prec emax : Z) (Hp : Prec_gt_0 prec) (He : Prec_lt_emax prec emax), 1 < prec -> forall (A : src1 (binary_float prec emax)) l d v, yields A (map Ok l) -> l <> [] ->
  stable_sum (fnum prec emax) A d = Ok v -> is_finite v = true ->
  let u := uro prec in let G := ((1 + u) ^ length l - 1)%R in
  (Rabs (B2R v - rsum (reals prec emax l)) <= u * Rabs (rsum (reals prec emax l)) + (1 + u) * (G * G) * norm1 (reals prec emax l))%R.
Proof. exact stable_sum_acc. Qed.
Print Assumptions C57_stable_sum.
(** stable_dot_prod: the same bound over the exact products. *)
Theorem C57_stable_dot : forall (prec emax : Z) (Hp : Prec_gt_0 prec) (He : Prec_lt_emax prec emax), 1 < prec -> forall (c : cfg) (A B : src1 (binary_float prec emax)) l k d v,
  yields A (map Ok l) -> yields B (map Ok k) -> zlen l = zlen k -> l <> [] -> no_underflows prec emax l k ->
  stable_dot_prod (fnum prec emax) c A B d = Ok v -> is_finite v = true ->
  let u := uro prec in let G := ((1 + u) ^ length l - 1)%R in let xy := products Rmult (reals prec emax l) (reals prec emax k) in
  (Rabs (B2R v - rsum xy) <= u * Rabs (rsum xy) + (1 + u) * (G * G) * norm1 xy)%R.
Proof. exact stable_dot_acc. Qed.
Print Assumptions C57_stable_dot.
Example C57_case : yields (fsrc hard) (map Ok hard) /\ hard <> [] /\ (exists v, stable_sum dF (fsrc hard) (dbl 0 0) = Ok v /\ is_finite v = true) /\
  no_underflows 53 1024 hard2 hard3 /\ (exists v, stable_dot_prod dF c_dbg (fsrc hard2) (fsrc hard3) (dbl 0 0) = Ok v /\ is_finite v = true).
Proof.
  split; [apply yields_list; vm_compute; congruence|]. split; [discriminate|]. split; [eexists; split; [reflexivity|vm_compute; reflexivity]|]. split; [apply nubs_ok; vm_compute; reflexivity|]. eexists. split; [reflexivity|vm_compute; reflexivity].
Qed.
