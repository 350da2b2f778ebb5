(** Property C82: rounding errors of the plain and the semi-stable reductions. *)
From Coq Require Import ZArith Reals Lra Lia.
From Flocq Require Import Core BinarySingleNaN.
From Verif Require Import Base.Outcome Base.ZList Model.IntModel Model.Index Model.Array1D Model.Array2D Model.View2D Model.Expr Model.Reduce Model.StableOps Model.FloatModel.
From Verif Require Import Spec.ExprSpec Spec.ReduceSpec Spec.NormSpec Spec.StableSpec Spec.FloatSpec Spec.LpSpec Spec.PlainSpec Spec.Configs.
From Verif Require Import Proofs.ExprMore Proofs.FloatProd Proofs.StableNorms Proofs.PlainAcc Proofs.PlainCases.
Import ListNotations.
Local Open Scope Z_scope.

(** Below n is the number of elements, u the unit roundoff, so (1 + u)^k - 1 is about k u, and tiny half the smallest positive
    number.  The results are only assumed to be finite; then no intermediate value overflowed. *)
Section ANY_FORMAT.
Context (prec emax : Z) {Hp : Prec_gt_0 prec} {He : Prec_lt_emax prec emax} (P2 : 1 < prec).
Notation flt := (binary_float prec emax).
Notation F := (fnum prec emax).
Notation val := (@B2R prec emax).
Notation fin x := (is_finite x = true).
Notation u := (uro prec).
Notation vals := (reals prec emax).
Notation tiny := (tiny prec emax).
Notation add := (add_f prec emax).
Notation mul := (mul_f prec emax).
Notation div := (div_f prec emax).
Notation cast := (cast_f prec emax).
Notation zero := (fzero prec emax).
Notation dots l k := (products Rmult (vals l) (vals k)).
Notation whole := (whole prec emax).

(** ** Dot products and matrix-vector products *)
Theorem C82_dot_prod : forall (c : cfg) (A B : src1 flt) l k, yields A (map Ok l) -> yields B (map Ok k) -> zlen l = zlen k -> l <> [] ->
  forall d v, r_dot c add mul zero A B d = Ok v -> fin v -> let n := length l in
  (Rabs (val v - rsum (dots l k)) <= ((1 + u) ^ n - 1) * norm1 (dots l k) + (1 + u) ^ (n - 1) * (INR n * tiny))%R.
Proof. exact (dot_acc prec emax). Qed.
(** Row by row, with the rounding errors of a dot product. *)
Theorem C82_matvec_prod : forall (c : cfg) (A : src2 flt) (x : src1 flt) m f l, yields2 A (mkmx m (zlen l) (fun i j => Ok (f i j))) -> yields x (map Ok l) -> 0 < m -> l <> [] ->
  exists R vs, x_matvec c zero add mul A x = Ok R /\ yields R (map Ok vs) /\ zlen vs = m /\
  forall i v, znth vs i = Some v -> fin v -> let n := length l in let row := map (f i) (zseq 0 n) in
  (Rabs (val v - rsum (dots row l)) <= ((1 + u) ^ n - 1) * norm1 (dots row l) + (1 + u) ^ (n - 1) * (INR n * tiny))%R.
Proof. exact (matvec_acc prec emax). Qed.

(** ** Means, norms and products *)
Theorem C82_mean : forall (A : src1 flt) l, yields A (map Ok l) -> l <> [] -> forall d v, zlen l <= 2 ^ prec ->
  r_mean add div cast zero A d = Ok v -> fin v -> let n := IZR (zlen l) in
  (Rabs (val v - rsum (vals l) / n) <= u * (Rabs (rsum (vals l)) / n) + (1 + u) * ((1 + u) ^ (length l - 1) - 1) * (norm1 (vals l) / n) + tiny)%R.
Proof. exact (mean_acc prec emax P2). Qed.
Theorem C82_norm1 : forall (A : src1 flt) l, yields A (map Ok l) -> l <> [] -> forall d v, r_norm1 add (nabs F) zero A d = Ok v -> fin v ->
  (Rabs (val v - norm1 (vals l)) <= ((1 + u) ^ (length l - 1) - 1) * norm1 (vals l))%R.
Proof. exact (norm1_acc prec emax). Qed.
Theorem C82_norm1_scaled : forall (A : src1 flt) l, yields A (map Ok l) -> l <> [] -> forall d v, zlen l <= 2 ^ prec ->
  r_norm1_scaled add div cast (nabs F) zero A d = Ok v -> fin v -> let n := IZR (zlen l) in
  (Rabs (val v - norm1 (vals l) / n) <= ((1 + u) ^ length l - 1) * (norm1 (vals l) / n) + tiny)%R.
Proof. exact (norm1_scaled_acc prec emax P2). Qed.
Theorem C82_norm2 : forall (c : cfg) (A : src1 flt) l, yields A (map Ok l) -> l <> [] -> forall d v, no_underflows prec emax l l ->
  r_norm2 c add mul (fsqrt prec emax) zero A d = Ok v -> fin v -> let G := ((1 + u) ^ length l - 1)%R in
  (Rabs (val v - norm2 (vals l)) <= (u + (1 + u) * (G / 2 + G * G / 2)) * norm2 (vals l))%R.
Proof. exact (norm2_acc prec emax). Qed.
Theorem C82_norm2_scaled : forall (c : cfg) (A : src1 flt) l, yields A (map Ok l) -> l <> [] -> forall d v, zlen l <= 2 ^ prec -> no_underflows prec emax l l ->
  r_norm2_scaled c add mul div cast (fsqrt prec emax) zero A d = Ok v -> fin v ->
  let n := IZR (zlen l) in let G := ((1 + u) ^ length l - 1)%R in let D := (u + (1 + u) * (G / 2 + G * G / 2))%R in
  (Rabs (val v - norm2 (vals l) / sqrt n) <= (u + (1 + u) * ((D + u) / (1 - u))) * (norm2 (vals l) / sqrt n) + tiny)%R.
Proof. exact (norm2_scaled_acc prec emax P2). Qed.
Theorem C82_prod : forall (A : src1 flt) x l d v, yields A (map Ok (x :: l)) -> steps_no_underflow prec emax x l -> r_prod mul A d = Ok v -> fin v ->
  (Rabs (val v - rprod (vals (x :: l))) <= ((1 + u) ^ length l - 1) * Rabs (rprod (vals (x :: l))))%R.
Proof. exact (prod_acc prec emax). Qed.
(** polynomial: coefficients l0, ..., a with a the leading one; two roundings per degree. *)
Theorem C82_polynomial : forall (c : cfg) (A : src1 flt) l a x d v, yields A (map Ok (l ++ [a])) -> r_poly c add mul A x d = Ok v -> fin v ->
  let X := val x in let p := ((1 + u) ^ (2 * length l))%R in let terms := poly_terms 1%R Rmult X 0 (vals (l ++ [a])) in
  (Rabs (val v - rsum terms) <= (p - 1) * norm1 terms + p * (tiny * rsum (poly_terms 1%R Rmult (Rabs X) 0 (repeat 1%R (length l)))))%R.
Proof. exact (poly_acc prec emax). Qed.

(** ** Semi-stable summation *)
(** The number of elements enters only through the square of (1 + u)^(n / 64) - 1: about 66 u for every practical length. *)
Theorem C82_semi_stable_sum : forall (c : cfg) (A : src1 flt) l d v, yields A (map Ok l) -> l <> [] -> zlen l / 64 <= amax c ->
  semi_stable_sum F c A d = Ok v -> fin v -> let K := ((1 + u) ^ Z.to_nat (zlen l / 64) - 1)%R in
  (Rabs (val v - rsum (vals l)) <= ((1 + u) ^ 66 * (1 + K * K) - 1) * norm1 (vals l))%R.
Proof. exact (semi_acc prec emax P2). Qed.
Theorem C82_semi_stable_dot_prod : forall (c : cfg) (A B : src1 flt) l k d v, yields A (map Ok l) -> yields B (map Ok k) -> zlen l = zlen k -> l <> [] -> zlen l / 64 <= amax c ->
  semi_stable_dot_prod F c A B d = Ok v -> fin v -> let K := ((1 + u) ^ Z.to_nat (zlen l / 64) - 1)%R in
  (Rabs (val v - rsum (dots l k)) <= ((1 + u) ^ 67 * (1 + K * K) - 1) * norm1 (dots l k) + (1 + u) ^ 66 * (1 + K * K) * (INR (length l) * tiny))%R.
Proof. exact (semi_dot_acc prec emax P2). Qed.

(** ** Whole numbers *)
(** No rounding at all while the absolute values add up to at most 2^prec. *)
Theorem C82_whole_numbers : forall (c : cfg) (A : src1 flt) l, yields A (map Ok l) -> l <> [] -> Forall whole l -> (norm1 (vals l) <= bpow radix2 prec)%R -> forall d,
  (exists v, r_sum add A d = Ok v /\ whole v /\ val v = rsum (vals l)) /\
  (exists v, stable_sum F A d = Ok v /\ whole v /\ val v = rsum (vals l)) /\
  (zlen l / 64 <= amax c -> exists v, semi_stable_sum F c A d = Ok v /\ whole v /\ val v = rsum (vals l)).
Proof. exact (sums_whole prec emax P2). Qed.
Theorem C82_whole_dot_prod : forall (c : cfg) (A B : src1 flt) l k d, yields A (map Ok l) -> yields B (map Ok k) -> zlen l = zlen k -> l <> [] -> Forall whole l -> Forall whole k ->
  (norm1 (dots l k) <= bpow radix2 prec)%R -> exists v, r_dot c add mul zero A B d = Ok v /\ whole v /\ val v = rsum (dots l k).
Proof. exact (dot_whole prec emax P2). Qed.
End ANY_FORMAT.
Print Assumptions C82_dot_prod.
Print Assumptions C82_matvec_prod.
Print Assumptions C82_mean.
Print Assumptions C82_norm1.
Print Assumptions C82_norm1_scaled.
Print Assumptions C82_norm2.
Print Assumptions C82_norm2_scaled.
Print Assumptions C82_prod.
Print Assumptions C82_polynomial.
Print Assumptions C82_semi_stable_sum.
Print Assumptions C82_semi_stable_dot_prod.
Print Assumptions C82_whole_numbers.
Print Assumptions C82_whole_dot_prod.

(** ** semi_stable_dot_prod over exact arithmetic, and its checks *)
Theorem C82_semi_dot_exact : forall (V : Type) (N : num V) (c : cfg), exact_num N -> forall (A B : src1 V) l k d, yields A (map Ok l) -> yields B (map Ok k) -> zlen l = zlen k -> l <> [] ->
  zlen l / 64 <= amax c -> semi_stable_dot_prod N c A B d = Ok (total (nadd N) (nzero N) (products (nmul N) l k)).
Proof. exact @semi_dot_exact. Qed.
Print Assumptions C82_semi_dot_exact.
Theorem C82_semi_dot_other : forall (V : Type) (N : num V) (c : cfg) (A B : src1 V) l k d, yields A l -> yields B k ->
  (zlen l <> zlen k -> checked c = true -> semi_stable_dot_prod N c A B d = Fail (report c)) /\ (l = [] -> k = [] -> semi_stable_dot_prod N c A B d = Ok d).
Proof. exact @semi_dot_other. Qed.
Print Assumptions C82_semi_dot_other.

(** ** Claim refuted: the error of a plain sum does not depend on the number of elements *)
(** However many times 2^-53 is added to 1, the sum remains 1. *)
Theorem C82_plain_sum_refuted : forall N : nat, let l := dbl 1 0 :: repeat (dbl 1 (-53)) N in zlen l <= LONG_MAX ->
  r_sum (add_f 53 1024) (src_of_list l) dnan = Ok (dbl 1 0) /\ B2R (dbl 1 0) = 1%R /\ rsum (reals 53 1024 l) = (1 + INR N * bpow radix2 (-53))%R.
Proof. exact plain_stuck. Qed.
Print Assumptions C82_plain_sum_refuted.

(** ** Cases *)
Definition some : list double := [dbl 3 0; dbl (-4) 0; dbl 1 (-60)].
Definition many : list double := some ++ repeat (dbl 1 (-3)) 130.
Definition finite_ok (x : outcome double) : bool := match x with Ok v => is_finite v | _ => false end.
Notation D := (fnum 53 1024).
Notation ad := (add_f 53 1024).
Notation ml := (mul_f 53 1024).
Example C82_case : 1 < 53 /\ yields (src_of_list some) (map Ok some) /\ zlen some <= 2 ^ 53 /\ no_underflows 53 1024 some some /\ steps_no_underflow 53 1024 (dbl 3 0) [dbl (-4) 0; dbl 1 (-60)] /\
  yields (src_of_list many) (map Ok many) /\ zlen many / 64 <= amax c_dbg /\
  forallb finite_ok [r_dot c_dbg ad ml (fzero 53 1024) (src_of_list some) (src_of_list some) dnan; r_mean ad (div_f 53 1024) (cast_f 53 1024) (fzero 53 1024) (src_of_list some) dnan;
    r_norm1 ad (nabs D) (fzero 53 1024) (src_of_list some) dnan; r_norm1_scaled ad (div_f 53 1024) (cast_f 53 1024) (nabs D) (fzero 53 1024) (src_of_list some) dnan;
    r_norm2 c_dbg ad ml (fsqrt 53 1024) (fzero 53 1024) (src_of_list some) dnan; r_norm2_scaled c_dbg ad ml (div_f 53 1024) (cast_f 53 1024) (fsqrt 53 1024) (fzero 53 1024) (src_of_list some) dnan;
    r_prod ml (src_of_list some) dnan; r_poly c_dbg ad ml (src_of_list some) (dbl 5 (-1)) dnan; semi_stable_sum D c_dbg (src_of_list many) dnan;
    semi_stable_dot_prod D c_dbg (src_of_list many) (src_of_list many) dnan] = true.
Proof.
  split; [reflexivity|]. split; [apply (yields_list some); vm_compute; congruence|]. split; [vm_compute; congruence|]. split; [apply nubs_ok; vm_compute; reflexivity|]. split; [apply snubs_ok; vm_compute; reflexivity|].
  split; [apply (yields_list many); vm_compute; congruence|]. split; [vm_compute; congruence|]. vm_compute. reflexivity.
Qed.
Example C82_whole_case : Forall (whole 53 1024) [dbl 3 0; dbl (-4) 0; dbl 1 52] /\ (norm1 (reals 53 1024 [dbl 3 0; dbl (-4) 0; dbl 1 52]) <= bpow radix2 53)%R.
Proof. exact whole_case. Qed.
Example C82_matvec_case : exists A, yields2 A (mkmx 2 (zlen some) (fun i j => Ok (dbl (i + j) 0))).
Proof. exact matvec_case. Qed.
