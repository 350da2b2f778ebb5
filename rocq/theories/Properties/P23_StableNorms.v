(** Property C69: stable means and norms. *)
From Coq Require Import ZArith Reals Lra Lia.
From Flocq Require Import Core BinarySingleNaN.
From Verif Require Import Base.Outcome Base.ZList Model.IntModel Model.Index Model.Array1D Model.Expr Model.Reduce Model.StableOps Model.FloatModel.
From Verif Require Import Spec.ExprSpec Spec.ReduceSpec Spec.NormSpec Spec.StableSpec Spec.FloatSpec Spec.LpSpec Spec.Configs.
Import ListNotations.
From Verif Require Import Proofs.ExprMore Proofs.FloatProd Proofs.StableNorms.
Local Open Scope Z_scope.

(** ** C69: values over the real numbers *)
(** stable_mean, stable_norm1, stable_norm1_scaled, stable_norm2 and stable_norm2_scaled of a non-empty array. *)
Theorem C69_values : forall (c : cfg) (A : src1 R) l, yields A (map Ok l) -> l <> [] -> forall d, let n := IZR (zlen l) in
  stable_mean rnum A d = Ok (rsum l / n)%R /\ stable_norm1 rnum A d = Ok (norm1 l) /\ stable_norm1_scaled rnum A d = Ok (norm1 l / n)%R /\
  stable_norm2 rnum c sqrt A d = Ok (norm2 l) /\ stable_norm2_scaled rnum c sqrt A d = Ok (norm2 l / sqrt n)%R.
Proof. exact stable_values. Qed.
Print Assumptions C69_values.
(** The functions without the prefix have the same values. *)
Theorem C69_plain : forall (c : cfg) (A : src1 R) l, yields A (map Ok l) -> l <> [] -> forall d, let n := IZR (zlen l) in
  r_mean radd rdiv rcast 0%R A d = Ok (rsum l / n)%R /\ r_norm1 radd Rabs 0%R A d = Ok (norm1 l) /\ r_norm1_scaled radd rdiv rcast Rabs 0%R A d = Ok (norm1 l / n)%R /\
  r_norm2 c radd rmul sqrt 0%R A d = Ok (norm2 l) /\ r_norm2_scaled c radd rmul rdiv rcast sqrt 0%R A d = Ok (norm2 l / sqrt n)%R.
Proof. exact plain_values. Qed.
Print Assumptions C69_plain.
Example C69_values_case : yields (src_of_list [3; -4]%R) (map Ok [3; -4]%R) /\ (rsum [3; -4] / IZR (zlen [3; -4]%R) = - / 2)%R /\ (norm1 [3; -4] = 7)%R /\ (norm2 [3; -4] = 5)%R.
Proof.
  split; [apply (yields_list [3; -4]%R); vm_compute; congruence|]. unfold rsum, norm1, norm2, rsum, total. cbn [map fold_right zlen length Z.of_nat Pos.of_succ_nat Pos.succ].
  split; [lra|]. split; [rewrite Rabs_pos_eq, Rabs_left by lra; lra|]. replace (3 * 3 + (-4 * -4 + 0))%R with (5 * 5)%R by ring. apply sqrt_square. lra.
Qed.
(** An empty array gives the default, without reading anything, in either family. *)
Theorem C69_empty : forall (V : Type) (N : num V) (c : cfg) sq (A : src1 V) d, yields A [] ->
  stable_mean N A d = Ok d /\ stable_norm1 N A d = Ok d /\ stable_norm1_scaled N A d = Ok d /\ stable_norm2 N c sq A d = Ok d /\ stable_norm2_scaled N c sq A d = Ok d.
Proof. exact @stable_means_empty. Qed.
Print Assumptions C69_empty.
Theorem C69_plain_empty : forall (V : Type) (c : cfg) add mul div cast abs sq zero (A : src1 V) d, yields A [] ->
  r_mean add div cast zero A d = Ok d /\ r_norm1 add abs zero A d = Ok d /\ r_norm1_scaled add div cast abs zero A d = Ok d /\
  r_norm2 c add mul sq zero A d = Ok d /\ r_norm2_scaled c add mul div cast sq zero A d = Ok d.
Proof. exact @means_empty. Qed.
Print Assumptions C69_plain_empty.
Example C69_empty_case : yields (src_of_list (@nil R)) [] /\ yields (src_of_list (@nil Z)) [].
Proof. split; [apply (yields_list (@nil R))|apply (yields_list (@nil Z))]; vm_compute; congruence. Qed.

(** ** C69: accuracy *)
(** Below u is the unit roundoff, G = (1 + u)^n - 1 (about n u) and 2^(2 - emax - prec) half the smallest positive number.
    stable_norm1: the relative error is one rounding plus a term of order n^2 u^2. *)
Theorem C69_norm1 : forall prec emax (Hp : Prec_gt_0 prec) (He : Prec_lt_emax prec emax), 1 < prec -> forall (A : src1 (binary_float prec emax)) l, yields A (map Ok l) -> l <> [] ->
  forall d v, stable_norm1 (fnum prec emax) A d = Ok v -> is_finite v = true ->
  let u := uro prec in let G := ((1 + u) ^ length l - 1)%R in
  (Rabs (B2R v - norm1 (reals prec emax l)) <= (u + (1 + u) * (G * G)) * norm1 (reals prec emax l))%R.
Proof. exact norm1_acc. Qed.
Print Assumptions C69_norm1.
(** stable_mean and stable_norm1_scaled: one more rounding, and the error of an underflowing quotient.  The number of elements must be
    exactly representable. *)
Theorem C69_mean : forall prec emax (Hp : Prec_gt_0 prec) (He : Prec_lt_emax prec emax), 1 < prec -> forall (A : src1 (binary_float prec emax)) l, yields A (map Ok l) -> l <> [] ->
  forall d v, zlen l <= 2 ^ prec -> stable_mean (fnum prec emax) A d = Ok v -> is_finite v = true ->
  let u := uro prec in let G := ((1 + u) ^ length l - 1)%R in let n := IZR (zlen l) in
  (Rabs (B2R v - rsum (reals prec emax l) / n) <=
   (2 * u + u * u) * (Rabs (rsum (reals prec emax l)) / n) + (1 + u) * (1 + u) * (G * G) * (norm1 (reals prec emax l) / n) + bpow radix2 (2 - emax - prec))%R.
Proof. exact mean_acc. Qed.
Print Assumptions C69_mean.
Theorem C69_norm1_scaled : forall prec emax (Hp : Prec_gt_0 prec) (He : Prec_lt_emax prec emax), 1 < prec -> forall (A : src1 (binary_float prec emax)) l, yields A (map Ok l) -> l <> [] ->
  forall d v, zlen l <= 2 ^ prec -> stable_norm1_scaled (fnum prec emax) A d = Ok v -> is_finite v = true ->
  let u := uro prec in let G := ((1 + u) ^ length l - 1)%R in let E := (u + (1 + u) * (G * G))%R in let n := IZR (zlen l) in
  (Rabs (B2R v - norm1 (reals prec emax l) / n) <= (u + (1 + u) * E) * (norm1 (reals prec emax l) / n) + bpow radix2 (2 - emax - prec))%R.
Proof. exact norm1_scaled_acc. Qed.
Print Assumptions C69_norm1_scaled.
(** stable_norm2: about 3/2 u, provided the squares are not in the underflow range. *)
Theorem C69_norm2 : forall prec emax (Hp : Prec_gt_0 prec) (He : Prec_lt_emax prec emax), 1 < prec -> forall (c : cfg) (A : src1 (binary_float prec emax)) l, yields A (map Ok l) -> l <> [] ->
  forall d v, no_underflows prec emax l l -> stable_norm2 (fnum prec emax) c (fsqrt prec emax) A d = Ok v -> is_finite v = true ->
  let u := uro prec in let G := ((1 + u) ^ length l - 1)%R in let E := (u + (1 + u) * (G * G))%R in
  (Rabs (B2R v - norm2 (reals prec emax l)) <= (u + (1 + u) * (E / 2 + E * E / 2)) * norm2 (reals prec emax l))%R.
Proof. exact norm2_acc. Qed.
Print Assumptions C69_norm2.
Theorem C69_norm2_scaled : forall prec emax (Hp : Prec_gt_0 prec) (He : Prec_lt_emax prec emax), 1 < prec -> forall (c : cfg) (A : src1 (binary_float prec emax)) l, yields A (map Ok l) -> l <> [] ->
  forall d v, zlen l <= 2 ^ prec -> no_underflows prec emax l l -> stable_norm2_scaled (fnum prec emax) c (fsqrt prec emax) A d = Ok v -> is_finite v = true ->
  let u := uro prec in let G := ((1 + u) ^ length l - 1)%R in let E := (u + (1 + u) * (G * G))%R in let D := (u + (1 + u) * (E / 2 + E * E / 2))%R in let n := IZR (zlen l) in
  (Rabs (B2R v - norm2 (reals prec emax l) / sqrt n) <= (u + (1 + u) * ((D + u) / (1 - u))) * (norm2 (reals prec emax l) / sqrt n) + bpow radix2 (2 - emax - prec))%R.
Proof. exact norm2_scaled_acc. Qed.
Print Assumptions C69_norm2_scaled.
Definition some : list double := [dbl 3 0; dbl (-4) 0; dbl 1 (-60)].
Definition some_src : src1 double := src_of_list some.
Definition finite_ok (x : outcome double) : bool := match x with Ok v => is_finite v | _ => false end.
Example C69_accuracy_case : yields some_src (map Ok some) /\ some <> [] /\ zlen some <= 2 ^ 53 /\ no_underflows 53 1024 some some /\
  forallb finite_ok [stable_mean (fnum 53 1024) some_src dnan; stable_norm1 (fnum 53 1024) some_src dnan; stable_norm1_scaled (fnum 53 1024) some_src dnan;
    stable_norm2 (fnum 53 1024) c_dbg (fsqrt 53 1024) some_src dnan; stable_norm2_scaled (fnum 53 1024) c_dbg (fsqrt 53 1024) some_src dnan] = true.
Proof.
  split; [apply (yields_list some); vm_compute; congruence|]. split; [discriminate|]. split; [vm_compute; congruence|]. split; [apply nubs_ok; vm_compute; reflexivity|]. vm_compute. reflexivity.
Qed.

(** ** C69: overflow and special values *)
(** stable_dot_prod is NaN as soon as one product is not finite: infinite or NaN factors, or overflow of the product. *)
Theorem C69_dot_special : forall prec emax (Hp : Prec_gt_0 prec) (He : Prec_lt_emax prec emax) (c : cfg) (A B : src1 (binary_float prec emax)) l k d a b,
  yields A (map Ok l) -> yields B (map Ok k) -> zlen l = zlen k -> In (a, b) (combine l k) -> is_finite (fmul prec emax a b) = false ->
  exists v, stable_dot_prod (fnum prec emax) c A B d = Ok v /\ is_nan v = true.
Proof. exact dot_special. Qed.
Print Assumptions C69_dot_special.
(** stable_norm2 and stable_norm2_scaled are NaN as soon as one square is not finite. *)
Theorem C69_norm2_special : forall prec emax (Hp : Prec_gt_0 prec) (He : Prec_lt_emax prec emax) (c : cfg) (A : src1 (binary_float prec emax)) l d x,
  yields A (map Ok l) -> In x l -> is_finite (fmul prec emax x x) = false ->
  exists v w, stable_norm2 (fnum prec emax) c (fsqrt prec emax) A d = Ok v /\ stable_norm2_scaled (fnum prec emax) c (fsqrt prec emax) A d = Ok w /\ is_nan v = true /\ is_nan w = true.
Proof. exact norm2_special. Qed.
Print Assumptions C69_norm2_special.
Definition large : list double := [dbl 1 0; dbl 1 600].
Example C69_special_case : yields (src_of_list large) (map Ok large) /\ In (dbl 1 600) large /\ In (dbl 1 600, dbl 1 600) (combine large large) /\ is_finite (fmul 53 1024 (dbl 1 600) (dbl 1 600)) = false.
Proof. split; [apply (yields_list large); vm_compute; congruence|]. split; [right; left; reflexivity|]. split; [right; left; reflexivity|]. vm_compute. reflexivity. Qed.
(** Claim refuted: the norm of finite numbers, itself far from overflow, is returned.  The array [2^600] has norm 2^600; stable_norm2
    returns NaN, where norm2 returns infinity. *)
Theorem C69_norm2_overflow_refuted : exists x : double, is_finite x = true /\ yields (src_of_list [x]) [Ok x] /\
  (exists v, stable_norm2 (fnum 53 1024) c_dbg (fsqrt 53 1024) (src_of_list [x]) (fzero 53 1024) = Ok v /\ is_nan v = true) /\
  r_norm2 c_dbg (fun a b => Ok (fadd 53 1024 a b)) (fun a b => Ok (fmul 53 1024 a b)) (fsqrt 53 1024) (fzero 53 1024) (src_of_list [x]) (fzero 53 1024) = Ok (dinf false).
Proof.
  exists (dbl 1 600). split; [vm_compute; reflexivity|]. split; [apply (yields_list [dbl 1 600]); vm_compute; congruence|]. split; [|vm_compute; reflexivity].
  eexists. split; [reflexivity|vm_compute; reflexivity].
Qed.
Print Assumptions C69_norm2_overflow_refuted.
(** Claim refuted: without the underflow condition the relative error is small.  The array [2^-600] has norm 2^-600; the result is 0. *)
Theorem C69_norm2_underflow_refuted : exists x : double, is_finite x = true /\ Beqb x (fzero 53 1024) = false /\ yields (src_of_list [x]) [Ok x] /\
  (exists v, stable_norm2 (fnum 53 1024) c_dbg (fsqrt 53 1024) (src_of_list [x]) (fzero 53 1024) = Ok v /\ Beqb v (fzero 53 1024) = true).
Proof.
  exists (dbl 1 (-600)). split; [vm_compute; reflexivity|]. split; [vm_compute; reflexivity|]. split; [apply (yields_list [dbl 1 (-600)]); vm_compute; congruence|].
  eexists. split; [reflexivity|vm_compute; reflexivity].
Qed.
Print Assumptions C69_norm2_underflow_refuted.
(** Claim refuted: the mean lies between the least and the greatest element.  The mean of two elements equal to 2^1023 is NaN. *)
Theorem C69_mean_overflow_refuted : exists x : double, is_finite x = true /\ yields (src_of_list [x; x]) [Ok x; Ok x] /\
  (exists v, stable_mean (fnum 53 1024) (src_of_list [x; x]) (fzero 53 1024) = Ok v /\ is_nan v = true).
Proof.
  exists (dbl 1 1023). split; [vm_compute; reflexivity|]. split; [apply (yields_list [dbl 1 1023; dbl 1 1023]); vm_compute; congruence|]. eexists. split; [reflexivity|vm_compute; reflexivity].
Qed.
Print Assumptions C69_mean_overflow_refuted.
