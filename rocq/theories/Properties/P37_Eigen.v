(** Property C83: matrix products through Eigen. *)
From Coq Require Import ZArith List Permutation Reals Lra Lia.
From Flocq Require Import Core BinarySingleNaN.
From Verif Require Import Base.Outcome Base.ZList Model.IntModel Model.ScalarOps Model.Index Model.Array1D Model.Array2D Model.StableOps Model.FloatModel Model.Eigen.
From Verif Require Import Spec.MatrixSpec Spec.ReduceSpec Spec.NormSpec Spec.StableSpec Spec.FloatSpec Spec.PlainSpec Spec.EigenSpec Spec.Configs.
From Verif Require Import Proofs.Array2DProofs Proofs.EigenProofs Proofs.EigenAcc.
Import ListNotations.
Local Open Scope Z_scope.

(** ** Maps *)
(** A Map reads the elements of its array, at the same indices. *)
Theorem C83_map_read : forall {V} (c : cfg), cfg_ok c -> forall (h : objs V) p M i j, rep2 (h p) M -> zlen M * ncols M <= amax c -> 0 <= i < zlen M -> 0 <= j < ncols M ->
  e_rows (e_map h p) = zlen M /\ e_cols (e_map h p) = ncols M /\ exists v, mget M i j = Some v /\ e_get h (e_map h p) i j = Ok v.
Proof. intros V c Hc h. exact (map_get c Hc h). Qed.
(** Writing through a Map changes that element of the array and nothing else. *)
Theorem C83_map_write : forall {V} (c : cfg), cfg_ok c -> forall (h : objs V) p M i j v, rep2 (h p) M -> zlen M * ncols M <= amax c -> 0 <= i < zlen M -> 0 <= j < ncols M ->
  exists h', e_set h (e_map h p) i j v = Ok h' /\ (forall q, q <> p -> h' q = h q) /\
  exists M', rep2 (h' p) M' /\ zlen M' = zlen M /\ ncols M' = ncols M /\
    forall i' j', 0 <= i' < zlen M -> 0 <= j' < ncols M -> mget M' i' j' = if (i' =? i) && (j' =? j) then Some v else mget M i' j'.
Proof. intros V c Hc h. exact (map_set c Hc h). Qed.
(** The alignment promised to Eigen is one the array has, whatever its alignment; the alignments of the library are passed on. *)
Theorem C83_alignment : (forall al addr, (al <> 0 -> (al | addr)) -> eigen_align al <> 0 -> (eigen_align al | addr)) /\ forall f, eigen_align (alignment_of f) = alignment_of f.
Proof. split; [exact align_safe|exact align_kept]. Qed.
Print Assumptions C83_map_read.
Print Assumptions C83_map_write.
Print Assumptions C83_alignment.

(** ** Products *)
(** Whatever the order in which Eigen accumulates the products of a coefficient ([sch]): over exact arithmetic, *)
Theorem C83_exact : forall (c : cfg) sch pa pb {V} (N0 : num V), exact_num N0 -> forall (h : objs V) M N, multipliable c (h pa) (h pb) M N -> (forall i j, accumulates (length N) (sch i j)) ->
  products_are c (num_ops N0) sch h pa pb M N (fun row col v => v = total (nadd N0) (nzero N0) (products (nmul N0) row col)).
Proof. exact @prods_exact. Qed.
(** for unsigned integers, *)
Theorem C83_unsigned : forall (c : cfg) sch pa pb t (h : objs Z) M N, signed t = false -> multipliable c (h pa) (h pb) M N -> (forall i j, accumulates (length N) (sch i j)) ->
  products_are c (int_ops t) sch h pa pb M N (fun row col v => v = total Z.add 0 (products Z.mul row col) mod 2 ^ bits t).
Proof. intros c sch pa pb t. replace (2 ^ bits t) with (tmod t) by now destruct t. exact (prods_unsigned c sch pa pb t). Qed.
(** for signed integers if the absolute values of the products add up to a representable number, *)
Theorem C83_signed : forall (c : cfg) sch pa pb t (h : objs Z) M N, signed t = true -> multipliable c (h pa) (h pb) M N -> (forall i j, accumulates (length N) (sch i j)) ->
  (forall i j, 0 <= i < zlen M -> 0 <= j < ncols N -> total Z.add 0 (map Z.abs (products Z.mul (line M i) (column N j))) <= tmax t) ->
  products_are c (int_ops t) sch h pa pb M N (fun row col v => v = total Z.add 0 (products Z.mul row col)).
Proof. exact prods_signed. Qed.
Print Assumptions C83_exact.
Print Assumptions C83_unsigned.
Print Assumptions C83_signed.

(** and for floating-point numbers of any precision, with n the common dimension, u the unit roundoff and tiny half the smallest
    positive number. *)
Section ANY_FORMAT.
Context (prec emax : Z) {Hp : Prec_gt_0 prec} {He : Prec_lt_emax prec emax} (P2 : 1 < prec).
Notation vals := (reals prec emax).
Notation dots l k := (products Rmult (vals l) (vals k)).
Notation u := (uro prec).
Theorem C83_accuracy : forall (c : cfg) sch pa pb (h : objs (binary_float prec emax)) M N, multipliable c (h pa) (h pb) M N -> (forall i j, accumulates (length N) (sch i j)) ->
  products_are c (num_ops (fnum prec emax)) sch h pa pb M N (fun row col v => is_finite v = true -> let n := length N in
    (Rabs (B2R v - rsum (dots row col)) <= ((1 + u) ^ n - 1) * norm1 (dots row col) + (1 + u) ^ (n - 1) * (INR n * tiny prec emax))%R).
Proof. intros c sch pa pb. exact (prods_acc c sch pa pb prec emax). Qed.
(** Matrices of whole numbers are multiplied exactly while the products are small. *)
Theorem C83_whole : forall (c : cfg) sch pa pb (h : objs (binary_float prec emax)) M N, multipliable c (h pa) (h pb) M N -> (forall i j, accumulates (length N) (sch i j)) ->
  (forall i j, 0 <= i < zlen M -> 0 <= j < ncols N -> Forall (whole prec emax) (line M i) /\ Forall (whole prec emax) (column N j) /\ (norm1 (dots (line M i) (column N j)) <= bpow radix2 prec)%R) ->
  products_are c (num_ops (fnum prec emax)) sch h pa pb M N (fun row col v => is_finite v = true /\ B2R v = rsum (dots row col)).
Proof. intros c sch pa pb. exact (prods_whole c sch pa pb prec emax P2). Qed.
End ANY_FORMAT.
Print Assumptions C83_accuracy.
Print Assumptions C83_whole.

(** ** Dimensions that do not match *)
(** They are reported, with nothing changed, by builds with the library's checks. *)
Theorem C83_reported : forall {V} (c : cfg) (O : eops V) sch (h : objs V) pa pb pc M N K, rep2 (h pa) M -> rep2 (h pb) N -> rep2 (h pc) K -> checked c = true ->
  (ncols M <> zlen N \/ zlen K <> zlen M \/ ncols K <> ncols N -> matrix_prod3 c O sch h pa pb pc = MFail (report c) h) /\
  (ncols M <> zlen N -> matrix_prod c O sch (h pa) (h pb) = Fail (report c)).
Proof. intros V c O sch h pa pb pc M N K RA RB RC HC. split; [now apply (prod3_reported c O sch h pa pb pc M N K)|now apply (prod_reported c O sch (h pa) (h pb) M N)]. Qed.
(** In the others they meet Eigen's assertion, and are undefined behaviour if that is not compiled either. *)
Theorem C83_unchecked : forall {V} (c : cfg), cfg_ok c -> forall (O : eops V) sch (h : objs V) pa pb pc M N K, rep2 (h pa) M -> rep2 (h pb) N -> rep2 (h pc) K -> checked c = false ->
  (ncols M <> zlen N -> matrix_prod3 c O sch h pa pb pc = if ndbg c then MUB else MFail Abort h) /\
  (forall T, multipliable c (h pa) (h pb) M N -> zlen K <> zlen M \/ ncols K <> ncols N ->
   (forall i j, 0 <= i < zlen M -> 0 <= j < ncols N -> coeff O (oget (line M i)) (oget (column N j)) (sch i j) = Ok (T i j)) ->
   matrix_prod3 c O sch h pa pb pc = if ndbg c then MUB else MFail Abort h).
Proof.
  intros V c Hc O sch h pa pb pc M N K RA RB RC HC. split; [now apply (prod3_inner c O sch h pa pb pc M N)|].
  intros T (_ & _ & _ & HD & LA & LB & LC) HK HT. now apply (prod3_outer c Hc O sch h pa pb pc M N K RA RB RC LA LB LC T).
Qed.
Print Assumptions C83_reported.
Print Assumptions C83_unchecked.

(** ** Claim refuted: the product of two matrices of floating-point numbers does not depend on the order of accumulation *)
Definition row1 : arr2 double := mkarr2 1 3 (mkarr [dbl 1 53; dbl 1 0; dbl (-1) 53] 3).
Definition col1 : arr2 double := mkarr2 3 1 (mkarr [dbl 1 0; dbl 1 0; dbl 1 0] 3).
Definition bits_of (x : outcome (arr2 double)) : list SpecFloat.spec_float := match x with Ok C => map B2SF (buf (dat C)) | _ => [] end.
Theorem C83_order_refuted : exists s1 s2, accumulates 3 s1 /\ accumulates 3 s2 /\
  bits_of (matrix_prod c_dbg (num_ops (fnum 53 1024)) (fun _ _ => s1) row1 col1) = map B2SF [dbl 0 0] /\
  bits_of (matrix_prod c_dbg (num_ops (fnum 53 1024)) (fun _ _ => s2) row1 col1) = map B2SF [dbl 1 0].
Proof.
  exists (leftwards 3), (SAdd (SAdd (STerm 0) (STerm 2)) (STerm 1)). split; [apply leftwards_ok|]. split; [apply perm_skip, perm_swap|]. split; vm_compute; reflexivity.
Qed.
Print Assumptions C83_order_refuted.

(** ** Cases *)
(** The identity does not hide a transposition or a wrong factor: a 2 by 3 matrix times a 3 by 2 one; 2 by 2 in place; too large. *)
Definition M23 : list (list Z) := [[1; 2; 3]; [4; 5; 6]].
Definition N32 : list (list Z) := [[7; 8]; [9; 10]; [11; -12]].
Definition A23 : arr2 Z := mkarr2 2 3 (mkarr [1; 2; 3; 4; 5; 6] 6).
Definition B32 : arr2 Z := mkarr2 3 2 (mkarr [7; 8; 9; 10; 11; -12] 6).
Definition C22 : arr2 Z := mkarr2 2 2 (mkarr [1; 2; 3; 4] 4).
Definition hz : objs Z := fun q => if q =? 0 then A23 else if q =? 1 then B32 else C22.
Lemma rep_A : rep2 A23 M23. Proof. repeat (split; try reflexivity); vm_compute; repeat constructor; discriminate. Qed.
Lemma rep_B : rep2 B32 N32. Proof. repeat (split; try reflexivity); vm_compute; repeat constructor; discriminate. Qed.
Lemma rep_C : rep2 C22 [[1; 2]; [3; 4]]. Proof. repeat (split; try reflexivity); vm_compute; repeat constructor; discriminate. Qed.
Example C83_case_multipliable : multipliable c_dbg (hz 0) (hz 1) M23 N32 /\ exact_num (znum Z.ltb Z.leb) /\ (forall i j : Z, accumulates (length N32) (if i =? j then leftwards 3 else fused 3)) /\
  forall i j, 0 <= i < zlen M23 -> 0 <= j < ncols N32 -> total Z.add 0 (map Z.abs (products Z.mul (line M23 i) (column N32 j))) <= tmax I32.
Proof.
  split; [|split; [apply znum_exact|split]].
  - split; [vm_compute; split; congruence|]. split; [exact rep_A|]. split; [exact rep_B|]. vm_compute. repeat split; congruence.
  - intros i j. destruct (i =? j); [apply leftwards_ok|apply fused_ok].
  - intros i j Hi Hj. change (0 <= i < 2) in Hi. change (0 <= j < 2) in Hj. assert (i = 0 \/ i = 1) as [->| ->] by lia; assert (j = 0 \/ j = 1) as [->| ->] by lia; vm_compute; congruence.
Qed.
Example C83_case_product : matrix_prod c_dbg (int_ops I32) (fun _ _ => fused 3) A23 B32 = Ok (mkarr2 2 2 (mkarr [58; -8; 139; 10] 4)).
Proof. vm_compute. reflexivity. Qed.
(** C = C * C *)
Example C83_case_alias : match matrix_prod3 c_dbg (int_ops I32) (fun _ _ => leftwards 2) hz 2 2 2 with MOk h => h 2 | _ => A23 end = mkarr2 2 2 (mkarr [7; 10; 15; 22] 4).
Proof. vm_compute. reflexivity. Qed.
Example C83_case_mismatch : rep2 (hz 0) M23 /\ rep2 (hz 2) [[1; 2]; [3; 4]] /\ ncols M23 <> zlen M23 /\ checked c_dbg = true /\ checked c_off = false /\ ncols (@nil (list Z)) <> ncols N32 /\
  matrix_prod3 c_dbg (int_ops I32) (fun _ _ => SZero) hz 0 0 2 = MFail Throw hz.
Proof. repeat split; try apply rep_A; try apply rep_C; try (vm_compute; congruence); vm_compute; repeat constructor; discriminate. Qed.
Example C83_case_unsigned : matrix_prod c_dbg (int_ops U32) (fun _ _ => leftwards 2) (mkarr2 1 2 (mkarr [4294967295; 3] 2)) (mkarr2 2 1 (mkarr [2; 4] 2)) = Ok (mkarr2 1 1 (mkarr [10] 1)).
Proof. vm_compute. reflexivity. Qed.
(** Floating-point matrices that meet the hypotheses. *)
Example C83_case_float : multipliable c_dbg row1 col1 [[dbl 1 53; dbl 1 0; dbl (-1) 53]] [[dbl 1 0]; [dbl 1 0]; [dbl 1 0]].
Proof.
  split; [vm_compute; split; congruence|]. split; [|split].
  - repeat (split; try reflexivity); try (repeat constructor; discriminate).
  - repeat (split; try reflexivity); try (repeat constructor; discriminate).
  - vm_compute. repeat split; congruence.
Qed.
Example C83_case_alignment : eigen_align 64 = 64 /\ eigen_align 48 = 0 /\ (64 | 4096).
Proof. repeat split. now exists 64. Qed.
