(** Property C72: error measures. *)
From Coq Require Import ZArith Reals Lra Lia.
From Flocq Require Import Core BinarySingleNaN.
From Verif Require Import Base.Outcome Base.ZList Model.IntModel Model.Index Model.Array1D Model.Array2D Model.Expr Model.Reduce Model.StableOps Model.FloatModel Model.ErrorTools.
From Verif Require Import Spec.ArraySpec Spec.MatrixSpec Spec.ExprSpec Spec.ReduceSpec Spec.NormSpec Spec.FloatSpec Spec.Configs.
Import ListNotations.
From Verif Require Import Proofs.ExprMore Proofs.FloatProd Proofs.ErrorProofs.
Local Open Scope Z_scope.
Definition fsrc (l : list double) : src1 double := src_of_list l.
Definition dF := fnum 53 1024.

(** ** C72: two numbers *)
(** abs_error: the distance, rounded once; zero exactly for equal numbers. *)
Theorem C72_abs_error : forall (prec emax : Z) (Hp : Prec_gt_0 prec) (He : Prec_lt_emax prec emax) (x y : binary_float prec emax),
  is_finite x = true -> is_finite y = true -> is_finite (abs_error (fnum prec emax) x y) = true ->
  B2R (abs_error (fnum prec emax) x y) = Rabs (near prec emax (B2R x - B2R y)) /\
  (Rabs (B2R (abs_error (fnum prec emax) x y) - Rabs (B2R x - B2R y)) <= uro prec * Rabs (B2R x - B2R y))%R /\
  (B2R (abs_error (fnum prec emax) x y) = 0%R <-> B2R x = B2R y).
Proof. exact abs_error_value. Qed.
Print Assumptions C72_abs_error.
(** The error of a number against itself is negative zero: abss negates every argument that is not positive. *)
Theorem C72_negative_zero : forall (prec emax : Z) (Hp : Prec_gt_0 prec) (He : Prec_lt_emax prec emax) (x : binary_float prec emax),
  is_finite x = true -> abs_error (fnum prec emax) x x = B754_zero true.
Proof. exact abs_error_self. Qed.
Print Assumptions C72_negative_zero.
Example C72_negative_zero_example : is_finite (dbl 3 0) = true /\ Bsign (abs_error dF (dbl 3 0) (dbl 3 0)) = true /\ Bsign (abs_error dF (dbl 3 0) (dbl 2 0)) = false.
Proof. vm_compute. auto. Qed.
(** rel_error has no value exactly if one of the two numbers is a zero. *)
Theorem C72_rel_error_none : forall (prec emax : Z) (Hp : Prec_gt_0 prec) (He : Prec_lt_emax prec emax) (x y : binary_float prec emax),
  rel_error (fnum prec emax) x y = None <-> exists s, x = B754_zero s \/ y = B754_zero s.
Proof. exact rel_error_none. Qed.
Print Assumptions C72_rel_error_none.
(** Otherwise a finite value is the relative error up to two roundings; nothing is lost to underflow, and it is zero exactly
    for equal numbers. *)
Theorem C72_rel_error : forall (prec emax : Z) (Hp : Prec_gt_0 prec) (He : Prec_lt_emax prec emax) (x y v : binary_float prec emax),
  prec + 4 <= emax -> is_finite x = true -> is_finite y = true -> rel_error (fnum prec emax) x y = Some v -> is_finite v = true ->
  B2R v = Rabs (near prec emax (near prec emax (B2R x - B2R y) / B2R y)) /\
  (Rabs (B2R v - Rabs ((B2R x - B2R y) / B2R y)) <= (2 * uro prec + uro prec * uro prec) * Rabs ((B2R x - B2R y) / B2R y))%R /\
  (B2R v = 0%R <-> B2R x = B2R y).
Proof. exact rel_error_value. Qed.
Print Assumptions C72_rel_error.
(** A relative error within a tolerance is accepted by within_tol_rel, whatever counts as near zero. *)
Theorem C72_rel_error_within : forall (prec emax : Z) (Hp : Prec_gt_0 prec) (He : Prec_lt_emax prec emax) (c : cfg) (x y v tol nz : binary_float prec emax),
  is_finite x = true -> is_finite y = true -> is_finite tol = true -> is_finite nz = true -> Bleb (fzero prec emax) tol = true -> Bleb (fzero prec emax) nz = true ->
  rel_error (fnum prec emax) x y = Some v -> Bleb v tol = true -> within_tol_rel (fnum prec emax) c x y tol nz = Ok true.
Proof. exact rel_error_within. Qed.
Print Assumptions C72_rel_error_within.
Example C72_scalar_case : 53 + 4 <= 1024 /\ is_finite (abs_error dF (dbl 5 0) (dbl 4 0)) = true /\ Beqb (abs_error dF (dbl 5 0) (dbl 4 0)) (dbl 1 0) = true /\
  (match rel_error dF (dbl 5 0) (dbl 4 0) with Some v => Beqb v (dbl 1 (-2)) && Bleb v (dbl 1 (-2)) && is_finite v | None => false end) = true /\
  within_tol_rel dF c_dbg (dbl 5 0) (dbl 4 0) (dbl 1 (-2)) (dbl 0 0) = Ok true /\
  (match rel_error dF (dbl 0 0) (dbl 4 0) with None => true | Some _ => false end) = true.
Proof. repeat split; vm_compute; congruence. Qed.
(** The relative error of the approximation 0 to 4 is 1, but rel_error has no value for it. *)
Theorem C72_zero_approx_refuted : exists x y : double, is_finite x = true /\ is_finite y = true /\ B2R y <> 0%R /\ rel_error (fnum 53 1024) x y = None.
Proof.
  exists (B754_zero false), (dbl 1 2). repeat split; try (vm_compute; reflexivity). assert (E : is_finite_strict (dbl 1 2) = true) by (vm_compute; reflexivity). destruct (dbl 1 2) as [s|s| |s m e h]; try discriminate. cbn [B2R]. apply F2R_neq_0. destruct s; discriminate.
Qed.
Print Assumptions C72_zero_approx_refuted.
(** A value can be infinite although both numbers are finite and not zero. *)
Theorem C72_overflow_refuted : exists x y : double, is_finite x = true /\ is_finite y = true /\ (match rel_error (fnum 53 1024) x y with Some v => is_finite v | None => true end) = false.
Proof. exists (dbl 1 1000), (dbl 1 (-1000)). repeat split; vm_compute; reflexivity. Qed.
Print Assumptions C72_overflow_refuted.
(** The converse of C72_rel_error_within fails: 1 against 1/2 is accepted within 3/4, and rel_error is 1. *)
Theorem C72_within_converse_refuted : exists x y t : double, Bleb (fzero 53 1024) t = true /\ within_tol_rel (fnum 53 1024) c_dbg x y t (dbl 0 0) = Ok true /\
  (match rel_error (fnum 53 1024) x y with Some v => Bleb v t | None => true end) = false.
Proof. exists (dbl 1 0), (dbl 1 (-1)), (dbl 3 (-2)). repeat split; vm_compute; reflexivity. Qed.
Print Assumptions C72_within_converse_refuted.

(** ** C72: arrays *)
(** max_rel_error has no value exactly if one of the arrays contains a zero. *)
Theorem C72_max_rel_none : forall (prec emax : Z) (Hp : Prec_gt_0 prec) (He : Prec_lt_emax prec emax) (c : cfg) (A B : src1 (binary_float prec emax)) l k d,
  yields A (map Ok l) -> yields B (map Ok k) -> zlen l = zlen k -> l <> [] ->
  (max_rel_error (fnum prec emax) c A B d = Ok None <-> exists s, In (B754_zero s) l \/ In (B754_zero s) k).
Proof. exact max_rel_none. Qed.
Print Assumptions C72_max_rel_none.
(** Otherwise it is the largest of the relative errors that are numbers, unless the first one is NaN. *)
Theorem C72_max_rel : forall (prec emax : Z) (Hp : Prec_gt_0 prec) (He : Prec_lt_emax prec emax) (c : cfg) (A B : src1 (binary_float prec emax)) x y l k d,
  yields A (map Ok (x :: l)) -> yields B (map Ok (y :: k)) -> zlen l = zlen k -> (forall s, ~ In (B754_zero s) (x :: l) /\ ~ In (B754_zero s) (y :: k)) ->
  (forall w, rel_error (fnum prec emax) x y = Some w -> is_nan w = true -> max_rel_error (fnum prec emax) c A B d = Ok (Some B754_nan)) /\
  (forall w, rel_error (fnum prec emax) x y = Some w -> is_nan w = false -> exists v, max_rel_error (fnum prec emax) c A B d = Ok (Some v) /\ is_nan v = false /\
    (exists a b z, In (a, b) (combine (x :: l) (y :: k)) /\ rel_error (fnum prec emax) a b = Some z /\ Beqb v z = true) /\
    forall a b z, In (a, b) (combine (x :: l) (y :: k)) -> rel_error (fnum prec emax) a b = Some z -> is_nan z = false -> Bleb z v = true).
Proof. exact max_rel_value. Qed.
Print Assumptions C72_max_rel.
(** Accuracy: a finite result is the largest error, up to one rounding (absolute) or two (relative). *)
Theorem C72_max_abs_accuracy : forall (prec emax : Z) (Hp : Prec_gt_0 prec) (He : Prec_lt_emax prec emax) (c : cfg) (A B : src1 (binary_float prec emax)) l k d v,
  yields A (map Ok l) -> yields B (map Ok k) -> zlen l = zlen k -> l <> [] -> (forall z, In z l \/ In z k -> is_finite z = true) ->
  max_abs_error (fnum prec emax) c A B d = Ok v -> is_finite v = true ->
  (Rabs (B2R v - norminf (map (fun p => B2R (fst p) - B2R (snd p)) (combine l k))) <= uro prec * norminf (map (fun p => B2R (fst p) - B2R (snd p)) (combine l k)))%R.
Proof. exact max_abs_accuracy. Qed.
Print Assumptions C72_max_abs_accuracy.
Theorem C72_max_rel_accuracy : forall (prec emax : Z) (Hp : Prec_gt_0 prec) (He : Prec_lt_emax prec emax) (c : cfg) (A B : src1 (binary_float prec emax)) l k d v,
  prec + 4 <= emax -> yields A (map Ok l) -> yields B (map Ok k) -> zlen l = zlen k -> l <> [] -> (forall z, In z l \/ In z k -> is_finite z = true) ->
  max_rel_error (fnum prec emax) c A B d = Ok (Some v) -> is_finite v = true ->
  (Rabs (B2R v - norminf (map (fun p => (B2R (fst p) - B2R (snd p)) / B2R (snd p)) (combine l k))) <= (2 * uro prec + uro prec * uro prec) * norminf (map (fun p => (B2R (fst p) - B2R (snd p)) / B2R (snd p)) (combine l k)))%R.
Proof. exact max_rel_accuracy. Qed.
Print Assumptions C72_max_rel_accuracy.
Example C72_array_case : let A := [dbl 5 0; dbl 3 0; dbl (-7) 0] in let B := [dbl 4 0; dbl 2 0; dbl (-8) 0] in
  yields (fsrc A) (map Ok A) /\ zlen A = zlen B /\
  (match max_abs_error dF c_dbg (fsrc A) (fsrc B) (dbl 9 0) with Ok v => Beqb v (dbl 1 0) && is_finite v | _ => false end) = true /\
  (match max_rel_error dF c_dbg (fsrc A) (fsrc B) (dbl 9 0) with Ok (Some v) => Beqb v (dbl 1 (-1)) && is_finite v | _ => false end) = true /\
  (match max_rel_error dF c_dbg (fsrc (dbl 0 0 :: A)) (fsrc (dbl 1 0 :: B)) (dbl 9 0) with Ok None => true | _ => false end) = true.
Proof. split; [apply (yields_list [dbl 5 0; dbl 3 0; dbl (-7) 0]); vm_compute; congruence|]. repeat split; vm_compute; reflexivity. Qed.
(** NaN in an element other than the first disappears from the result. *)
Theorem C72_nan_hidden_refuted : exists A B : list double, existsb is_nan A = true /\
  (match max_rel_error (fnum 53 1024) c_dbg (fsrc A) (fsrc B) (dbl 9 0) with Ok (Some v) => Beqb v (dbl 0 0) | _ => false end) = true.
Proof. exists [dbl 1 0; dnan], [dbl 1 0; dbl 1 0]. split; vm_compute; reflexivity. Qed.
Print Assumptions C72_nan_hidden_refuted.

(** ** C72: two dimensions and lists *)
(** Tolerances: all elements at equal positions. *)
Theorem C72_matrix : forall (prec emax : Z) (Hp : Prec_gt_0 prec) (He : Prec_lt_emax prec emax) (c : cfg) (X Y : src2 (binary_float prec emax)) M K tol nz d,
  produces2 X M -> produces2 Y K -> zlen M = zlen K -> ncols M = ncols K -> M <> [] -> zlen M * ncols M <= LONG_MAX -> Bleb (fzero prec emax) tol = true -> Bleb (fzero prec emax) nz = true ->
  (exists b : bool, within_tol_abs_arr2 (fnum prec emax) c X Y tol d = Ok b /\ (b = true <-> forall i j x y, mget M i j = Some x -> mget K i j = Some y -> within_tol_abs (fnum prec emax) c x y tol = Ok true)) /\
  (exists b : bool, within_tol_rel_arr2 (fnum prec emax) c X Y tol nz d = Ok b /\ (b = true <-> forall i j x y, mget M i j = Some x -> mget K i j = Some y -> within_tol_rel (fnum prec emax) c x y tol nz = Ok true)).
Proof. exact tol_matrix. Qed.
Print Assumptions C72_matrix.
(** Errors: over all elements. *)
Theorem C72_matrix_errors : forall (prec emax : Z) (Hp : Prec_gt_0 prec) (He : Prec_lt_emax prec emax) (c : cfg) (X Y : src2 (binary_float prec emax)) M K e v,
  produces2 X M -> produces2 Y K -> zlen M = zlen K -> ncols M = ncols K -> M <> [] -> zlen M * ncols M <= LONG_MAX ->
  (forall i j z, mget M i j = Some z \/ mget K i j = Some z -> is_finite z = true) -> is_finite v = true ->
  (max_abs_error2 (fnum prec emax) c X Y e = Ok v ->
    (Rabs (B2R v - norminf (map (fun p => B2R (fst p) - B2R (snd p)) (combine (concat M) (concat K)))) <= uro prec * norminf (map (fun p => B2R (fst p) - B2R (snd p)) (combine (concat M) (concat K))))%R) /\
  (prec + 4 <= emax -> max_rel_error2 (fnum prec emax) c X Y e = Ok (Some v) ->
    (Rabs (B2R v - norminf (map (fun p => (B2R (fst p) - B2R (snd p)) / B2R (snd p)) (combine (concat M) (concat K)))) <= (2 * uro prec + uro prec * uro prec) * norminf (map (fun p => (B2R (fst p) - B2R (snd p)) / B2R (snd p)) (combine (concat M) (concat K))))%R) /\
  (max_rel_error2 (fnum prec emax) c X Y e = Ok None <-> exists i j s, mget M i j = Some (B754_zero s) \/ mget K i j = Some (B754_zero s)).
Proof. exact err_matrix. Qed.
Print Assumptions C72_matrix_errors.
(** Different shapes are reported, also with the same number of elements. *)
Theorem C72_matrix_mismatch : forall (V : Type) (N : num V) (c : cfg) (X Y : src2 V) tol nz d e,
  checked c = true -> s2rows X <> s2rows Y \/ s2cols X <> s2cols Y ->
  within_tol_abs_arr2 N c X Y tol d = Fail (report c) /\ within_tol_rel_arr2 N c X Y tol nz d = Fail (report c) /\
  max_abs_error2 N c X Y e = Fail (report c) /\ max_rel_error2 N c X Y e = Fail (report c).
Proof. exact (@shape_tools). Qed.
Print Assumptions C72_matrix_mismatch.
(** A list on either side stands for the array of its elements. *)
Theorem C72_list : forall (V : Type) (N : num V) (c : cfg) (A : src1 V) (l : list V) tol nz d, zlen l <= amax c ->
  within_tol_abs_al N c A l tol d = within_tol_abs_arr N c A (src_of_list l) tol d /\ within_tol_abs_la N c l A tol d = within_tol_abs_arr N c (src_of_list l) A tol d /\
  within_tol_rel_al N c A l tol nz d = within_tol_rel_arr N c A (src_of_list l) tol nz d /\ within_tol_rel_la N c l A tol nz d = within_tol_rel_arr N c (src_of_list l) A tol nz d.
Proof. exact (@tol_list). Qed.
Print Assumptions C72_list.
Theorem C72_list2 : forall (prec emax : Z) (Hp : Prec_gt_0 prec) (He : Prec_lt_emax prec emax) (c : cfg) (X : src2 (binary_float prec emax)) M (L : list (list (binary_float prec emax))) tol nz d,
  cfg_ok c -> produces2 X M -> wfm L -> zlen M = zlen L -> ncols M = ncols L -> M <> [] -> zlen L * ncols L <= amax c -> Bleb (fzero prec emax) tol = true -> Bleb (fzero prec emax) nz = true ->
  (exists b : bool, within_tol_abs_al2 (fnum prec emax) c X L tol d = Ok b /\ (b = true <-> forall i j x y, mget M i j = Some x -> mget L i j = Some y -> within_tol_abs (fnum prec emax) c x y tol = Ok true)) /\
  (exists b : bool, within_tol_abs_la2 (fnum prec emax) c L X tol d = Ok b /\ (b = true <-> forall i j x y, mget M i j = Some x -> mget L i j = Some y -> within_tol_abs (fnum prec emax) c y x tol = Ok true)) /\
  (exists b : bool, within_tol_rel_al2 (fnum prec emax) c X L tol nz d = Ok b /\ (b = true <-> forall i j x y, mget M i j = Some x -> mget L i j = Some y -> within_tol_rel (fnum prec emax) c x y tol nz = Ok true)) /\
  (exists b : bool, within_tol_rel_la2 (fnum prec emax) c L X tol nz d = Ok b /\ (b = true <-> forall i j x y, mget M i j = Some x -> mget L i j = Some y -> within_tol_rel (fnum prec emax) c y x tol nz = Ok true)).
Proof. exact tol_list2. Qed.
Print Assumptions C72_list2.
(** A ragged list is reported. *)
Theorem C72_list2_bad : forall (V : Type) (N : num V) (c : cfg) (X : src2 V) (L : list (list V)) tol nz d q, cfg_ok c ->
  checked c = true -> In q L -> zlen q <> ncols L -> zlen L * ncols L <= amax c ->
  within_tol_abs_al2 N c X L tol d = Fail (report c) /\ within_tol_abs_la2 N c L X tol d = Fail (report c) /\
  within_tol_rel_al2 N c X L tol nz d = Fail (report c) /\ within_tol_rel_la2 N c L X tol nz d = Fail (report c).
Proof. exact (fun V N c X L tol nz d q Hc => list2_bad N c Hc X L tol nz d q). Qed.
Print Assumptions C72_list2_bad.
Example C72_matrix_case : let L := [[dbl 1 0; dbl 2 0]; [dbl 3 0; dbl 4 0]] in let t := dbl 1 (-10) in let o := dbl 0 0 in
  cfg_ok c_dbg /\ checked c_dbg = true /\ wfm L /\ zlen L * ncols L <= amax c_dbg /\
  (A <- arr2_of_list o c_dbg L ;; within_tol_abs_al2 dF c_dbg (src_of_arr2 A) L t false) = Ok true /\
  (A <- arr2_of_list o c_dbg L ;; within_tol_rel_la2 dF c_dbg [[dbl 1 0; dbl 2 0]; [dbl 3 0; dbl 5 0]] (src_of_arr2 A) t o false) = Ok false /\
  (A <- arr2_of_list o c_dbg L ;; within_tol_abs_al2 dF c_dbg (src_of_arr2 A) [[dbl 1 0; dbl 2 0; dbl 3 0; dbl 4 0]] t false) = Fail Throw /\
  (A <- arr2_of_list o c_dbg L ;; within_tol_abs_al2 dF c_dbg (src_of_arr2 A) [[dbl 1 0; dbl 2 0]; [dbl 3 0]] t false) = Fail Throw /\
  (match (A <- arr2_of_list o c_dbg L ;; B <- arr2_of_list o c_dbg [[dbl 1 0; dbl 4 0]; [dbl 2 0; dbl 4 0]] ;; max_rel_error2 dF c_dbg (src_of_arr2 A) (src_of_arr2 B) o) with Ok (Some v) => Beqb v (dbl 1 (-1)) | _ => false end) = true.
Proof.
  cbv zeta. split; [vm_compute; split; congruence|]. split; [reflexivity|]. split; [split; [repeat constructor|intros _; vm_compute; reflexivity]|]. repeat split; vm_compute; congruence.
Qed.
