(** Error measures and tolerances: the overloads for two-dimensional objects and for initializer lists.  The scalar and
    one-dimensional functions are in Model/StableOps.v. *)
From Verif Require Import Base.Outcome Base.ZList Model.Index Model.Array1D Model.Array2D Model.Expr Model.Reduce Model.StableOps.

Section ERRORS.
Context {V : Type} (N : num V) (c : cfg).
Implicit Types (A B : src1 V) (X Y : src2 V).

(** ArrayCommon/array_auxiliary.hpp 40-48: same_size of two-dimensional objects. *)
Definition same2 X Y : bool := same_size2 (s2rows X) (s2cols X) (s2rows Y) (s2cols Y).

(** Util/error_tools.hpp 58-68 and 71-84: within_tol_abs, within_tol_rel on two-dimensional objects. *)
Definition within_tol_abs_arr2 X Y tol (d : bool) : outcome bool :=
  check_debug c (Ok (same2 X Y)) ;;;
  if s2size X =? 0 then Ok d else r_all2 c (same2 X Y) (fun x y => within_tol_abs N c x y tol) (flat2 X) (flat2 Y) false.
Definition within_tol_rel_arr2 X Y tol near_zero (d : bool) : outcome bool :=
  check_debug c (Ok (same2 X Y)) ;;;
  if s2size X =? 0 then Ok d else r_all2 c (same2 X Y) (fun x y => within_tol_rel N c x y tol near_zero) (flat2 X) (flat2 Y) false.

(** Util/error_tools.hpp 180-190 and 193-207: max_abs_error, max_rel_error on two-dimensional objects. *)
Definition max_abs_error2 X Y (d : V) : outcome V :=
  check_debug c (Ok (same2 X Y)) ;;;
  if s2size X =? 0 then Ok d
  else D <- x_bin2 c (fun x y => Ok (nsub N x y)) X Y ;; norm_inf N (flat2 D) (nzero N).
Definition max_rel_error2 X Y (d : V) : outcome (option V) :=
  check_debug c (Ok (same2 X Y)) ;;;
  if s2size X =? 0 then Ok (Some d)
  else
    zx <- r_any (fun x => Ok (neqb N x (nzero N))) (flat2 X) false ;;
    zy <- r_any (fun x => Ok (neqb N x (nzero N))) (flat2 Y) false ;;
    if zx || zy then Ok None
    else D <- x_bin2 c (fun x y => Ok (nsub N x y)) X Y ;; Q <- x_bin2 c (fun x y => Ok (ndiv N x y)) D Y ;;
         r <- norm_inf N (flat2 Q) (nzero N) ;; Ok (Some r).

(** Util/error_tools.hpp 87-93, 96-102, 123-130, 133-140: one operand is an initializer list, from which an Array1D is built. *)
Definition within_tol_abs_al A (l : list V) tol d : outcome bool :=
  B <- arr_of_list (nzero N) c l ;; within_tol_abs_arr N c A (src_of_arr B) tol d.
Definition within_tol_abs_la (l : list V) B tol d : outcome bool :=
  A <- arr_of_list (nzero N) c l ;; within_tol_abs_arr N c (src_of_arr A) B tol d.
Definition within_tol_rel_al A (l : list V) tol nz d : outcome bool :=
  B <- arr_of_list (nzero N) c l ;; within_tol_rel_arr N c A (src_of_arr B) tol nz d.
Definition within_tol_rel_la (l : list V) B tol nz d : outcome bool :=
  A <- arr_of_list (nzero N) c l ;; within_tol_rel_arr N c (src_of_arr A) B tol nz d.
(** Util/error_tools.hpp 105-111, 114-120, 143-150, 153-160: a nested list, from which an Array2D is built. *)
Definition within_tol_abs_al2 X (L : list (list V)) tol d : outcome bool :=
  Y <- arr2_of_list (nzero N) c L ;; within_tol_abs_arr2 X (src_of_arr2 Y) tol d.
Definition within_tol_abs_la2 (L : list (list V)) Y tol d : outcome bool :=
  X <- arr2_of_list (nzero N) c L ;; within_tol_abs_arr2 (src_of_arr2 X) Y tol d.
Definition within_tol_rel_al2 X (L : list (list V)) tol nz d : outcome bool :=
  Y <- arr2_of_list (nzero N) c L ;; within_tol_rel_arr2 X (src_of_arr2 Y) tol nz d.
Definition within_tol_rel_la2 (L : list (list V)) Y tol nz d : outcome bool :=
  X <- arr2_of_list (nzero N) c L ;; within_tol_rel_arr2 (src_of_arr2 X) Y tol nz d.
End ERRORS.
