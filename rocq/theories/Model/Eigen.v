(** The bridge to Eigen: Eigen/map.hpp and Eigen/matrix_ops.hpp.

    Eigen is a separate library whose source is not in the repository.  Of it the model contains what its documentation promises about
    the three things the bridge uses: a Map is a view of foreign memory with given dimensions; a matrix product assigned with = is
    evaluated into a temporary before the destination is written; sizes that do not match are caught by eigen_assert, which is assert,
    and are undefined under NDEBUG.  In which order a coefficient is accumulated, and whether with fused multiplications, is not
    promised (it depends on the sizes and on the processor), so every order is admitted: see [sched]. *)
From Verif Require Import Base.Outcome Base.ZList Model.IntModel Model.ScalarOps Model.Index Model.Array1D Model.Array2D.

(** ** Alignment *)
(** ArrayCommon/alignment.hpp 10 and 16-20: AlignmentFlag and alignment_of. *)
Inductive aflag := Aligned | Unaligned.
Definition alignment_of (f : aflag) : Z := match f with Aligned => 64 | Unaligned => 0 end.
(** Eigen/map.hpp 19-39: eigen_align.  The enumerators of Eigen::AlignmentType have the number of bytes as their value; Unaligned is 0. *)
Definition eigen_align (align : Z) : Z :=
  if align =? 0 then 0 else if align =? 8 then 8 else if align =? 16 then 16 else if align =? 32 then 32
  else if align =? 64 then 64 else if align =? 128 then 128 else 0.

Section Eigen.
Context {V : Type}.

(** The owning two-dimensional arrays of a program, by address. *)
Definition objs := Z -> arr2 V.

(** ** Maps *)
(** Eigen/map.hpp 58-78: map(A), a row-major Eigen::Map onto blas_data() (array_base2D.hpp 707-720: the elements of data1D_).  For
    arrays of fixed size the dimensions are template arguments of the Map; they are the same numbers. *)
Record emap := mkemap { e_at : Z; e_rows : Z; e_cols : Z }.
Definition e_map (h : objs) (p : Z) : emap := mkemap p (drows (h p)) (dcols (h p)).
(** Element (i, j) of a row-major Map, read and written: Eigen computes i * outerStride() + j in ptrdiff_t. *)
Definition e_get (h : objs) (M : emap) (i j : Z) : outcome V :=
  p <- lmul i (e_cols M) ;; q <- ladd p j ;; oget (buf (dat (h (e_at M)))) q.
Definition e_set (h : objs) (M : emap) (i j : Z) (v : V) : outcome objs :=
  let a := h (e_at M) in
  b <- set2 (e_cols M) (buf (dat a)) i j v ;; Ok (fun q => if q =? e_at M then mkarr2 (drows a) (dcols a) (mkarr b (an (dat a))) else h q).

(** ** Products *)
(** The built-in arithmetic of the element type (not that of Strict<T>: the elements were reinterpreted by blas_data()). *)
Record eops := mkeops { e_zero : V; e_one : V; e_add : V -> V -> outcome V; e_mul : V -> V -> outcome V; e_fma : V -> V -> V -> outcome V }.
(** A way to accumulate one coefficient: from zeros, products a(p) b(p), fused multiplications a(p) b(p) + s, additions, and
    multiplication of an accumulator by the factor alpha of the kernels, which is one here. *)
Inductive sched := SZero | STerm (p : Z) | SFma (p : Z) (s : sched) | SAdd (s t : sched) | SOne (s : sched).
Fixpoint coeff (O : eops) (a b : Z -> outcome V) (s : sched) : outcome V :=
  match s with
  | SZero => Ok (e_zero O)
  | STerm p => x <- a p ;; y <- b p ;; e_mul O x y
  | SFma p s => x <- a p ;; y <- b p ;; z <- coeff O a b s ;; e_fma O x y z
  | SAdd s t => x <- coeff O a b s ;; y <- coeff O a b t ;; e_add O x y
  | SOne s => x <- coeff O a b s ;; e_mul O x (e_one O)
  end.

(** eigen_assert is assert. *)
Definition eigen_assert (c : cfg) (b : bool) : outcome unit := if b then Ok tt else if ndbg c then UB else Fail Abort.
(** The temporary that holds AE * BE; [sch i j] accumulates coefficient (i, j). *)
Definition e_product (c : cfg) (O : eops) (sch : Z -> Z -> sched) (h : objs) (AE BE : emap) : outcome (list V) :=
  eigen_assert c (e_cols AE =? e_rows BE) ;;;
  let m := e_rows AE in let n := e_cols BE in
  if amax c <? m * n then Fail BadAlloc else
  for_ 0 m (fun i t => for_ 0 n (fun j t => v <- coeff O (fun p => e_get h AE i p) (fun p => e_get h BE p j) (sch i j) ;; set2 n t i j v) t)
    (repeat (e_zero O) (Z.to_nat (m * n))).
(** The assignment of an m by n temporary to a Map, which cannot be resized. *)
Definition e_assign (c : cfg) (h : objs) (CE : emap) (m n : Z) (t : list V) : outcome objs :=
  eigen_assert c ((e_rows CE =? m) && (e_cols CE =? n)) ;;;
  for_ 0 m (fun i h => for_ 0 n (fun j h => p <- lmul i n ;; q <- ladd p j ;; v <- oget t q ;; e_set h CE i j v) h) h.

(** Eigen/matrix_ops.hpp 15-24: matrix_prod(A, B, C), for arrays at the addresses pa, pb, pc, which may coincide.  Nothing that can
    fail other than by undefined behaviour happens after the first write. *)
Definition matrix_prod3 (c : cfg) (O : eops) (sch : Z -> Z -> sched) (h : objs) (pa pb pc : Z) : mut objs :=
  commit h (
    check_debug c (Ok (dcols (h pa) =? drows (h pb))) ;;; check_debug c (Ok (drows (h pc) =? drows (h pa))) ;;;
    check_debug c (Ok (dcols (h pc) =? dcols (h pb))) ;;;
    let AE := e_map h pa in let BE := e_map h pb in let CE := e_map h pc in
    t <- e_product c O sch h AE BE ;; e_assign c h CE (e_rows AE) (e_cols BE) t).
(** Eigen/matrix_ops.hpp 27-33: matrix_prod(A, B). *)
Definition matrix_prod (c : cfg) (O : eops) (sch : Z -> Z -> sched) (A B : arr2 V) : outcome (arr2 V) :=
  check_debug c (Ok (dcols A =? drows B)) ;;;
  C <- arr2_new (e_zero O) c (drows A) (dcols B) ;;
  match matrix_prod3 c O sch (fun q => if q =? 0 then A else if q =? 1 then B else C) 0 1 2 with
  | MOk h => Ok (h 2)
  | MFail f _ => Fail f
  | MUB => UB
  end.
End Eigen.
Arguments objs V : clear implicits.
Arguments eops V : clear implicits.
Arguments mkeops {V}. Arguments e_zero {V}. Arguments e_one {V}. Arguments e_add {V}. Arguments e_mul {V}. Arguments e_fma {V}.

(** The built-in integer types: int, long, unsigned, unsigned long; there are no fused multiplications, a * b + s is two operations. *)
Definition int_ops (t : ity) : eops Z := mkeops 0 1 (iadd t) (imul t) (fun x y z => p <- imul t x y ;; iadd t p z).
