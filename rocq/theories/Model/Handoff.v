(** What the library hands to code outside it: data(), blas_data(), blas_array(), and the size in bytes.
    array_base1D.hpp 483-510, array_base2D.hpp 707-732, array_ops.hpp 764-777, derived1D.hpp 386-424, derived2D.hpp 757-795.
    Simplifications: a Strict<T> and its T are the same value (blas_data() requires that they have the same size, strict_val.hpp 273-275, and
    reinterprets the pointer; the aliasing rules of C++ are not modelled); unique_ptr is the block itself. *)
From Coq Require Import ZArith.
From Flocq Require Import Core BinarySingleNaN.
From Verif Require Import Base.Outcome Base.ZList Model.IntModel Model.ScalarOps Model.Index Model.Array1D Model.Array2D Model.View2D Model.Expr Model.Reduce.
From Verif Require Import Model.StableOps Model.FloatModel Model.Heap Model.Heap2D.

(** array_base1D.hpp 483-510: data(), blas_data(): data_ unless the array is empty. *)
Definition h_data (o : hobj) : option Z := if negb (on o =? 0) then optr o else None.
(** array_base2D.hpp 707-732: those of data1D_. *)
Definition h2_data (o : hobj2) : option Z := h_data (odat o).

(** p[i] in the code that was given the pointer; outside the block, or after it was freed, undefined. *)
Definition raw_load {V} (p i : Z) : hm (V := V) V := fun h =>
  match lk h p with Some (_, b) => match znth b i with Some v => HOk v h | None => HUB end | None => HUB end.
Definition raw_store {V} (p i : Z) (v : V) : hm (V := V) unit := fun h =>
  match lk h p with
  | Some (a, b) => match znth b i with Some _ => HOk tt (zupd h p (Some (a, zupd b i v))) | None => HUB end
  | None => HUB
  end.

(** array_ops.hpp 764-777: a new block with the elements; None is nullptr. *)
Definition blas_array {V} (zero : V) (c : cfg) (A : src1 V) : outcome (option (list V)) :=
  if ssize A =? 0 then Ok None
  else b <- alloc zero c (ssize A) ;; b' <- for_ 0 (ssize A) (fun i b => v <- sun A i ;; oset b i v) b ;; Ok (Some b').

(** derived1D.hpp 386-400, derived2D.hpp 757-771: bytes(), kbytes(), mbytes(), gbytes() of an array of n elements, each of w bytes. *)
Definition D : num (binary_float 53 1024) := @fnum 53 1024 eq_refl eq_refl.
Definition bytes (n w : Z) : outcome Z := lmul n w.
Definition kbytes (n w : Z) : outcome (binary_float 53 1024) := b <- bytes n w ;; Ok (ndiv D (nofZ D b) (nofZ D 1024)).
Definition mbytes (n w : Z) : outcome (binary_float 53 1024) := b <- bytes n w ;; k <- squares I64 1024 ;; Ok (ndiv D (nofZ D b) (nofZ D k)).
Definition gbytes (n w : Z) : outcome (binary_float 53 1024) := b <- bytes n w ;; k <- cubes I64 1024 ;; Ok (ndiv D (nofZ D b) (nofZ D k)).

(** derived1D.hpp 411-423, derived2D.hpp 782-794: equal(A, list) and equal(list, A). *)
Definition equal_list {V} (zero : V) (c : cfg) (neq : V -> V -> outcome bool) (A : src1 V) (l : list V) : outcome bool :=
  B <- arr_of_list zero c l ;; x_eq1 neq A (src_of_arr B).
Definition list_equal {V} (zero : V) (c : cfg) (neq : V -> V -> outcome bool) (l : list V) (A : src1 V) : outcome bool :=
  B <- arr_of_list zero c l ;; x_eq1 neq (src_of_arr B) A.
Definition equal_list2 {V} (zero : V) (c : cfg) (neq : V -> V -> outcome bool) (A : src2 V) (L : list (list V)) : outcome bool :=
  B <- arr2_of_list zero c L ;; x_eq2 neq A (src_of_arr2 B).
Definition list_equal2 {V} (zero : V) (c : cfg) (neq : V -> V -> outcome bool) (L : list (list V)) (A : src2 V) : outcome bool :=
  B <- arr2_of_list zero c L ;; x_eq2 neq (src_of_arr2 B) A.
