(** Assignments whose right side is any expression (Model/Expr.v) in which the array being assigned occurs:
    array_base1D.hpp, derived_base.hpp, ArrayCommon/algorithm.hpp, Expr/*.hpp.
    An expression is given as a function of the current contents of the array, because the expression object refers to the array
    (CopyOrReferenceExpr, ArrayCommon/array_traits.hpp 91-106) and sees every element as it is when it is read.
    Simplifications: the object is built anew for every element; in C++ it is built once, which is the same because building
    depends on sizes only, and an assignment changes no size (Spec/SelfSpec.v, written1, says which functions stand for
    expressions).  __restrict in algorithm.hpp is ignored as in Model/ViewAssign.v; matvec_prod is taken to work although its
    result refers to a dead local object without members (C68). *)
From Verif Require Import Base.Outcome Base.ZList Model.Index Model.Slice Model.Array1D Model.Array2D Model.View2D Model.Expr Model.ViewAssign.

Section Self.
Context {V : Type} (zero : V) (c : cfg).
Implicit Types (a : arr V) (e : list V -> ex1 V).
(** array_base1D.hpp 464-481 (size, un): the array itself as an operand, when its contents are b. *)
Definition itself (b : list V) : ex1 V := XLeaf V (src_of_arr (mkarr b (zlen b))).
(** Reading element i of the expression in the middle of a loop. *)
Definition reread (e : list V -> ex1 V) (b : list V) (i : Z) : outcome V := A <- build1 c (e b) ;; sun A i.
(** array_base1D.hpp 252-257: x = e. *)
Definition self_assign e a : mut (arr V) :=
  match build1 c (e (buf a)) with
  | Ok A => arr_assign_rd c (ssize A) (reread e) a
  | Fail f => MFail f a
  | UB => MUB
  end.
(** derived_base.hpp 129-207: x op= e. *)
Definition self_update (f : V -> V -> outcome V) e a : mut (arr V) :=
  match build1 c (e (buf a)) with
  | Ok A => with_buf a (v_op_array c f (O1 (an a)) (ssize A) (reread e) (buf a))
  | Fail f => MFail f a
  | UB => MUB
  end.
(** array_base1D.hpp 304-309: x.resize_and_assign(e). *)
Definition self_resize e a : outcome (arr V) := A <- build1 c (e (buf a)) ;; arr_resize_and_assign zero c A.
End Self.

(** The same for matrices: array_base2D.hpp, derived_base.hpp, ArrayCommon/algorithm.hpp.  An expression is a function of the
    elements of the matrix, row by row. *)
Section Self2.
Context {V : Type} (zero : V) (c : cfg).
Implicit Types (a : arr2 V) (e : list V -> ex2 V).
(** array_base2D.hpp (rows, cols, size, un): the m x n array itself as an operand, when its elements are b. *)
Definition itself2 (m n : Z) (b : list V) : ex2 V := YLeaf V (src_of_arr2 (mkarr2 m n (mkarr b (zlen b)))).
(** Reading element (i, j), and element i of the linear order, in the middle of a loop. *)
Definition reread2 (e : list V -> ex2 V) (b : list V) (i j : Z) : outcome V := A <- build2 c (e b) ;; s2un A i j.
Definition reread_lin (e : list V -> ex2 V) (b : list V) (i : Z) : outcome V := A <- build2 c (e b) ;; s2lin A i.
(** array_base2D.hpp 229-234: A = e, algorithm.hpp 77-84 (copy row by row). *)
Definition self_assign2 e a : mut (arr2 V) :=
  match build2 c (e (buf (dat a))) with
  | Ok A => arr2_assign_rd c (s2rows A) (s2cols A) (reread2 e) a
  | Fail f => MFail f a
  | UB => MUB
  end.
(** derived_base.hpp 129-207: A op= e, algorithm.hpp 26-31 (one index from 0 to size()). *)
Definition self_update2 (f : V -> V -> outcome V) e a : mut (arr2 V) :=
  match build2 c (e (buf (dat a))) with
  | Ok A => mbind (v_op_array2 c f (O2 (drows a) (dcols a) (an (dat a))) (s2rows A) (s2cols A) (reread_lin e) (buf (dat a)))
                  (fun b => MOk (mkarr2 (drows a) (dcols a) (mkarr b (an (dat a))))) (fun b => mkarr2 (drows a) (dcols a) (mkarr b (an (dat a))))
  | Fail f => MFail f a
  | UB => MUB
  end.
(** array_base2D.hpp 286-291: A.resize_and_assign(e). *)
Definition self_resize2 e a : outcome (arr2 V) := A <- build2 c (e (buf (dat a))) ;; arr2_resize_and_assign zero c A.
End Self2.

(** The same for a view of an array, A(w) = e and A(w) op= e where e reads A: slicearray_base1D.hpp, slicearray_base2D.hpp.
    b is the storage of the array, o the view.  If e is itself a temporary slice of the type of A(w), failures go through a
    noexcept function (Model/ViewAssign.v, v_assign_rvalue); here e is any other expression. *)
Section Self3.
Context {V : Type} (c : cfg).
Implicit Types (o : obj) (b : list V).
(** slicearray_base1D.hpp 78-93: A(w) = e. *)
Definition part_assign o (e : list V -> ex1 V) b : mut (list V) :=
  match build1 c (e b) with
  | Ok A => v_assign c o (ssize A) (reread c e) b
  | Fail f => MFail f b
  | UB => MUB
  end.
(** derived_base.hpp 129-207: A(w) op= e. *)
Definition part_update (f : V -> V -> outcome V) o (e : list V -> ex1 V) b : mut (list V) :=
  match build1 c (e b) with
  | Ok A => v_op_array c f o (ssize A) (reread c e) b
  | Fail f => MFail f b
  | UB => MUB
  end.
(** slicearray_base2D.hpp 88-104: A(w) = e in two dimensions. *)
Definition part_assign2 o (e : list V -> ex2 V) b : mut (list V) :=
  match build2 c (e b) with
  | Ok A => v_assign2 c o (s2rows A) (s2cols A) (reread2 c e) b
  | Fail f => MFail f b
  | UB => MUB
  end.
(** derived_base.hpp 129-207: A(w) op= e in two dimensions. *)
Definition part_update2 (f : V -> V -> outcome V) o (e : list V -> ex2 V) b : mut (list V) :=
  match build2 c (e b) with
  | Ok A => v_op_array2 c f o (s2rows A) (s2cols A) (reread_lin c e) b
  | Fail f => MFail f b
  | UB => MUB
  end.
End Self3.
