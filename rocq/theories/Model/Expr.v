(** Array expressions: Expr/types.hpp, Expr/unary.hpp, Expr/binary.hpp, Expr/special.hpp.
    An expression object is a read-only source (src1, src2): sizes and unchecked element functions.
    Simplifications: operands of one expression are evaluated left to right (the order is unspecified in C++);
    size() = rows() * cols() of the two-dimensional expressions is computed when the object is built, so that an
    overflowing product is UB there rather than at the first use of size(); sub-expressions are held by value, so the
    lifetimes of the temporaries that some expressions refer to are not modelled. *)
From Verif Require Import Base.Outcome Base.ZList Model.IntModel Model.ScalarOps Model.Index Model.Slice Model.Array1D Model.Array2D Model.View2D.

Section E.
Context (c : cfg).

(** types.hpp 52-58 (UnaryExprBase) and unary.hpp 218-221: generate(A, f). *)
Definition x_un {V W} (f : V -> outcome W) (A : src1 V) : src1 W :=
  mksrc1 (ssize A) (fun i => v <- sun A i ;; f v).
(** types.hpp 87-101 and unary.hpp 224-229. *)
Definition x_un2 {V W} (f : V -> outcome W) (A : src2 V) : src2 W :=
  mksrc2 (s2rows A) (s2cols A) (s2size A) (fun i j => v <- s2un A i j ;; f v) (fun k => v <- s2lin A k ;; f v).

(** types.hpp 114-121, 134-140 (BinaryExprBase) and binary.hpp 451-455: generate(A1, A2, f). *)
Definition x_bin {U V W} (f : U -> V -> outcome W) (A : src1 U) (B : src1 V) : outcome (src1 W) :=
  check_debug c (Ok (ssize A =? ssize B)) ;;;
  Ok (mksrc1 (ssize A) (fun i => u <- sun A i ;; v <- sun B i ;; f u v)).
(** types.hpp 114-121, 172-184 and binary.hpp 458-462; same_size of two-dimensional objects: array_auxiliary.hpp 40-48. *)
Definition x_bin2 {U V W} (f : U -> V -> outcome W) (A : src2 U) (B : src2 V) : outcome (src2 W) :=
  check_debug c (Ok (same_size2 (s2rows A) (s2cols A) (s2rows B) (s2cols B))) ;;;
  Ok (mksrc2 (s2rows A) (s2cols A) (s2size A) (fun i j => u <- s2un A i j ;; v <- s2un B i j ;; f u v)
             (fun k => u <- s2lin A k ;; v <- s2lin B k ;; f u v)).

(** types.hpp 189-220: SequenceExpr1D, with the arithmetic of the element type as parameters; special.hpp 419-428. *)
Definition x_seq {V} (add mul : V -> V -> outcome V) (cast : Z -> outcome V) (size : Z) (start incr : V) : outcome (src1 V) :=
  check_debug c (Ok (-1 <? size)) ;;;
  Ok (mksrc1 size (fun i => k <- cast i ;; p <- mul incr k ;; add start p)).
(** special.hpp 432-444. *)
Definition x_linspace {V} (add sub mul div : V -> V -> outcome V) (cast : Z -> outcome V) (size : Z) (start fin : V)
  : outcome (src1 V) :=
  check_debug c (Ok (0 <? size)) ;;;
  d <- sub fin start ;; m <- lsub size 1 ;; k <- cast m ;; q <- div d k ;; x_seq add mul cast size start q.
(** special.hpp 447-449: irange(n). *)
Definition x_irange (n : Z) : outcome (src1 Z) := x_seq ladd lmul Ok n 0 1.
(** special.hpp 452-486: irange(A), irange_m1(A), irange_row(A), irange_row_m1(A), irange_col(A), irange_col_m1(A)
    for a size, number of rows or number of columns n (size_m1() is size() - 1). *)
Definition x_irange_m1 (n : Z) : outcome (src1 Z) := m <- lsub n 1 ;; x_irange m.
(** generate(irange(n), g). *)
Definition x_gen {V} (n : Z) (g : Z -> outcome V) : outcome (src1 V) := A <- x_irange n ;; Ok (x_un g A).

(** special.hpp 489-501: e_unit. *)
Definition x_e_unit {V} (one zero : V) (u n : Z) : outcome (src1 V) :=
  check_debug c (Ok (-1 <? u)) ;;; check_debug c (Ok (u <? n)) ;;;
  x_gen n (fun i => Ok (if i =? u then one else zero)).
(** special.hpp 521-533: const1D. *)
Definition x_const1 {V} (n : Z) (x : V) : outcome (src1 V) := check_debug c (Ok (-1 <? n)) ;;; x_gen n (fun _ => Ok x).

(** types.hpp 224-267: IndexExpr2D. *)
Definition x_index2 {V} (m n : Z) (op : Z -> Z -> outcome V) : outcome (src2 V) :=
  check_debug c (Ok (-1 <? m)) ;;; check_debug c (Ok (-1 <? n)) ;;;
  k <- lmul m n ;;
  Ok (mksrc2 m n k op (fun i => ' p <- index_map_one_to_two c n i ;; op (fst p) (snd p))).
(** special.hpp 264-268: irange2D. *)
Definition x_irange2 (m n : Z) : outcome (src2 Z) := x_index2 m n (fun i j => p <- lmul i n ;; ladd p j).
(** generate(irange2D(m, n), g). *)
Definition x_gen2 {V} (m n : Z) (g : Z -> outcome V) : outcome (src2 V) := A <- x_irange2 m n ;; Ok (x_un2 g A).
(** special.hpp 504-510: identity. *)
Definition x_identity {V} (one zero : V) (n : Z) : outcome (src2 V) :=
  check_debug c (Ok (-1 <? n)) ;;; x_index2 n n (fun i j => Ok (if i =? j then one else zero)).
(** special.hpp 513-518: transpose. *)
Definition x_transpose {V} (A : src2 V) : outcome (src2 V) := x_index2 (s2cols A) (s2rows A) (fun i j => s2un A j i).
(** special.hpp 536-547: const2D. *)
Definition x_const2 {V} (m n : Z) (x : V) : outcome (src2 V) :=
  check_debug c (Ok (-1 <? m)) ;;; check_debug c (Ok (-1 <? n)) ;;; check_debug c (Ok (semi_valid m n)) ;;;
  x_gen2 m n (fun _ => Ok x).

(** binary.hpp 437-448: generate_const, and the operators with a scalar on the right (637-712) and on the left (558-633). *)
Definition x_scal_r {U V W} (f : U -> V -> outcome W) (A : src1 U) (x : V) : outcome (src1 W) :=
  B <- x_const1 (ssize A) x ;; x_bin f A B.
Definition x_scal_l {U V W} (f : U -> V -> outcome W) (x : U) (A : src1 V) : outcome (src1 W) :=
  B <- x_const1 (ssize A) x ;; x_bin f B A.
Definition x_scal2_r {U V W} (f : U -> V -> outcome W) (A : src2 U) (x : V) : outcome (src2 W) :=
  B <- x_const2 (s2rows A) (s2cols A) x ;; x_bin2 f A B.
Definition x_scal2_l {U V W} (f : U -> V -> outcome W) (x : U) (A : src2 V) : outcome (src2 W) :=
  B <- x_const2 (s2rows A) (s2cols A) x ;; x_bin2 f B A.

(** special.hpp 297-303: merge(A1, A2). *)
Definition x_merge {V} (A B : src1 V) : outcome (src1 V) :=
  let AE := x_un Ok A in let BE := x_un Ok B in
  n <- ladd (ssize A) (ssize B) ;;
  x_gen n (fun i => if i <? ssize AE then sun AE i else k <- lsub i (ssize AE) ;; sun BE k).
(** special.hpp 288-294: merge(A, A1, A2, ...) for three or more arrays; the last two are merged by 297-303. *)
Fixpoint x_merge_all {V} (A : src1 V) (l : list (src1 V)) : outcome (src1 V) :=
  match l with
  | [] => Ok A
  | [B] => x_merge A B
  | B :: l' =>
      E <- x_merge_all B l' ;;
      let AE := x_un Ok A in
      n <- ladd (ssize AE) (ssize E) ;;
      x_gen n (fun i => if i <? ssize AE then sun AE i else k <- lsub i (ssize AE) ;; sun E k)
  end.
(** special.hpp 312-317: merge(A, x). *)
Definition x_merge_back {V} (A : src1 V) (x : V) : outcome (src1 V) :=
  let AE := x_un Ok A in
  n <- ladd (ssize AE) 1 ;; x_gen n (fun i => if i =? ssize AE then Ok x else sun AE i).
(** special.hpp 306-309: merge(A, x, y, ...). *)
Fixpoint x_merge_backs {V} (A : src1 V) (xs : list V) : outcome (src1 V) :=
  match xs with
  | [] => Ok A
  | x :: xs' => B <- x_merge_back A x ;; x_merge_backs B xs'
  end.
(** special.hpp 328-333: merge(x, A). *)
Definition x_merge_front {V} (x : V) (A : src1 V) : outcome (src1 V) :=
  let AE := x_un Ok A in
  n <- ladd (ssize AE) 1 ;; x_gen n (fun i => if i =? 0 then Ok x else k <- lsub i 1 ;; sun AE k).
(** special.hpp 320-325: merge(x, y, ..., A). *)
Fixpoint x_merge_fronts {V} (xs : list V) (A : src1 V) : outcome (src1 V) :=
  match xs with
  | [] => Ok A
  | x :: xs' => B <- x_merge_fronts xs' A ;; x_merge_front x B
  end.

(** special.hpp 394-403: exclude(A, pos, count). *)
Definition x_exclude {V} (A : src1 V) (pos count : Z) : outcome (src1 V) :=
  check_debug c (Ok (0 <? count)) ;;;
  check_debug c (Ok (valid_index (ssize A) pos)) ;;;
  check_debug c (s <- ladd pos count ;; e <- lsub s 1 ;; Ok (valid_index (ssize A) e)) ;;;
  let AE := x_un Ok A in
  n <- lsub (ssize A) count ;;
  x_gen n (fun j => if j <? pos then sun AE j else k <- ladd j count ;; sun AE k).
(** special.hpp 406-409: the Pos/Count overload (argument constructors: auxiliary_types.hpp 37-64). *)
Definition x_exclude_pc {V} (A : src1 V) (pos count : Z) : outcome (src1 V) :=
  p <- nonneg_arg c pos ;; k <- nonneg_arg c count ;; x_exclude A p k.
(** special.hpp 412-415: exclude(A, last - k); k is not used. *)
Definition x_exclude_last {V} (A : src1 V) (k : Z) : outcome (src1 V) := p <- lsub (ssize A) 1 ;; x_exclude A p 1.

(** special.hpp 271-281: horizontal_op. *)
Definition horizontal_op {V} (A B : src2 V) (i : Z) : outcome V :=
  n <- ladd (s2cols A) (s2cols B) ;;
  r <- ldiv c i n ;; k <- lmod c i n ;;
  j2 <- lsub k (s2cols A) ;;
  if k <? s2cols A then p <- lmul r (s2cols A) ;; q <- ladd p k ;; s2lin A q
  else p <- lmul r (s2cols B) ;; q <- ladd p j2 ;; s2lin B q.
(** special.hpp 351-362: merge_horizontal(A1, A2). *)
Definition x_mergeh {V} (A B : src2 V) : outcome (src2 V) :=
  let AE := x_un2 Ok A in let BE := x_un2 Ok B in
  (if negb (s2size AE =? 0) && negb (s2size BE =? 0) then check_debug c (Ok (s2rows A =? s2rows B)) else Ok tt) ;;;
  let m := if negb (s2size AE =? 0) then s2rows AE else s2rows BE in
  n <- ladd (s2cols AE) (s2cols BE) ;; x_gen2 m n (horizontal_op AE BE).
(** special.hpp 379-390: merge_vertical(A1, A2). *)
Definition x_mergev {V} (A B : src2 V) : outcome (src2 V) :=
  let AE := x_un2 Ok A in let BE := x_un2 Ok B in
  (if negb (s2size AE =? 0) && negb (s2size BE =? 0) then check_debug c (Ok (s2cols A =? s2cols B)) else Ok tt) ;;;
  let n := if negb (s2size AE =? 0) then s2cols AE else s2cols BE in
  m <- ladd (s2rows AE) (s2rows BE) ;;
  x_gen2 m n (fun i => if i <? s2size AE then s2lin AE i else k <- lsub i (s2size AE) ;; s2lin BE k).
(** special.hpp 337-348, 365-376: three or more arrays (A is x_un2 Ok A there, the rest is not copied again). *)
Fixpoint x_mergeh_all {V} (A : src2 V) (l : list (src2 V)) : outcome (src2 V) :=
  match l with
  | [] => Ok A
  | [B] => x_mergeh A B
  | B :: l' =>
      E <- x_mergeh_all B l' ;;
      let AE := x_un2 Ok A in
      (if negb (s2size AE =? 0) && negb (s2size E =? 0) then check_debug c (Ok (s2rows AE =? s2rows E)) else Ok tt) ;;;
      let m := if negb (s2size AE =? 0) then s2rows AE else s2rows E in
      n <- ladd (s2cols AE) (s2cols E) ;; x_gen2 m n (horizontal_op AE E)
  end.
Fixpoint x_mergev_all {V} (A : src2 V) (l : list (src2 V)) : outcome (src2 V) :=
  match l with
  | [] => Ok A
  | [B] => x_mergev A B
  | B :: l' =>
      E <- x_mergev_all B l' ;;
      let AE := x_un2 Ok A in
      (if negb (s2size AE =? 0) && negb (s2size E =? 0) then check_debug c (Ok (s2cols AE =? s2cols E)) else Ok tt) ;;;
      let n := if negb (s2size AE =? 0) then s2cols AE else s2cols E in
      m <- ladd (s2rows AE) (s2rows E) ;;
      x_gen2 m n (fun i => if i <? s2size AE then s2lin AE i else k <- lsub i (s2size AE) ;; s2lin E k)
  end.

(** Views of expressions (derived1D.hpp, derived2D.hpp): the element functions of View2D.v read through the source. *)
Definition x_base1 {V} (A : src1 V) : obj := O1 (ssize A).
Definition x_base2 {V} (A : src2 V) : obj := O2 (s2rows A) (s2cols A) (s2size A).
Definition x_see1 {V} (rd : Z -> outcome V) (o : obj) : outcome (src1 V) :=
  n <- o_size o ;; Ok (mksrc1 n (fun i => p <- o_lin c o i ;; rd p)).
Definition x_see2 {V} (rd : Z -> outcome V) (o : obj) : outcome (src2 V) :=
  k <- o_size o ;; Ok (mksrc2 (o_rows o) (o_cols o) k (fun i j => p <- o_at c o i j ;; rd p) (fun i => p <- o_lin c o i ;; rd p)).
Definition x_row {V} (A : src2 V) (i : Z) : outcome (src1 V) := o <- o_row c (x_base2 A) (Plain i) ;; x_see1 (s2lin A) o.
Definition x_col {V} (A : src2 V) (i : Z) : outcome (src1 V) := o <- o_col c (x_base2 A) (Plain i) ;; x_see1 (s2lin A) o.

(** types.hpp 271-308 (ReduceExpr), special.hpp 550-561: row_reduce, col_reduce. *)
Definition x_row_reduce {V W} (op : src1 V -> outcome W) (A : src2 V) : src1 W :=
  mksrc1 (s2rows A) (fun i => r <- x_row A i ;; op r).
Definition x_col_reduce {V W} (op : src1 V -> outcome W) (A : src2 V) : src1 W :=
  mksrc1 (s2cols A) (fun i => r <- x_col A i ;; op r).

(** types.hpp 311-352 (BroadCastExpr), special.hpp 564-575. *)
Definition x_broadcast {V} (rowwise : bool) (A : src1 V) : outcome (src2 V) :=
  k <- lmul (ssize A) (ssize A) ;;
  let un := fun i j => if rowwise then sun A j else sun A i in
  Ok (mksrc2 (ssize A) (ssize A) k un (fun i => ' p <- index_map_one_to_two c (ssize A) i ;; un (fst p) (snd p))).
(** types.hpp 355-395 (TensorExpr), binary.hpp 731-735. *)
Definition x_tensor {U V W} (mul : U -> V -> outcome W) (A : src1 U) (B : src1 V) : outcome (src2 W) :=
  k <- lmul (ssize A) (ssize B) ;;
  let un := fun i j => u <- sun A i ;; v <- sun B j ;; mul u v in
  Ok (mksrc2 (ssize A) (ssize B) k un (fun i => ' p <- index_map_one_to_two c (ssize B) i ;; un (fst p) (snd p))).

(** binary.hpp 719-725: the dot product inside matvec_prod (checked subscripts). *)
Definition x_dot {U V W} (zero : W) (add : W -> W -> outcome W) (mul : U -> V -> outcome W) (A : src1 U) (B : src1 V)
  : outcome W :=
  for_ 0 (ssize A) (fun i s => a <- sub1 c A (Plain i) ;; b <- sub1 c B (Plain i) ;; p <- mul a b ;; add s p) zero.
(** binary.hpp 715-728. *)
Definition x_matvec {U V W} (zero : W) (add : W -> W -> outcome W) (mul : U -> V -> outcome W) (A : src2 U) (x : src1 V)
  : outcome (src1 W) :=
  check_debug c (Ok (s2cols A =? ssize x)) ;;; Ok (x_row_reduce (fun r => x_dot zero add mul r x) A).

(** derived1D.hpp 264-270: eval(): Array1D A(size); return A = *this. *)
Definition x_eval1 {V} (zero : V) (A : src1 V) : outcome (arr V) :=
  a <- arr_new zero c (ssize A) ;;
  match arr_assign c A a with MOk a' => Ok a' | MFail f _ => Fail f | MUB => UB end.
(** derived2D.hpp 621-627. *)
Definition x_eval2 {V} (zero : V) (A : src2 V) : outcome (arr2 V) :=
  a <- arr2_new zero c (s2rows A) (s2cols A) ;;
  match arr2_assign c A a with MOk a' => Ok a' | MFail f _ => Fail f | MUB => UB end.

(** array_auxiliary.hpp 65-77: operator== (linear element comparison after same_size, first difference decides). *)
Fixpoint eq_loop {U V} (k : nat) (i : Z) (neq : U -> V -> outcome bool) (f : Z -> outcome U) (g : Z -> outcome V) : outcome bool :=
  match k with
  | O => Ok true
  | S k' => u <- f i ;; v <- g i ;; d <- neq u v ;; if d then Ok false else eq_loop k' (i + 1) neq f g
  end.
Definition x_eq1 {U V} (neq : U -> V -> outcome bool) (A : src1 U) (B : src1 V) : outcome bool :=
  if ssize A =? ssize B then eq_loop (Z.to_nat (ssize A)) 0 neq (sun A) (sun B) else Ok false.
Definition x_eq2 {U V} (neq : U -> V -> outcome bool) (A : src2 U) (B : src2 V) : outcome bool :=
  if same_size2 (s2rows A) (s2cols A) (s2rows B) (s2cols B)
  then eq_loop (Z.to_nat (s2size A)) 0 neq (s2lin A) (s2lin B) else Ok false.
(** array_auxiliary.hpp 80-84: operator!=. *)
Definition x_neq1 {U V} (neq : U -> V -> outcome bool) (A : src1 U) (B : src1 V) : outcome bool := b <- x_eq1 neq A B ;; Ok (negb b).
Definition x_neq2 {U V} (neq : U -> V -> outcome bool) (A : src2 U) (B : src2 V) : outcome bool := b <- x_eq2 neq A B ;; Ok (negb b).
End E.

(** special.hpp 419-422, types.hpp 208-210: sequence of an integer type. *)
Definition x_seq_int (c : cfg) (t : ity) (n a d : Z) : outcome (src1 Z) := x_seq c (iadd t) (imul t) (fun i => Ok (icast t i)) n a d.

(** Integer element operators as used by the array operators: binary.hpp 465-540 (through Expr/functors.hpp) and the
    unary ones of unary.hpp 232-343.  The functor names BinaryRightShift / BinaryLeftShift are exchanged with respect to
    what they compute; operator<< on arrays computes << on elements. *)
Inductive iop := Oadd | Osub | Omul | Odiv | Omod | Oshl | Oshr | Oand | Oor | Oxor.
Definition iop_fun (c : cfg) (t : ity) (o : iop) (x y : Z) : outcome Z :=
  match o with
  | Oadd => iadd t x y
  | Osub => isub t x y
  | Omul => imul t x y
  | Odiv => idiv c t x y
  | Omod => imod c t x y
  | Oshl => ishl c t x y
  | Oshr => ishr c t x y
  | Oand => Ok (iand t x y)
  | Oor => Ok (ior t x y)
  | Oxor => Ok (ixor t x y)
  end.

(** Expressions written by a caller: nested to any depth, mixing one- and two-dimensional parts.  Leaves are arrays, slices
    or generated sequences (any source).  A reduction carries the function applied to each row (column) and, for the
    specification only, the same function on lists of elements. *)
Inductive ex1 : Type -> Type :=
| XLeaf : forall V : Type, src1 V -> ex1 V
| XUn : forall V W : Type, (V -> outcome W) -> ex1 V -> ex1 W
| XBin : forall U V W : Type, (U -> V -> outcome W) -> ex1 U -> ex1 V -> ex1 W
| XScalR : forall U V W : Type, (U -> V -> outcome W) -> ex1 U -> V -> ex1 W
| XScalL : forall U V W : Type, (U -> V -> outcome W) -> U -> ex1 V -> ex1 W
| XGen : forall V : Type, Z -> (Z -> outcome V) -> ex1 V
| XMerge : forall V : Type, ex1 V -> ex1 V -> ex1 V
| XMergeBack : forall V : Type, ex1 V -> V -> ex1 V
| XMergeFront : forall V : Type, V -> ex1 V -> ex1 V
| XExclude : forall V : Type, ex1 V -> Z -> Z -> ex1 V
| XExcludeLast : forall V : Type, ex1 V -> Z -> ex1 V
| XRowRed : forall V W : Type, (src1 V -> outcome W) -> (list (outcome V) -> outcome W) -> ex2 V -> ex1 W
| XColRed : forall V W : Type, (src1 V -> outcome W) -> (list (outcome V) -> outcome W) -> ex2 V -> ex1 W
| XMatvec : forall U V W : Type, W -> (W -> W -> outcome W) -> (U -> V -> outcome W) -> ex2 U -> ex1 V -> ex1 W
| XView1 : forall V : Type, ex1 V -> vop -> ex1 V
| XView2 : forall V : Type, ex2 V -> vop -> ex1 V
with ex2 : Type -> Type :=
| YLeaf : forall V : Type, src2 V -> ex2 V
| YUn : forall V W : Type, (V -> outcome W) -> ex2 V -> ex2 W
| YBin : forall U V W : Type, (U -> V -> outcome W) -> ex2 U -> ex2 V -> ex2 W
| YScalR : forall U V W : Type, (U -> V -> outcome W) -> ex2 U -> V -> ex2 W
| YScalL : forall U V W : Type, (U -> V -> outcome W) -> U -> ex2 V -> ex2 W
| YIndex : forall V : Type, Z -> Z -> (Z -> Z -> outcome V) -> ex2 V
| YTranspose : forall V : Type, ex2 V -> ex2 V
| YMergeH : forall V : Type, ex2 V -> ex2 V -> ex2 V
| YMergeV : forall V : Type, ex2 V -> ex2 V -> ex2 V
| YBroadcast : forall V : Type, bool -> ex1 V -> ex2 V
| YTensor : forall U V W : Type, (U -> V -> outcome W) -> ex1 U -> ex1 V -> ex2 W
| YView1 : forall V : Type, ex1 V -> vop -> ex2 V
| YView2 : forall V : Type, ex2 V -> vop -> ex2 V.

(** Building the expression object: each node calls the function that C++ calls. *)
Fixpoint build1 (c : cfg) {V : Type} (e : ex1 V) {struct e} : outcome (src1 V) :=
  match e in ex1 V return outcome (src1 V) with
  | XLeaf _ A => Ok A
  | XUn _ _ f e => A <- build1 c e ;; Ok (x_un f A)
  | XBin _ _ _ f e1 e2 => A <- build1 c e1 ;; B <- build1 c e2 ;; x_bin c f A B
  | XScalR _ _ _ f e x => A <- build1 c e ;; x_scal_r c f A x
  | XScalL _ _ _ f x e => A <- build1 c e ;; x_scal_l c f x A
  | XGen _ n g => x_gen c n g
  | XMerge _ e1 e2 => A <- build1 c e1 ;; B <- build1 c e2 ;; x_merge c A B
  | XMergeBack _ e x => A <- build1 c e ;; x_merge_back c A x
  | XMergeFront _ x e => A <- build1 c e ;; x_merge_front c x A
  | XExclude _ e pos count => A <- build1 c e ;; x_exclude c A pos count
  | XExcludeLast _ e k => A <- build1 c e ;; x_exclude_last c A k
  | XRowRed _ _ op _ e => A <- build2 c e ;; Ok (x_row_reduce c op A)
  | XColRed _ _ op _ e => A <- build2 c e ;; Ok (x_col_reduce c op A)
  | XMatvec _ _ _ z add mul e x => A <- build2 c e ;; B <- build1 c x ;; x_matvec c z add mul A B
  | XView1 _ e w => A <- build1 c e ;; o <- o_apply c (x_base1 A) w ;; x_see1 c (sun A) o
  | XView2 _ e w => A <- build2 c e ;; o <- o_apply c (x_base2 A) w ;; x_see1 c (s2lin A) o
  end
with build2 (c : cfg) {V : Type} (e : ex2 V) {struct e} : outcome (src2 V) :=
  match e in ex2 V return outcome (src2 V) with
  | YLeaf _ A => Ok A
  | YUn _ _ f e => A <- build2 c e ;; Ok (x_un2 f A)
  | YBin _ _ _ f e1 e2 => A <- build2 c e1 ;; B <- build2 c e2 ;; x_bin2 c f A B
  | YScalR _ _ _ f e x => A <- build2 c e ;; x_scal2_r c f A x
  | YScalL _ _ _ f x e => A <- build2 c e ;; x_scal2_l c f x A
  | YIndex _ m n op => x_index2 c m n op
  | YTranspose _ e => A <- build2 c e ;; x_transpose c A
  | YMergeH _ e1 e2 => A <- build2 c e1 ;; B <- build2 c e2 ;; x_mergeh c A B
  | YMergeV _ e1 e2 => A <- build2 c e1 ;; B <- build2 c e2 ;; x_mergev c A B
  | YBroadcast _ r e => A <- build1 c e ;; x_broadcast c r A
  | YTensor _ _ _ mul e1 e2 => A <- build1 c e1 ;; B <- build1 c e2 ;; x_tensor c mul A B
  | YView1 _ e w => A <- build1 c e ;; o <- o_apply c (x_base1 A) w ;; x_see2 c (sun A) o
  | YView2 _ e w => A <- build2 c e ;; o <- o_apply c (x_base2 A) w ;; x_see2 c (s2lin A) o
  end.
