(** Which operands the builders of expressions, slices and iterators accept, and what the objects they return refer to.
    Client programs are blocks of declarations [auto x = t;] and uses of [t] inside one full expression.  Only lifetimes are
    modelled here: sizes and values are in the other models, and const variants of the member functions behave like the non-const
    ones.  User functions (of generate, row_reduce, col_reduce) refer to nothing.  Not modelled: resizing, moving from or assigning to a
    variable while references to its elements exist, and references to temporaries whose life [auto&&] extends. *)
From Coq Require Import List Arith Bool.
Import ListNotations.

(** strict_traits.hpp 30-52: Boolean, SignedInteger, UnsignedInteger, Floating; the number distinguishes types of one class. *)
Inductive elt := EBool | ESInt (w : nat) | EUInt (w : nat) | EFlt (w : nat).
Definition elt_eqb (a b : elt) : bool :=
  match a, b with
  | EBool, EBool => true | ESInt v, ESInt w => v =? w | EUInt v, EUInt w => v =? w | EFlt v, EFlt w => v =? w | _, _ => false
  end.
(** strict_traits.hpp 30-52. *)
Definition is_bool (e : elt) : bool := match e with EBool => true | _ => false end.
Definition is_sint (e : elt) : bool := match e with ESInt _ => true | _ => false end.
Definition is_integer (e : elt) : bool := match e with ESInt _ | EUInt _ => true | _ => false end.
Definition is_floating (e : elt) : bool := match e with EFlt _ => true | _ => false end.
Definition is_real (e : elt) : bool := is_floating e || is_integer e.

(** array_traits.hpp 21-27: one- and two-dimensional bases. *)
Inductive dim := D1 | D2.
Definition dim_eqb (a b : dim) : bool := match a, b with D1, D1 | D2, D2 => true | _, _ => false end.
(** Arrays own their elements (ArrayBase, array_traits.hpp 25-27); a slice of an expression computes its elements and is an
    expression here; random expressions cannot be copied (Expr/types.hpp 44-46, 412); [KRef]: iterators, pointers, references
    to elements and RowIt/ColIt, which are not bases. *)
Inductive kind := KArray | KSlice | KExpr | KRand | KRef.
Record ty := mkty { tdim : dim; telt : elt; tkind : kind }.
(** Value categories: lvalue, xvalue, prvalue. *)
Inductive cat := Lv | Xv | Pv.
Definition sig : Type := ty * cat.
Definition is_base (t : ty) : bool := match tkind t with KRef => false | _ => true end.
Definition is_array (t : ty) : bool := match tkind t with KArray => true | _ => false end.
Definition is_rvalue (c : cat) : bool := match c with Lv => false | _ => true end.
(** array_traits.hpp 183-228: the concepts Array...TypeRvalue, with the condition [p] on the elements and [d] on the dimension. *)
Definition array_rvalue (p : elt -> bool) (s : sig) : bool := is_rvalue (snd s) && is_array (fst s) && p (telt (fst s)).
Definition array_rvalue_dim (d : dim) (s : sig) : bool := is_rvalue (snd s) && is_array (fst s) && dim_eqb (tdim (fst s)) d.
(** expr_traits.hpp 31-52: RealExprDeleted, IntegerExprDeleted, BooleanExprDeleted, FloatingExprDeleted. *)
Definition expr_deleted (p : elt -> bool) (s1 s2 : sig) : bool :=
  (is_base (fst s1) && p (telt (fst s1)) && (is_base (fst s2) && p (telt (fst s2))))
  && (array_rvalue p s1 || array_rvalue p s2 || negb (dim_eqb (tdim (fst s1)) (tdim (fst s2)))).

(** unary.hpp 25-98: the unary functions; UCast r is array_cast. *)
Inductive unary := UPlus | UMinus | UBitNot | UNot | UAbs | UExp | ULog | ULog2 | ULog10 | USqrt | UCbrt | USin | UCos | UTan
  | UPow | UPowInt | UFastPowInt | UInv | UCast (r : elt).
(** unary.hpp 25-98: the condition on the element type. *)
Definition unary_dom (u : unary) (e : elt) : bool :=
  match u with
  | UPlus | UMinus | UAbs => is_real e
  | UBitNot => is_integer e
  | UNot => is_bool e
  | UExp | ULog | ULog2 | ULog10 | USqrt | UCbrt | USin | UCos | UTan | UPow | UPowInt | UFastPowInt | UInv => is_floating e
  | UCast _ => true
  end.
(** unary.hpp 103-195: the deleted overloads. *)
Definition unary_deleted (u : unary) (s : sig) : bool :=
  match u with
  | UPlus => array_rvalue is_real s
  | UMinus => array_rvalue is_real s
  | UBitNot => array_rvalue is_integer s
  | UNot => array_rvalue is_bool s
  | UAbs => array_rvalue is_real s
  | UExp => array_rvalue is_floating s
  | ULog => array_rvalue is_floating s
  | ULog2 => array_rvalue is_floating s
  | ULog10 => array_rvalue is_floating s
  | USqrt => array_rvalue is_floating s
  | UCbrt => array_rvalue is_floating s
  | USin => array_rvalue is_floating s
  | UCos => array_rvalue is_floating s
  | UTan => array_rvalue is_floating s
  | UPow => array_rvalue is_floating s
  | UPowInt => array_rvalue is_floating s
  | UFastPowInt => array_rvalue is_floating s
  | UInv => array_rvalue is_floating s
  | UCast _ => array_rvalue (fun _ => true) s
  end.
(** unary.hpp 232-343 and the functors: the type of the elements of the result. *)
Definition unary_elt (u : unary) (e : elt) : elt := match u with UCast r => r | _ => e end.

(** binary.hpp 29-78: the operators; ^ on integers and ^ on booleans are two overloads. *)
Inductive binop := OAdd | OSub | OMul | ODiv | OMod | OShl | OShr | OBitAnd | OBitOr | OBitXor | OAnd | OOr | OXor.
(** binary.hpp 29-78, 174-223, 295-344: the condition on the element type. *)
Definition binop_dom (o : binop) (e : elt) : bool :=
  match o with
  | OAdd | OSub | OMul | ODiv => is_real e
  | OMod | OShl | OShr | OBitAnd | OBitOr | OBitXor => is_integer e
  | OAnd | OOr | OXor => is_bool e
  end.
(** binary.hpp 97-159: the deleted overloads for two bases. *)
Definition binop_deleted (o : binop) (s1 s2 : sig) : bool :=
  match o with
  | OAdd => expr_deleted is_real s1 s2
  | OSub => expr_deleted is_real s1 s2
  | OMul => expr_deleted is_real s1 s2
  | ODiv => expr_deleted is_real s1 s2
  | OMod => expr_deleted is_integer s1 s2
  | OShl => expr_deleted is_integer s1 s2
  | OShr => expr_deleted is_integer s1 s2
  | OBitAnd => expr_deleted is_integer s1 s2
  | OBitOr => expr_deleted is_integer s1 s2
  | OBitXor => expr_deleted is_integer s1 s2
  | OAnd => expr_deleted is_bool s1 s2
  | OOr => expr_deleted is_bool s1 s2
  | OXor => expr_deleted is_bool s1 s2
  end.
(** binary.hpp 228-290 and 349-411: the deleted overloads for a scalar and a base, the same on both sides. *)
Definition scalar_deleted (o : binop) (s : sig) : bool :=
  match o with
  | OAdd => array_rvalue is_real s
  | OSub => array_rvalue is_real s
  | OMul => array_rvalue is_real s
  | ODiv => array_rvalue is_real s
  | OMod => array_rvalue is_integer s
  | OShl => array_rvalue is_integer s
  | OShr => array_rvalue is_integer s
  | OBitAnd => array_rvalue is_integer s
  | OBitOr => array_rvalue is_integer s
  | OBitXor => array_rvalue is_integer s
  | OAnd => array_rvalue is_bool s
  | OOr => array_rvalue is_bool s
  | OXor => array_rvalue is_bool s
  end.

(** Builders with one operand.
    B1Unary: unary.hpp 232-343.  B1Gen r: generate(A, f), unary.hpp 219-229.  B1ScalarL, B1ScalarR: binary.hpp 558-712.
    B1MergeScalar: merge with numbers, special.hpp 306-333.  B1Exclude: 394-415.  B1Transpose: 513-518.  B1RowReduce,
    B1ColReduce: 550-561.  B1RowBroadcast, B1ColBroadcast: 564-575.  B1Irange d: irange, irange_m1 (d one-dimensional), irange_row,
    irange_col and their _m1: 452-485.
    B1Slice: operator()(Slice), derived1D.hpp 177-252.  B1List: operator()(IndexList), 190-193, 211-214, 233-235.  B1View1D d, B1View2D d:
    view1D, view2D, derived1D.hpp 195-260, derived2D.hpp 241-358, attach2D.hpp 239-289.  B1Row, B1Col, B1Diag: derived2D.hpp
    214-350.  B1Slice2, B1Rows, B1Cols, B1Block, B1BlockN: derived2D.hpp 364-617.
    B1Begin: begin, end, cbegin, ..., crend: derived1D.hpp 99-172, derived2D.hpp 142-211.  B1Data: data, blas_data: array_base1D.hpp
    103-120, array_base2D.hpp 125-142.  B1Elem: operator[], operator(), un, at of a base: derived1D.hpp 56-92, derived2D.hpp 61-122.  B1RowIt: RowIt, ColIt: iterator.hpp
    735-747.  B1Eval: eval() and the constructors and functions returning arrays: derived1D.hpp 264-270, derived2D.hpp 621-627. *)
Inductive builder1 := B1Unary (u : unary) | B1Gen (r : elt) | B1ScalarL (o : binop) | B1ScalarR (o : binop) | B1MergeScalar | B1Exclude
  | B1Transpose | B1RowReduce (r : elt) | B1ColReduce (r : elt) | B1RowBroadcast | B1ColBroadcast | B1Irange (d : dim)
  | B1Slice | B1List | B1View1D (d : dim) | B1View2D (d : dim) | B1Row | B1Col | B1Diag | B1Slice2 | B1Rows | B1Cols | B1Block | B1BlockN
  | B1Begin | B1Data | B1Elem | B1RowIt | B1Eval.
(** Builders with two operands.  B2Gen r: generate(A1, A2, f), binary.hpp 451-462.  B2Op: 465-540.  B2TwoProd, B2PowProd: 543-554 (each
    of the two expressions of the pair).  B2Matvec, B2Tensor: 715-735.  B2Merge, B2MergeH, B2MergeV: special.hpp 288-303, 337-390 (with
    more operands they are the same as nested calls). *)
Inductive builder2 := B2Gen (r : elt) | B2Op (o : binop) | B2TwoProd | B2PowProd | B2Matvec | B2Tensor | B2Merge | B2MergeH | B2MergeV.

(** A slice of an array or of a slice refers to stored elements, a slice of an expression computes them. *)
Definition slice_kind (k : kind) : kind := match k with KArray | KSlice => KSlice | _ => KExpr end.
Definition expr_ty (d : dim) (e : elt) : ty := mkty d e KExpr.
(** The overload that is not deleted: its constraints on the operand and the type of the result (same lines as above).
    RowIt of a random expression does not compile (its rows keep a copy). *)
Definition accepts1 (b : builder1) (t : ty) : option ty :=
  let sub d := mkty d (telt t) (slice_kind (tkind t)) in
  let when (c : bool) (r : ty) := if is_base t && c then Some r else None in
  match b with
  | B1Unary u => when (unary_dom u (telt t)) (expr_ty (tdim t) (unary_elt u (telt t)))
  | B1Gen r => when true (expr_ty (tdim t) r)
  | B1ScalarL o | B1ScalarR o => when (binop_dom o (telt t)) (expr_ty (tdim t) (telt t))
  | B1MergeScalar | B1Exclude => when (dim_eqb (tdim t) D1) (expr_ty D1 (telt t))
  | B1Transpose => when (dim_eqb (tdim t) D2) (expr_ty D2 (telt t))
  | B1RowReduce r | B1ColReduce r => when (dim_eqb (tdim t) D2) (expr_ty D1 r)
  | B1RowBroadcast | B1ColBroadcast => when (dim_eqb (tdim t) D1) (expr_ty D2 (telt t))
  | B1Irange d => when (dim_eqb (tdim t) d) (expr_ty D1 (ESInt 0))
  | B1Slice | B1List => when (dim_eqb (tdim t) D1) (sub D1)
  | B1View1D d => when (dim_eqb (tdim t) d) (sub D1)
  | B1View2D d => when (dim_eqb (tdim t) d) (sub D2)
  | B1Row | B1Col | B1Diag => when (dim_eqb (tdim t) D2) (sub D1)
  | B1Slice2 | B1Rows | B1Cols | B1Block | B1BlockN => when (dim_eqb (tdim t) D2) (sub D2)
  | B1Begin => when true (mkty (tdim t) (telt t) KRef)
  | B1RowIt => when (dim_eqb (tdim t) D2 && match tkind t with KRand => false | _ => true end) (mkty D2 (telt t) KRef)
  | B1Data => when (is_array t) (mkty (tdim t) (telt t) KRef)
  | B1Elem => when true (mkty (tdim t) (telt t) KRef)
  | B1Eval => when true (mkty (tdim t) (telt t) KArray)
  end.
Definition accepts2 (b : builder2) (t1 t2 : ty) : option ty :=
  let when (c : bool) (r : ty) := if is_base t1 && is_base t2 && c then Some r else None in
  let same := elt_eqb (telt t1) (telt t2) in
  let dims := dim_eqb (tdim t1) (tdim t2) in
  match b with
  | B2Gen r => when dims (expr_ty (tdim t1) r)
  | B2Op o => when (binop_dom o (telt t1) && same && dims) (expr_ty (tdim t1) (telt t1))
  | B2TwoProd => when (is_floating (telt t1) && same && dims) (expr_ty (tdim t1) (telt t1))
  | B2PowProd => when (is_floating (telt t1) && is_sint (telt t2) && dims) (expr_ty (tdim t1) (telt t1))
  | B2Matvec => when (dim_eqb (tdim t1) D2 && dim_eqb (tdim t2) D1 && is_real (telt t1) && same) (expr_ty D1 (telt t1))
  | B2Tensor => when (dim_eqb (tdim t1) D1 && dim_eqb (tdim t2) D1 && is_real (telt t1) && same) (expr_ty D2 (telt t1))
  | B2Merge => when (dim_eqb (tdim t1) D1 && dims && same) (expr_ty D1 (telt t1))
  | B2MergeH | B2MergeV => when (dim_eqb (tdim t1) D2 && dims && same) (expr_ty D2 (telt t1))
  end.

(** The deleted overloads and the overloads missing for rvalues; overload resolution prefers a deleted overload that is viable
    (it takes its arguments by forwarding reference, the others by reference to const).
    unary.hpp 103-195; generate has none; binary.hpp 228-290, 349-411; special.hpp 219-257; irange has none (special.hpp 106-109);
    derived1D.hpp 249-260 (none for IndexList: 233-235 has no constraint); derived2D.hpp 334-358, 570-617; derived1D.hpp 160-172,
    derived2D.hpp 199-211; array_base1D.hpp 105-106, 115-120, array_base2D.hpp 127-142; none for elements; iterator.hpp 744; eval() is
    const&. *)
Definition deleted1 (b : builder1) (s : sig) : bool :=
  match b with
  | B1Unary u => unary_deleted u s
  | B1Gen _ => false
  | B1ScalarL o => scalar_deleted o s
  | B1ScalarR o => scalar_deleted o s
  | B1MergeScalar => array_rvalue_dim D1 s
  | B1Exclude => array_rvalue_dim D1 s
  | B1Transpose => array_rvalue_dim D2 s
  | B1RowReduce _ => array_rvalue_dim D2 s
  | B1ColReduce _ => array_rvalue_dim D2 s
  | B1RowBroadcast => array_rvalue_dim D1 s
  | B1ColBroadcast => array_rvalue_dim D1 s
  | B1Irange _ => false
  | B1Slice => array_rvalue_dim D1 s
  | B1List => false
  | B1View1D d => array_rvalue_dim d s
  | B1View2D d => array_rvalue_dim d s
  | B1Row => array_rvalue_dim D2 s
  | B1Col => array_rvalue_dim D2 s
  | B1Diag => array_rvalue_dim D2 s
  | B1Slice2 => array_rvalue_dim D2 s
  | B1Rows => array_rvalue_dim D2 s
  | B1Cols => array_rvalue_dim D2 s
  | B1Block => array_rvalue_dim D2 s
  | B1BlockN => array_rvalue_dim D2 s
  | B1Begin => is_rvalue (snd s)
  | B1Data => is_rvalue (snd s)
  | B1Elem => false
  | B1RowIt => is_rvalue (snd s)
  | B1Eval => false
  end.
(** binary.hpp 97-169, 419-422, 429-431 (the parameters of the deleted tensor_prod are constrained by OneDimRealBaseType, which
    is false for references: an lvalue operand makes it not viable); special.hpp 191-215; generate has none. *)
Definition deleted2 (b : builder2) (s1 s2 : sig) : bool :=
  match b with
  | B2Gen _ => false
  | B2Op o => binop_deleted o s1 s2
  | B2TwoProd => expr_deleted is_floating s1 s2
  | B2PowProd => expr_deleted is_floating s1 s2
  | B2Matvec => array_rvalue is_real s1 || array_rvalue is_real s2
  | B2Tensor => is_rvalue (snd s1) && is_rvalue (snd s2) && expr_deleted is_real s1 s2
  | B2Merge => array_rvalue_dim D1 s1 || array_rvalue_dim D1 s2
  | B2MergeH => array_rvalue_dim D2 s1 || array_rvalue_dim D2 s2
  | B2MergeV => array_rvalue_dim D2 s1 || array_rvalue_dim D2 s2
  end.

(** How an operand is kept.  [Keep]: CopyOrReferenceExpr (array_traits.hpp 91-106), a reference to an array and a copy of anything
    else; [ByRef]: a reference or a pointer to the operand itself; [Elem]: a reference to an element; [Drop]: not at all. *)
Inductive mode := Keep | ByRef | Elem | Drop.
(** Expr/types.hpp 62, 144-145, 306, 351, 393-394 (expressions), slicearray_base1D.hpp 49, 156 and slicearray_base2D.hpp 46, 198 (slices),
    attach2D.hpp 165, 210 (views): Keep; special.hpp 515: transpose captures [&A]; iterator.hpp 40, 59, 78, 100, 119, 138 and 815, 906:
    pointers and references. *)
Definition mode1 (b : builder1) : mode :=
  match b with
  | B1Transpose | B1Begin | B1RowIt | B1Data => ByRef
  | B1Elem => Elem
  | B1Irange _ | B1Eval => Drop
  | _ => Keep
  end.
(** binary.hpp 727: matvec_prod keeps A by row_reduce and captures [&x]. *)
Definition modes2 (b : builder2) : mode * mode := match b with B2Matvec => (Keep, ByRef) | _ => (Keep, Keep) end.
(** Keeping a copy of a random expression does not compile (Expr/types.hpp 44-46, 412). *)
Definition keepable (m : mode) (t : ty) : bool := match m, tkind t with Keep, KRand => false | _, _ => true end.

Definition call1 (b : builder1) (s : sig) : option sig :=
  match accepts1 b (fst s) with
  | Some r => if deleted1 b s || negb (keepable (mode1 b) (fst s)) then None else Some (r, Pv)
  | None => None
  end.
Definition call2 (b : builder2) (s1 s2 : sig) : option sig :=
  match accepts2 b (fst s1) (fst s2) with
  | Some r => if deleted2 b s1 s2 || negb (keepable (fst (modes2 b)) (fst s1) && keepable (snd (modes2 b)) (fst s2)) then None
              else Some (r, Pv)
  | None => None
  end.

(** Client terms.  [TVar x]: the variable declared as number x; [TNew t]: a prvalue without operands: an array from its
    constructor, sequence, linspace, irange(n), const1D, const2D, identity, e_unit, random; [TLval]: lval() (derived_base.hpp 15-38); [TMove]:
    std::move. *)
Inductive tree := TVar (x : nat) | TNew (t : ty) | TLval (t : tree) | TMove (t : tree) | TApp1 (b : builder1) (t : tree)
  | TApp2 (b : builder2) (t1 t2 : tree).
(** What the compiler decides: the type and category of a term, or None when it is rejected. *)
Fixpoint typecheck (G : list ty) (t : tree) : option sig :=
  match t with
  | TVar x => option_map (fun ty => (ty, Lv)) (nth_error G x)
  | TNew ty => if match tkind ty with KArray | KExpr | KRand => true | _ => false end then Some (ty, Pv) else None
  | TLval t => match typecheck G t with Some (ty, c) => if is_rvalue c && is_base ty then Some (ty, Lv) else None | None => None end
  | TMove t => match typecheck G t with Some (ty, Lv) => Some (ty, Xv) | _ => None end
  | TApp1 b t => match typecheck G t with Some s => call1 b s | None => None end
  | TApp2 b t1 t2 =>
      match typecheck G t1, typecheck G t2 with Some s1, Some s2 => call2 b s1 s2 | _, _ => None end
  end.

(** Objects: named ones, temporaries of the current full expression, and locals of a function that has returned. *)
Inductive addr := ANamed (x : nat) | ATemp (k : nat) | ALocal.
Record obj := mkobj { osig : sig; oaddr : addr; orefs : list addr }.
(** The objects kept in the result. *)
Definition kept (m : mode) (o : obj) : list addr :=
  match m, tkind (fst (osig o)) with
  | Drop, _ => []
  | ByRef, _ => oaddr o :: orefs o
  | Keep, KArray => [oaddr o]
  | Keep, _ => orefs o
  | Elem, KArray => [oaddr o]
  | Elem, KSlice => orefs o
  | Elem, _ => []
  end.
(** binary.hpp 720-727: the closure returned by matvec_prod captures [&dot], a local variable. *)
Definition locals2 (b : builder2) : list addr := match b with B2Matvec => [ALocal] | _ => [] end.

(** [n] named objects are alive and [k] temporaries have been created in this full expression. *)
Definition live (n k : nat) (a : addr) : bool :=
  match a with ANamed x => x <? n | ATemp j => j <? k | ALocal => false end.
Definition usable (n k : nat) (o : obj) : bool := live n k (oaddr o) && forallb (live n k) (orefs o).

Inductive result (A : Type) := Rejected | Dangling | Fine (x : A).
Arguments Rejected {A}. Arguments Dangling {A}. Arguments Fine {A} x.
(** Evaluation inside a full expression.  A builder may look at its operands (their sizes, and for eval() their elements), so it
    counts as a use of everything they refer to. *)
Fixpoint eval (E : list obj) (k : nat) (t : tree) : result (obj * nat) :=
  match t with
  | TVar x => match nth_error E x with Some o => Fine (mkobj (fst (osig o), Lv) (ANamed x) (orefs o), k) | None => Rejected end
  | TNew ty => match typecheck [] (TNew ty) with Some s => Fine (mkobj s (ATemp k) [], S k) | None => Rejected end
  | TLval t =>
      match eval E k t with
      | Fine (o, k') => let s := osig o in
          if is_rvalue (snd s) && is_base (fst s) then Fine (mkobj (fst s, Lv) (oaddr o) (orefs o), k') else Rejected
      | r => r
      end
  | TMove t =>
      match eval E k t with
      | Fine (o, k') => match osig o with (ty, Lv) => Fine (mkobj (ty, Xv) (oaddr o) (orefs o), k') | _ => Rejected end
      | r => r
      end
  | TApp1 b t =>
      match eval E k t with
      | Fine (o, k') =>
          match call1 b (osig o) with
          | None => Rejected
          | Some s => if usable (length E) k' o then Fine (mkobj s (ATemp k') (kept (mode1 b) o), S k') else Dangling
          end
      | r => r
      end
  | TApp2 b t1 t2 =>
      match eval E k t1 with
      | Fine (o1, k1) =>
          match eval E k1 t2 with
          | Fine (o2, k2) =>
              match call2 b (osig o1) (osig o2) with
              | None => Rejected
              | Some s => if usable (length E) k2 o1 && usable (length E) k2 o2
                          then Fine (mkobj s (ATemp k2) (locals2 b ++ kept (fst (modes2 b)) o1 ++ kept (snd (modes2 b)) o2), S k2)
                          else Dangling
              end
          | r => r
          end
      | r => r
      end
  end.

(** Blocks.  [PLet t p]: auto x = t; p (auto&& x = t; when t is an element).  The temporaries of t are destroyed at its end.  [PUse t p]: t is consumed inside one full
    expression (printed, assigned to an array, reduced to a number); then p.  [PBlock p q]: { p } q; the variables of p are
    destroyed at the brace. *)
Inductive prog := PDone | PLet (t : tree) (p : prog) | PUse (t : tree) (p : prog) | PBlock (p q : prog).
(** auto x = t: a copy, or t itself when it is a prvalue. *)
Definition copyable (s : sig) : bool := match tkind (fst s), snd s with KRand, Pv => true | KRand, _ => false | _, _ => true end.
Fixpoint compiles (G : list ty) (p : prog) : bool :=
  match p with
  | PDone => true
  | PLet t p => match typecheck G t with Some s => copyable s && compiles (G ++ [fst s]) p | None => false end
  | PUse t p => match typecheck G t with Some _ => compiles G p | None => false end
  | PBlock p q => compiles G p && compiles G q
  end.
(** A new array owns its elements; anything else keeps the references of what it is copied from. *)
Definition bound (n : nat) (o : obj) : obj :=
  mkobj (fst (osig o), Lv) (ANamed n) (if is_array (fst (osig o)) then [] else orefs o).
(** Does the program run without using an object whose lifetime has ended? *)
Fixpoint runs (E : list obj) (p : prog) : bool :=
  match p with
  | PDone => true
  | PLet t p =>
      match eval E 0 t with
      | Fine (o, k) => (negb (is_array (fst (osig o))) || usable (length E) k o) && runs (E ++ [bound (length E) o]) p
      | _ => false
      end
  | PUse t p => match eval E 0 t with Fine (o, k) => usable (length E) k o && runs E p | _ => false end
  | PBlock p q => runs E p && runs E q
  end.
