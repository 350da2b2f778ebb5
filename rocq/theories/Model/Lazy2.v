(** Two-dimensional lazy expressions kept in variables while the arrays they refer to change, and assignments whose right side
    reads the matrix being assigned: Expr/types.hpp, Expr/unary.hpp, Expr/binary.hpp, Expr/special.hpp, array_base2D.hpp,
    derived_base.hpp.  The two-dimensional companion of Model/Lazy.v.
    An expression object holds its operands: arrays by reference, other expressions by copy (CopyOrReferenceExpr,
    ArrayCommon/array_traits.hpp 91-106); transpose(A) is an IndexExpr2D that stores the dimensions A had and a reference to A
    (special.hpp 513-518, types.hpp 224-267).
    Simplifications: owning arrays of one element type, no two-dimensional slices (Model/Stale.v has those); an array named in
    an expression outlives it; a kept expression that transposes a temporary, which refers to a destroyed object, is
    undefined already when it is built; the right side of an assignment is not just an array (operator= for arrays is in
    Model/Array2D.v); __restrict in algorithm.hpp is ignored as in Model/ViewAssign.v. *)
From Verif Require Import Base.Outcome Base.ZList Model.Index Model.Slice Model.Array1D Model.Array2D Model.Expr Model.Store1D Model.Store2D.

(** Expression objects. *)
Inductive gex (V : Type) :=
| GArr (k : Z)                                  (* an owning array, by reference *)
| GOwn (A : src2 V)                             (* an expression with no array operands: identity, const2D, ... *)
| GUn (f : V -> outcome V) (e : gex V)          (* UnaryExpr *)
| GBin (f : V -> V -> outcome V) (a b : gex V)  (* BinaryExpr *)
| GTrans (m n : Z) (e : gex V).                 (* transpose, with the stored rows and columns *)
Arguments GArr {V}. Arguments GOwn {V}. Arguments GUn {V}. Arguments GBin {V}. Arguments GTrans {V}.

(** Expressions as written; THeld h uses the variable h. *)
Inductive mxt (V : Type) :=
| TArr (k : Z) | THeld (h : Z) | TOwn (m : outcome (src2 V)) | TUn (f : V -> outcome V) (x : mxt V)
| TBin (f : V -> V -> outcome V) (x y : mxt V) | TScalR (f : V -> V -> outcome V) (x : mxt V) (v : V)
| TScalL (f : V -> V -> outcome V) (v : V) (x : mxt V) | TTrans (x : mxt V).
Arguments TArr {V}. Arguments THeld {V}. Arguments TOwn {V}. Arguments TUn {V}. Arguments TBin {V}. Arguments TScalR {V}.
Arguments TScalL {V}. Arguments TTrans {V}.

(** special.hpp 513-518: the reference transpose() stores is to something that lives on: an array or a variable. *)
Fixpoint keepable {V} (x : mxt V) : bool :=
  match x with
  | TArr _ | THeld _ | TOwn _ => true
  | TUn _ x | TScalR _ x _ | TScalL _ _ x => keepable x
  | TBin _ x y => keepable x && keepable y
  | TTrans x => match x with TArr _ | THeld _ => true | _ => false end
  end.

(** Statements: operations on arrays; auto E = x; E(i, j); E.rows(); E.cols(); Array2D B = x; A = x; A op= x (f is the
    operator); A.resize_and_assign(x). *)
Inductive gstm (V : Type) :=
| DOp (o : op2 V) | DLet (x : mxt V) | DGet (h : Z) (ix jx : idx) | DRows (h : Z) | DCols (h : Z) | DNew (x : mxt V)
| DSet (k : Z) (x : mxt V) | DUpd (k : Z) (f : V -> V -> outcome V) (x : mxt V) | DRes (k : Z) (x : mxt V).
Arguments DOp {V}. Arguments DLet {V}. Arguments DGet {V}. Arguments DRows {V}. Arguments DCols {V}. Arguments DNew {V}.
Arguments DSet {V}. Arguments DUpd {V}. Arguments DRes {V}.

Section Lazy2.
Context {V : Type} (zero : V) (c : cfg).
Notation store := (list (arr2 V)).

(** The object as a source of elements when the arrays are st.  Its functions are: un(i, j), rows(), cols(), size() and un(i)
    of UnaryExpr (types.hpp 52-58, 89-103), BinaryExpr (types.hpp 134-140, 172-184), IndexExpr2D (types.hpp 241-262) and of
    the arrays (array_base2D.hpp).  A name without an array cannot be written in a program; UB stands for that. *)
Fixpoint gx_src (st : store) (e : gex V) : outcome (src2 V) :=
  match e with
  | GArr k => match znth st k with Some a => Ok (src_of_arr2 a) | None => UB end
  | GOwn A => Ok A
  | GUn f e => A <- gx_src st e ;; Ok (x_un2 f A)
  | GBin f a b =>
      A <- gx_src st a ;; B <- gx_src st b ;;
      Ok (mksrc2 (s2rows A) (s2cols A) (s2size A) (fun i j => u <- s2un A i j ;; v <- s2un B i j ;; f u v)
                 (fun k => u <- s2lin A k ;; v <- s2lin B k ;; f u v))
  | GTrans m n e =>
      A <- gx_src st e ;; k <- lmul m n ;;
      Ok (mksrc2 m n k (fun i j => s2un A j i) (fun i => ' p <- index_map_one_to_two c n i ;; s2un A (snd p) (fst p)))
  end.

(** Building the object: types.hpp 37-38 (UnaryExprBase), 114-121 (BinaryExprBase, with its check), 231-237 (IndexExpr2D);
    special.hpp 513-518; binary.hpp 437-444 (generate_const), 558-712 (operators with a scalar). *)
Fixpoint gbuild (st : store) (hs : list (gex V)) (x : mxt V) : outcome (gex V) :=
  match x with
  | TArr k => match znth st k with Some _ => Ok (GArr k) | None => UB end
  | THeld h => match znth hs h with Some e => Ok e | None => UB end
  | TOwn m => A <- m ;; Ok (GOwn A)
  | TUn f x => e <- gbuild st hs x ;; Ok (GUn f e)
  | TBin f x y =>
      a <- gbuild st hs x ;; b <- gbuild st hs y ;; A <- gx_src st a ;; B <- gx_src st b ;;
      check_debug c (Ok (same_size2 (s2rows A) (s2cols A) (s2rows B) (s2cols B))) ;;; Ok (GBin f a b)
  | TScalR f x v =>
      a <- gbuild st hs x ;; A <- gx_src st a ;; B <- x_const2 c (s2rows A) (s2cols A) v ;;
      check_debug c (Ok (same_size2 (s2rows A) (s2cols A) (s2rows B) (s2cols B))) ;;; Ok (GBin f a (GOwn B))
  | TScalL f v x =>
      a <- gbuild st hs x ;; A <- gx_src st a ;; B <- x_const2 c (s2rows A) (s2cols A) v ;;
      check_debug c (Ok (same_size2 (s2rows B) (s2cols B) (s2rows A) (s2cols A))) ;;; Ok (GBin f (GOwn B) a)
  | TTrans x =>
      e <- gbuild st hs x ;; A <- gx_src st e ;;
      check_debug c (Ok (-1 <? s2cols A)) ;;; check_debug c (Ok (-1 <? s2rows A)) ;;; Ok (GTrans (s2cols A) (s2rows A) e)
  end.

Notation state := (store * list (gex V))%type.
(** An outcome that is not a value ends the statement. *)
Definition gon {A} (s : state) (m : outcome A) (k : A -> res state V) : res state V :=
  match m with Ok x => k x | Fail f => Next s (Failed f) | UB => Crash end.
(** The array with changed storage. *)
Definition refill (a : arr2 V) (b : list V) : arr2 V := mkarr2 (drows a) (dcols a) (mkarr b (an (dat a))).
(** Reading the expression during a loop that has changed the storage of array k to b. *)
Definition reread2 (st : store) (k : Z) (a : arr2 V) (e : gex V) (b : list V) : outcome (src2 V) := gx_src (zupd st k (refill a b)) e.
Definition gback (s : state) (k : Z) (m : mut (arr2 V)) : res state V :=
  match m with
  | MOk a => Next (zupd (fst s) k a, snd s) Done
  | MFail f a => Next (zupd (fst s) k a, snd s) (Failed f)
  | MUB => Crash
  end.
(** array_base2D.hpp 229-234 (operator= for expressions); algorithm.hpp 77-84 (copy, row by row). *)
Definition g_assign (s : state) (k : Z) (a : arr2 V) (e : gex V) (A : src2 V) : res state V :=
  gback s k (arr2_assign_rd c (s2rows A) (s2cols A) (fun b i j => A' <- reread2 (fst s) k a e b ;; s2un A' i j) a).
(** derived_base.hpp 129-207 (compound assignment), algorithm.hpp 26-31 (apply1: one index from 0 to size() of the target). *)
Definition g_update (s : state) (k : Z) (f : V -> V -> outcome V) (a : arr2 V) (e : gex V) (A : src2 V) : res state V :=
  match check_debug c (Ok (same_size2 (drows a) (dcols a) (s2rows A) (s2cols A))) with
  | Ok _ => gback s k (mbind (mfor 0 (an (dat a)) (fun t b => commit b (A' <- reread2 (fst s) k a e b ;; y <- s2lin A' t ;; v <- oget b t ;; z <- f v y ;; oset b t z))
                                   (buf (dat a))) (fun b => MOk (refill a b)) (refill a))
  | Fail f => Next s (Failed f)
  | UB => Crash
  end.
(** array_base2D.hpp 190-194 (construction), 229-234, 286-291 (resize_and_assign); derived_base.hpp 129-207; derived2D.hpp
    (element access, sub2).  The right side of an assignment is evaluated before the left side. *)
Definition gstep (s : state) (t : gstm V) : res state V :=
  match t with
  | DOp o => match step2 zero c (fst s) o with Next st ob => Next (st, snd s) ob | Crash => Crash end
  | DLet x => if keepable x then gon s (gbuild (fst s) (snd s) x) (fun e => Next (fst s, snd s ++ [e]) Done) else Crash
  | DGet h ix jx => match znth (snd s) h with
      | None => Crash
      | Some e => gon s (A <- gx_src (fst s) e ;; sub2 c A ix jx) (fun v => Next s (Value v)) end
  | DRows h => match znth (snd s) h with
      | None => Crash
      | Some e => gon s (A <- gx_src (fst s) e ;; Ok (s2rows A)) (fun n => Next s (Number n)) end
  | DCols h => match znth (snd s) h with
      | None => Crash
      | Some e => gon s (A <- gx_src (fst s) e ;; Ok (s2cols A)) (fun n => Next s (Number n)) end
  | DNew x => gon s (e <- gbuild (fst s) (snd s) x ;; A <- gx_src (fst s) e ;; arr2_of_src zero c A)
                    (fun a => Next (fst s ++ [a], snd s) Done)
  | DSet k x => match znth (fst s) k with
      | None => Crash
      | Some a => gon s (e <- gbuild (fst s) (snd s) x ;; A <- gx_src (fst s) e ;; Ok (e, A)) (fun '(e, A) => g_assign s k a e A) end
  | DUpd k f x => match znth (fst s) k with
      | None => Crash
      | Some a => gon s (e <- gbuild (fst s) (snd s) x ;; A <- gx_src (fst s) e ;; Ok (e, A)) (fun '(e, A) => g_update s k f a e A) end
  | DRes k x => match znth (fst s) k with
      | None => Crash
      | Some _ => gon s (e <- gbuild (fst s) (snd s) x ;; A <- gx_src (fst s) e ;; arr2_resize_and_assign zero c A)
                        (fun a => Next (zupd (fst s) k a, snd s) Done) end
  end.
End Lazy2.
