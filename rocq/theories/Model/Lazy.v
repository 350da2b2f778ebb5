(** Lazy expressions kept in variables while the arrays they refer to change, and assignments whose right side reads the array
    being assigned: Expr/types.hpp, Expr/unary.hpp, Expr/binary.hpp, Expr/special.hpp, array_base1D.hpp,
    slicearray_base1D.hpp, derived_base.hpp.
    An expression object holds its operands: arrays by reference, everything else (slice arrays, other expressions) by copy
    (CopyOrReferenceExpr, ArrayCommon/array_traits.hpp 91-106; the members in Expr/types.hpp 60-62, 142-145).
    Simplifications: one-dimensional arrays and expressions of one element type; an array named in an expression outlives it
    (lifetimes are in Model/Lifetimes.v); the right side of an assignment is not a temporary of the same type as the left side
    (those go through the noexcept move assignment, v_assign_rvalue in Model/ViewAssign.v); __restrict in algorithm.hpp is ignored as in Model/ViewAssign.v. *)
From Verif Require Import Base.Outcome Base.ZList Model.Index Model.Slice Model.Array1D Model.View2D Model.Expr Model.ViewAssign Model.Store1D Model.Stale.

(** Expression objects. *)
Inductive lex (V : Type) :=
| LArr (k : Z)                                  (* an owning array, by reference *)
| LOwn (A : src1 V)                             (* an expression with no array operands: SequenceExpr1D, const1D, ... *)
| LUn (f : V -> outcome V) (e : lex V)          (* UnaryExpr *)
| LBin (f : V -> V -> outcome V) (a b : lex V)  (* BinaryExpr *)
| LSee (o : obj) (e : lex V).                   (* a (const) slice array of an array or expression *)
Arguments LArr {V}. Arguments LOwn {V}. Arguments LUn {V}. Arguments LBin {V}. Arguments LSee {V}.

(** Expressions as written; XHeld h uses the variable h, XView x ws applies view functions. *)
Inductive xt (V : Type) :=
| XArr (k : Z) | XHeld (h : Z) | XOwn (m : outcome (src1 V)) | XUn (f : V -> outcome V) (x : xt V)
| XBin (f : V -> V -> outcome V) (x y : xt V) | XScalR (f : V -> V -> outcome V) (x : xt V) (v : V)
| XScalL (f : V -> V -> outcome V) (v : V) (x : xt V) | XView (x : xt V) (ws : list vop).
Arguments XArr {V}. Arguments XHeld {V}. Arguments XOwn {V}. Arguments XUn {V}. Arguments XBin {V}. Arguments XScalR {V}.
Arguments XScalL {V}. Arguments XView {V}.

(** Statements: operations on arrays; auto E = x; E(i); E.size(); Array1D B = x; A(..)(..) = x; A(..) op= x (f is the
    operator); A.resize_and_assign(x). *)
Inductive lstm (V : Type) :=
| LOp (o : op1 V) | LLet (x : xt V) | LGet (h : Z) (ix : idx) | LSize (h : Z) | LNew (x : xt V)
| LSet (k : Z) (ws : list vop) (x : xt V) | LUpd (k : Z) (ws : list vop) (f : V -> V -> outcome V) (x : xt V) | LRes (k : Z) (x : xt V).
Arguments LOp {V}. Arguments LLet {V}. Arguments LGet {V}. Arguments LSize {V}. Arguments LNew {V}. Arguments LSet {V}.
Arguments LUpd {V}. Arguments LRes {V}.

Section Lazy.
Context {V : Type} (zero : V) (c : cfg).
Notation store := (list (arr V)).

(** size() of an expression object when the arrays are st: types.hpp 56-58, 138-140; slicearray_base1D.hpp 128-131.  A name
    without an array cannot be written in a program; UB stands for that. *)
Fixpoint lx_size (st : store) (e : lex V) : outcome Z :=
  match e with
  | LArr k => match znth st k with Some a => Ok (an a) | None => UB end
  | LOwn A => Ok (ssize A)
  | LUn _ e => lx_size st e
  | LBin _ a _ => lx_size st a
  | LSee o e => n <- lx_size st e ;; o_size (rebase (O1 n) o)
  end.
(** un(i): types.hpp 52-54, 134-136; array_base1D.hpp 470-481; slicearray_base1D.hpp 96-107, 170-174. *)
Fixpoint lx_un (st : store) (e : lex V) (i : Z) : outcome V :=
  match e with
  | LArr k => match znth st k with Some a => oget (buf a) i | None => UB end
  | LOwn A => sun A i
  | LUn f e => v <- lx_un st e i ;; f v
  | LBin f a b => u <- lx_un st a i ;; v <- lx_un st b i ;; f u v
  | LSee o e => n <- lx_size st e ;; p <- o_lin c (rebase (O1 n) o) i ;; lx_un st e p
  end.
(** The object as a source of elements. *)
Definition lx_src (st : store) (e : lex V) : outcome (src1 V) := n <- lx_size st e ;; Ok (mksrc1 n (lx_un st e)).

(** Building the object: types.hpp 37-38 (UnaryExprBase), 114-121 (BinaryExprBase, with its check); binary.hpp 437-448
    (generate_const), 558-712 (operators with a scalar); derived1D.hpp 177-195 (slices). *)
Fixpoint build (st : store) (hs : list (lex V)) (x : xt V) : outcome (lex V) :=
  match x with
  | XArr k => match znth st k with Some _ => Ok (LArr k) | None => UB end
  | XHeld h => match znth hs h with Some e => Ok e | None => UB end
  | XOwn m => A <- m ;; Ok (LOwn A)
  | XUn f x => e <- build st hs x ;; Ok (LUn f e)
  | XBin f x y =>
      a <- build st hs x ;; b <- build st hs y ;; n <- lx_size st a ;; m <- lx_size st b ;;
      check_debug c (Ok (n =? m)) ;;; Ok (LBin f a b)
  | XScalR f x v =>
      a <- build st hs x ;; n <- lx_size st a ;; B <- x_const1 c n v ;; check_debug c (Ok (n =? ssize B)) ;;; Ok (LBin f a (LOwn B))
  | XScalL f v x =>
      a <- build st hs x ;; n <- lx_size st a ;; B <- x_const1 c n v ;; check_debug c (Ok (ssize B =? n)) ;;; Ok (LBin f (LOwn B) a)
  | XView x ws => e <- build st hs x ;; n <- lx_size st e ;; o <- o_chain c (O1 n) ws ;; Ok (LSee o e)
  end.

Notation state := (store * list (lex V))%type.
(** An outcome that is not a value ends the statement. *)
Definition on {A} (s : state) (m : outcome A) (k : A -> res state V) : res state V :=
  match m with Ok x => k x | Fail f => Next s (Failed f) | UB => Crash end.
(** A loop on the storage of array k. *)
Definition back (s : state) (k : Z) (a : arr V) (m : mut (list V)) : res state V :=
  match m with
  | MOk b => Next (zupd (fst s) k (mkarr b (an a)), snd s) Done
  | MFail f b => Next (zupd (fst s) k (mkarr b (an a)), snd s) (Failed f)
  | MUB => Crash
  end.
(** Reading the expression during a loop that has changed the storage of array k to b. *)
Definition reread (st : store) (k : Z) (a : arr V) (e : lex V) (b : list V) (i : Z) : outcome V :=
  lx_un (zupd st k (mkarr b (an a))) e i.

(** array_base1D.hpp 209-213 (construction), 252-257 (assignment), 304-309 (resize_and_assign); slicearray_base1D.hpp 86-93
    (assignment to a slice); derived_base.hpp 129-207 (compound assignment); derived1D.hpp 56-92 (element access).  The right
    side of an assignment is evaluated before the left side. *)
Definition lstep (s : state) (t : lstm V) : res state V :=
  match t with
  | LOp o => match step1 zero c (fst s) o with Next st ob => Next (st, snd s) ob | Crash => Crash end
  | LLet x => on s (build (fst s) (snd s) x) (fun e => Next (fst s, snd s ++ [e]) Done)
  | LGet h ix => match znth (snd s) h with
      | None => Crash
      | Some e => on s (A <- lx_src (fst s) e ;; sub1 c A ix) (fun v => Next s (Value v)) end
  | LSize h => match znth (snd s) h with
      | None => Crash
      | Some e => on s (lx_size (fst s) e) (fun n => Next s (Number n)) end
  | LNew x => on s (e <- build (fst s) (snd s) x ;; A <- lx_src (fst s) e ;; arr_of_src zero c A)
                   (fun a => Next (fst s ++ [a], snd s) Done)
  | LSet k ws x => match znth (fst s) k with
      | None => Crash
      | Some a => on s (e <- build (fst s) (snd s) x ;; n <- lx_size (fst s) e ;; o <- o_chain c (O1 (an a)) ws ;; Ok (e, n, o))
                       (fun '(e, n, o) => back s k a (v_assign c o n (reread (fst s) k a e) (buf a))) end
  | LUpd k ws f x => match znth (fst s) k with
      | None => Crash
      | Some a => on s (e <- build (fst s) (snd s) x ;; n <- lx_size (fst s) e ;; o <- o_chain c (O1 (an a)) ws ;; Ok (e, n, o))
                       (fun '(e, n, o) => back s k a (v_op_array c f o n (reread (fst s) k a e) (buf a))) end
  | LRes k x => match znth (fst s) k with
      | None => Crash
      | Some _ => on s (e <- build (fst s) (snd s) x ;; A <- lx_src (fst s) e ;; arr_resize_and_assign zero c A)
                       (fun a => Next (zupd (fst s) k a, snd s) Done) end
  end.
End Lazy.
