(** Programs on arrays of several element types and dimensions: what compiles, and how it runs.
    ArrayCommon/array_traits.hpp, ArrayCommon/array_auxiliary.hpp, Expr/expr_traits.hpp, Expr/functors.hpp, Expr/unary.hpp,
    Expr/binary.hpp, Expr/types.hpp, derived_base.hpp, array_base1D.hpp, array_base2D.hpp, array_ops.hpp.
    Scalars and their types are those of Model/Scalars.v.
    Simplifications: expressions over whole owning arrays (views are in Model/View2D.v and Model/ViewAssign.v); the expression
    objects are used within one statement (kept ones are in Model/Lazy.v); operands are evaluated left to right (the order is
    unspecified in C++); the sizes of an expression are those of an existing array, so the checks of const1D and const2D
    (special.hpp 521-547) and of the array constructors cannot fail and are left out; __restrict is ignored. *)
From Coq Require Import ZArith Bool List.
From Verif Require Import Base.Outcome Base.ZList Model.IntModel Model.Scalars.
Import ListNotations.
Local Open Scope Z_scope.

(** ** Arrays *)
Inductive shape := Sh1 (n : Z) | Sh2 (m n : Z).
Definition two (s : shape) : bool := match s with Sh1 _ => false | Sh2 _ _ => true end.
(** An owning array Array1D<T> or Array2D<T> (array_base1D.hpp 125-126, array_base2D.hpp 146-148): T, sizes and elements. *)
Record tarr := mktarr { tty : bty; tsh : shape; tel : list value }.
(** un(i) and un(i, j): array_base1D.hpp 470-481, array_base2D.hpp 668-692.  None: a 1D array has no un(i, j). *)
Inductive ix := At1 (i : Z) | At2 (i j : Z).
Definition place (s : shape) (x : ix) : option (outcome Z) :=
  match x, s with
  | At1 i, _ => Some (Ok i)
  | At2 i j, Sh2 _ n => Some (p <- lmul i n ;; ladd p j)
  | At2 _ _, Sh1 _ => None
  end.
Definition tread (a : tarr) (x : ix) : option (outcome value) := bindo (place (tsh a) x) (fun p => Some (oget (tel a) p)).
Definition twrite (a : tarr) (x : ix) (v : value) : option (outcome tarr) :=
  bindo (place (tsh a) x) (fun p => Some (l <- oset (tel a) p v ;; Ok (mktarr (tty a) (tsh a) l))).
(** size(). *)
Definition total (s : shape) : Z := match s with Sh1 n => n | Sh2 m n => m * n end.
(** array_auxiliary.hpp 30-48: same_size.  None: no overload for different dimensions. *)
Definition same_shape (s t : shape) : option bool :=
  match s, t with
  | Sh1 n, Sh1 n' => Some (n =? n')
  | Sh2 m n, Sh2 m' n' => Some ((m =? m') && (n =? n'))
  | _, _ => None
  end.

(** ** Expressions *)
Inductive ax :=
| AVar (k : nat)
| AUn (o : uop) (e : ax)                 (* +A, -A, ~A, !A *)
| AAbs (e : ax)                          (* abs(A) *)
| AInv (e : ax)                          (* inv(A) *)
| ABin (o : bop) (e1 e2 : ax)            (* A + B, ... *)
| ALeft (o : bop) (s : exp) (e : ax)     (* s + A, ... *)
| ARight (o : bop) (e : ax) (s : exp)    (* A + s, ... *)
| ACast (b : bty) (e : ax)               (* array_cast<b>(A) *)
| ATemp (e : ax).                        (* Array1D<T>{A}, Array2D<T>{A}: a temporary owning array *)
(** Dimension (true: two), element type, and whether the expression is an rvalue owning array. *)
Record aty := mkaty { adim : bool; ael : bty; atmp : bool }.
Definition acmp (o : bop) : bool := match o with OEq | ONe | OLt | OLe | OGt | OGe => true | _ => false end.
Definition is_real (b : bty) : bool := match b with TB => false | _ => true end.
Definition is_flt (b : bty) : bool := match b with TF _ => true | _ => false end.
(** The type of an expression; None: does not compile.  K: the types of the arrays, G: of the scalars.
    Unary: unary.hpp 232-344 with functors.hpp 14-172 (the concepts, and the static_assert on unsigned -); rvalue owning arrays select
    the deleted overloads (unary.hpp 103-195).
    Binary: binary.hpp 466-553 with functors.hpp 175-300: BinaryOperation (expr_traits.hpp 21-22) fails if the functor, which takes two
    Strict<T>, does not accept the element types; different dimensions and rvalue owning arrays select the deleted overloads
    (expr_traits.hpp 31-52, binary.hpp 93-170).  The comparison operators do not give arrays.
    With a scalar: binary.hpp 558-712: the parameter is ValueTypeOf<Base>, to which only Strict<T> itself converts (a built-in value
    selects the deleted constructor, strict_val.hpp 48, 113). *)
Fixpoint atyp (K : list (bool * bty)) (G : list vty) (e : ax) : option aty :=
  match e with
  | AVar k => match nth_error K k with Some (d, b) => Some (mkaty d b false) | None => None end
  | AUn o e => match atyp K G e with
      | Some (mkaty d b false) => match un_result o b with Some b' => Some (mkaty d b' false) | None => None end
      | _ => None end
  | AAbs e => match atyp K G e with
      | Some (mkaty d b false) => if is_real b then Some (mkaty d b false) else None
      | _ => None end
  | AInv e => match atyp K G e with
      | Some (mkaty d b false) => if is_flt b then Some (mkaty d b false) else None
      | _ => None end
  | ABin o e1 e2 => match atyp K G e1, atyp K G e2 with
      | Some (mkaty d b false), Some (mkaty d' b' false) =>
          if Bool.eqb d d' && bty_eqb b b' && negb (acmp o)
          then match op_result o b with Some r => Some (mkaty d r false) | None => None end else None
      | _, _ => None end
  | ALeft o s e | ARight o e s => match typ G s, atyp K G e with
      | Some (Str b'), Some (mkaty d b false) =>
          if bty_eqb b b' && negb (acmp o) then match op_result o b with Some r => Some (mkaty d r false) | None => None end else None
      | _, _ => None end
  | ACast b e => match atyp K G e with Some (mkaty d _ false) => Some (mkaty d b false) | _ => None end
  | ATemp e => match atyp K G e with Some (mkaty d b _) => Some (mkaty d b true) | None => None end
  end.

(** Expression objects (Expr/types.hpp): operands by reference or by value, functors, constants (binary.hpp 437-448). *)
Inductive pex :=
| PVar (k : nat)
| PTmp (a : tarr)
| PUn (f : value -> option (outcome value)) (p : pex)
| PBin (f : value -> value -> option (outcome value)) (p q : pex)
| PCon (s : shape) (v : value).
(** types.hpp 56-58, 95-101, 138-140, 178-184: sizes are those of the (first) operand. *)
Fixpoint psh (st : list tarr) (p : pex) : option shape :=
  match p with
  | PVar k => option_map tsh (nth_error st k)
  | PTmp a => Some (tsh a)
  | PUn _ p | PBin _ p _ => psh st p
  | PCon s _ => Some s
  end.
(** types.hpp 52-54, 91-93, 134-136, 174-176: un(i) and un(i, j). *)
Fixpoint pel (st : list tarr) (p : pex) (x : ix) : option (outcome value) :=
  match p with
  | PVar k => match nth_error st k with Some a => tread a x | None => None end
  | PTmp a => tread a x
  | PUn f p => bindo (pel st p x) f
  | PBin f p q => bindo (pel st p x) (fun v => bindo (pel st q x) (fun w => f v w))
  | PCon _ v => Some (Ok v)
  end.
(** strict_math.hpp 25-32: abss; the comparison and the negation are those of the type. *)
Definition vabs (c : cfg) (v : value) : option (outcome value) :=
  match v with
  | VB _ => None
  | VI t z => if signed t then (if 0 <? z then Some (Ok v) else apply1 UMinus v) else Some (Ok v)
  | VF f x => bindo (bindo (Some (constant (TF f) 0)) (apply2 c OGt v)) (fun b => match b with VB true => Some (Ok v) | _ => apply1 UMinus v end)
  end.
(** strict_math.hpp 48-51: invs, One<T> / x. *)
Definition vinv (c : cfg) (v : value) : option (outcome value) :=
  match v with VF f _ => bindo (Some (constant (TF f) 1)) (fun one => apply2 c ODiv one v) | _ => None end.

(** The indices of a loop over all elements: by number, or by rows and columns (algorithm.hpp 60-84). *)
Definition lin (n : Z) : list ix := map At1 (zseq 0 (Z.to_nat n)).
Definition grid (m n : Z) : list ix := flat_map (fun i => map (At2 i) (zseq 0 (Z.to_nat n))) (zseq 0 (Z.to_nat m)).
(** copy(A1, A2) for an object A1: two owning 2D arrays are copied by number, other 2D objects by rows and columns. *)
Definition owner (p : pex) : bool := match p with PVar _ | PTmp _ => true | _ => false end.
Definition walk (p : pex) (s : shape) : list ix :=
  match s with Sh1 n => lin n | Sh2 m n => if owner p then lin (m * n) else grid m n end.
Fixpoint reads (st : list tarr) (p : pex) (l : list ix) : option (outcome (list value)) :=
  match l with
  | [] => Some (Ok [])
  | x :: l' => bindo (pel st p x) (fun v => bindo (reads st p l') (fun r => Some (Ok (v :: r))))
  end.
(** Construction of an owning array from an object: array_base1D.hpp 209-213, array_base2D.hpp 191-194 (and the copy and move
    constructors).  b is the element type. *)
Definition build (c : cfg) (st : list tarr) (b : bty) (p : pex) : option (outcome tarr) :=
  match psh st p with
  | Some s => if amax c <? total s then Some (Fail BadAlloc) else bindo (reads st p (walk p s)) (fun l => Some (Ok (mktarr b s l)))
  | None => None
  end.
(** A temporary array is moved or constructed in place. *)
Definition own (c : cfg) (st : list tarr) (b : bty) (p : pex) : option (outcome tarr) :=
  match p with PTmp a => Some (Ok a) | _ => build c st b p end.

Section Run.
Context (c : cfg).
(** Scalar variables with their types. *)
Notation scal := (list (vty * value)).
Definition seval (sc : scal) (s : exp) : option (outcome value) := eval c (map fst sc) (map snd sc) s.
Definition kinds (st : list tarr) : list (bool * bty) := map (fun a => (two (tsh a), tty a)) st.
Definition atyp_in (st : list tarr) (sc : scal) (e : ax) : option aty := atyp (kinds st) (map fst sc) e.
Definition binary (f : value -> value -> option (outcome value)) (st : list tarr) (p q : pex) : option (outcome pex) :=
  match psh st p, psh st q with
  | Some s, Some t => match same_shape s t with
      | Some b => bindo (Some (check_debug c (Ok b))) (fun _ => Some (Ok (PBin f p q)))
      | None => None end
  | _, _ => None
  end.
(** Building the object: types.hpp 37-38, 114-121 (with its check); unary.hpp 218-344; binary.hpp 437-712. *)
Fixpoint prep (st : list tarr) (sc : scal) (e : ax) : option (outcome pex) :=
  match e with
  | AVar k => match nth_error st k with Some _ => Some (Ok (PVar k)) | None => None end
  | AUn o e => bindo (prep st sc e) (fun p => Some (Ok (PUn (apply1 o) p)))
  | AAbs e => bindo (prep st sc e) (fun p => Some (Ok (PUn (vabs c) p)))
  | AInv e => bindo (prep st sc e) (fun p => Some (Ok (PUn (vinv c) p)))
  | ABin o e1 e2 => bindo (prep st sc e1) (fun p => bindo (prep st sc e2) (fun q => binary (apply2 c o) st p q))
  | ALeft o s e => bindo (seval sc s) (fun v => bindo (prep st sc e) (fun p =>
      match psh st p with Some h => binary (apply2 c o) st (PCon h v) p | None => None end))
  | ARight o e s => bindo (prep st sc e) (fun p => bindo (seval sc s) (fun v =>
      match psh st p with Some h => binary (apply2 c o) st p (PCon h v) | None => None end))
  | ACast b e => bindo (prep st sc e) (fun p => Some (Ok (PUn (fun v => Some (cast b v)) p)))
  | ATemp e => match atyp_in st sc e with
      | Some t => bindo (prep st sc e) (fun p => bindo (own c st (ael t) p) (fun a => Some (Ok (PTmp a))))
      | None => None end
  end.

(** ** Statements *)
Inductive stm :=
| SLet (s : exp)                            (* auto x = s; *)
| SSum (e : ax)                             (* auto x = sum(e); *)
| SEqual (e1 e2 : ax)                       (* auto x = (e1 == e2); *)
| SGet (k : nat) (is : list exp)            (* auto x = A[i];  auto x = A(i, j); *)
| SPut (k : nat) (is : list exp) (s : exp)  (* A[i] = s;  A(i, j) = s; *)
| SNew (e : ax)                             (* Array1D A = e;  Array2D A = e; *)
| SSet (k : nat) (e : ax)                   (* A = e; *)
| SFill (k : nat) (s : exp)                 (* A = s; *)
| SOp (o : bop) (k : nat) (e : ax)          (* A += e; ... *)
| SOpS (o : bop) (k : nat) (s : exp)        (* A += s; ... *)
| SRes (k : nat) (e : ax).                  (* A.resize_and_assign(e); *)

(** Which compound assignments exist: derived_base.hpp 56-207 with strict_val.hpp 161-228; none for bool, no comparisons. *)
Definition op_assign (o : bop) (b : bty) : bool :=
  match o, b with
  | (OAdd | OSub | OMul | ODiv), (TI _ | TF _) => true
  | (OMod | OShl | OShr | OAnd | OOr | OXor), TI _ => true
  | _, _ => false
  end.
(** array_traits.hpp 174-176: IndexType. *)
Definition is_index (t : option vty) : bool :=
  match t with Some (Raw (TI I32) | Raw (TI I64) | Str (TI I32) | Str (TI I64)) => true | _ => false end.
Definition is_str (b : bty) (t : option vty) : bool := match t with Some (Str b') => bty_eqb b b' | _ => false end.
(** The types of the variables after a statement; None: does not compile.
    sum: array_ops.hpp 50; ==: array_auxiliary.hpp 65-77; element access: derived1D.hpp 56-68, derived2D.hpp 61-75; construction and
    assignment copy elements with the assignment of Strict<T> (strict_val.hpp 41-43, 104-108), which accepts only Strict<T>, and the
    dimension is that of the overload (array_base1D.hpp 209-257, array_base2D.hpp 191-234). *)
Definition styp (E : list (bool * bty) * list vty) (t : stm) : option (list (bool * bty) * list vty) :=
  let '(K, G) := E in
  match t with
  | SLet s => match typ G s with Some v => Some (K, G ++ [v]) | None => None end
  | SSum e => match atyp K G e with Some u => if is_real (ael u) then Some (K, G ++ [Str (ael u)]) else None | None => None end
  | SEqual e1 e2 => match atyp K G e1, atyp K G e2 with
      | Some u, Some w => if Bool.eqb (adim u) (adim w) && bty_eqb (ael u) (ael w) then Some (K, G ++ [Str TB]) else None
      | _, _ => None end
  | SGet k is => match nth_error K k with
      | Some (d, b) => if Nat.eqb (length is) (if d then 2 else 1) && forallb (fun s => is_index (typ G s)) is then Some (K, G ++ [Str b]) else None
      | None => None end
  | SPut k is s => match nth_error K k with
      | Some (d, b) => if Nat.eqb (length is) (if d then 2 else 1) && forallb (fun s => is_index (typ G s)) is && is_str b (typ G s) then Some E else None
      | None => None end
  | SNew e => match atyp K G e with Some u => Some (K ++ [(adim u, ael u)], G) | None => None end
  | SSet k e | SRes k e => match nth_error K k, atyp K G e with
      | Some (d, b), Some u => if Bool.eqb d (adim u) && bty_eqb b (ael u) then Some E else None
      | _, _ => None end
  | SFill k s => match nth_error K k with Some (_, b) => if is_str b (typ G s) then Some E else None | None => None end
  | SOp o k e => match nth_error K k, atyp K G e with
      | Some (d, b), Some u => if Bool.eqb d (adim u) && bty_eqb b (ael u) && op_assign o b then Some E else None
      | _, _ => None end
  | SOpS o k s => match nth_error K k with Some (_, b) => if is_str b (typ G s) && op_assign o b then Some E else None | None => None end
  end.
Fixpoint ptyp (E : list (bool * bty) * list vty) (l : list stm) : option (list (bool * bty) * list vty) :=
  match l with
  | [] => Some E
  | t :: l' => match styp E t with Some E' => ptyp E' l' | None => None end
  end.

(** Running.  None: an operation on operands it is not defined for, where C++ would have to convert. *)
Notation state := (list tarr * scal)%type.
(** A value that ends the statement, or continues it. *)
Definition andthen {A} (s : state) (m : option (outcome A)) (k : A -> option (mut state)) : option (mut state) :=
  match m with Some (Ok x) => k x | Some (Fail f) => Some (MFail f s) | Some UB => Some MUB | None => None end.
Definition push (s : state) (t : vty) (m : option (outcome value)) : option (mut state) :=
  andthen s m (fun v => Some (MOk (fst s, snd s ++ [(t, v)]))).
(** algorithm.hpp 17-31, 60-84, 149-154 (with the assignments of a scalar, array_base1D.hpp 216-220, array_base2D.hpp 197-201): a loop storing g(x) at every x of l; an error keeps the elements stored so far. *)
Fixpoint store (s : state) (k : nat) (g : list tarr -> tarr -> ix -> option (outcome value)) (l : list ix) : option (mut state) :=
  match l with
  | [] => Some (MOk s)
  | x :: l' => match nth_error (fst s) k with
      | Some a => andthen s (bindo (g (fst s) a x) (fun v => twrite a x v)) (fun a' => store (upd (fst s) k a', snd s) k g l')
      | None => None end
  end.
(** array_ops.hpp 314-324: sum. *)
Fixpoint sums (st : list tarr) (p : pex) (v : value) (l : list ix) : option (outcome value) :=
  match l with
  | [] => Some (Ok v)
  | x :: l' => bindo (pel st p x) (fun w => bindo (apply2 c OAdd v w) (fun u => sums st p u l'))
  end.
Definition sum (st : list tarr) (b : bty) (p : pex) : option (outcome value) :=
  match psh st p with
  | Some s => match lin (total s) with
      | [] => Some (constant b 0)
      | x :: l => bindo (pel st p x) (fun v => sums st p v l) end
  | None => None
  end.
(** array_auxiliary.hpp 65-77: operator==; it stops at the first difference. *)
Fixpoint differ (st : list tarr) (p q : pex) (l : list ix) : option (outcome value) :=
  match l with
  | [] => Some (Ok (VB true))
  | x :: l' => bindo (pel st p x) (fun v => bindo (pel st q x) (fun w => bindo (apply2 c ONe v w) (fun u =>
      match u with VB true => Some (Ok (VB false)) | _ => differ st p q l' end)))
  end.
Definition equal (st : list tarr) (p q : pex) : option (outcome value) :=
  match psh st p, psh st q with
  | Some s, Some t => match same_shape s t with
      | Some true => differ st p q (lin (total s))
      | Some false => Some (Ok (VB false))
      | None => None end
  | _, _ => None
  end.
(** index_helper.hpp 20-50 and derived1D.hpp 56-68, derived2D.hpp 61-75: the index as a long, and its check. *)
Definition index (sc : scal) (n : Z) (s : exp) : option (outcome Z) :=
  bindo (seval sc s) (fun v => match v with
    | VI (I32 | I64) z => bindo (Some (check_debug c (Ok ((-1 <? z) && (z <? n))))) (fun _ => Some (Ok z))
    | _ => None end).
Definition indices (sc : scal) (h : shape) (is : list exp) : option (outcome ix) :=
  match h, is with
  | Sh1 n, [i] => bindo (index sc n i) (fun i => Some (Ok (At1 i)))
  | Sh2 m n, [i; j] => bindo (index sc m i) (fun i => bindo (index sc n j) (fun j => Some (Ok (At2 i j))))
  | _, _ => None
  end.
(** Move assignment from a temporary: array_base1D.hpp 241-249, array_base2D.hpp 221-226: noexcept, checked with assert only; a 2D
    array keeps its own sizes. *)
Definition move (a t : tarr) : option (outcome tarr) :=
  match same_shape (tsh a) (tsh t) with
  | Some b => Some (check_normal c (Ok b) ;;; Ok (match tsh a with Sh1 _ => t | Sh2 _ _ => mktarr (tty a) (tsh a) (tel t) end))
  | None => None
  end.
(** array_base1D.hpp 231-238, 252-257, array_base2D.hpp 213-217, 229-234: A = p; an element of another type cannot be stored. *)
Definition assign (s : state) (k : nat) (a : tarr) (p : pex) : option (mut state) :=
  match psh (fst s) p with
  | Some h => match same_shape (tsh a) h with
      | Some b => andthen s (Some (check_debug c (Ok b))) (fun _ =>
          store s k (fun st a x => bindo (pel st p x) (fun v => if bty_eqb (tyof v) (tty a) then Some (Ok v) else None)) (walk p h))
      | None => None end
  | None => None
  end.
(** derived_base.hpp 129-207: A op= p. *)
Definition update (s : state) (k : nat) (a : tarr) (o : bop) (p : pex) : option (mut state) :=
  match psh (fst s) p with
  | Some h => match same_shape (tsh a) h with
      | Some b => andthen s (Some (check_debug c (Ok b))) (fun _ =>
          store s k (fun st a x => bindo (tread a x) (fun v => bindo (pel st p x) (fun w => apply2 c o v w))) (lin (total (tsh a))))
      | None => None end
  | None => None
  end.
Definition step (s : state) (t : stm) : option (mut state) :=
  let '(st, sc) := s in
  match t with
  | SLet e => match typ (map fst sc) e with Some v => push s v (seval sc e) | None => None end
  | SSum e => match atyp_in st sc e with
      | Some u => push s (Str (ael u)) (bindo (prep st sc e) (sum st (ael u)))
      | None => None end
  | SEqual e1 e2 => push s (Str TB) (bindo (prep st sc e1) (fun p => bindo (prep st sc e2) (equal st p)))
  | SGet k is => match nth_error st k with
      | Some a => push s (Str (tty a)) (bindo (indices sc (tsh a) is) (tread a))
      | None => None end
  | SPut k is e => match nth_error st k with
      | Some a => andthen s (bindo (seval sc e) (fun v => bindo (indices sc (tsh a) is) (fun x => if bty_eqb (tyof v) (tty a) then twrite a x v else None)))
                            (fun a' => Some (MOk (upd st k a', sc)))
      | None => None end
  | SNew e => match atyp_in st sc e with
      | Some u => andthen s (bindo (prep st sc e) (own c st (ael u))) (fun a => Some (MOk (st ++ [a], sc)))
      | None => None end
  | SSet k e => match nth_error st k with
      | Some a => andthen s (prep st sc e) (fun p => match p with
          | PTmp t => if bty_eqb (tty t) (tty a) then andthen s (move a t) (fun a' => Some (MOk (upd st k a', sc))) else None
          | _ => assign s k a p end)
      | None => None end
  | SFill k e => match nth_error st k with
      | Some a => andthen s (seval sc e) (fun v => if bty_eqb (tyof v) (tty a) then store s k (fun _ _ _ => Some (Ok v)) (lin (total (tsh a))) else None)
      | None => None end
  | SOp o k e => match nth_error st k with
      | Some a => andthen s (prep st sc e) (update s k a o)
      | None => None end
  | SOpS o k e => match nth_error st k with
      | Some a => andthen s (seval sc e) (fun w => store s k (fun _ a x => bindo (tread a x) (fun v => apply2 c o v w)) (lin (total (tsh a))))
      | None => None end
  | SRes k e => match nth_error st k, atyp_in st sc e with
      | Some a, Some u => andthen s (bindo (prep st sc e) (own c st (ael u))) (fun a' => if bty_eqb (tty a') (tty a) then Some (MOk (upd st k a', sc)) else None)
      | _, _ => None end
  end.
(** A program; the first error ends it.  resize_and_assign: array_base1D.hpp 304-318, array_base2D.hpp 286-300. *)
Fixpoint run (s : state) (l : list stm) : option (mut state) :=
  match l with
  | [] => Some (MOk s)
  | t :: l' => match step s t with Some (MOk s') => run s' l' | r => r end
  end.
End Run.
