(** Scalars of all built-in types: explicit conversions, the tag types, and the static rules of Strict<T>.
    StrictCommon/strict_val.hpp, strict_traits.hpp, auxiliary_types.hpp. *)
From Coq Require Import ZArith Bool List.
From Flocq Require Import Core BinarySingleNaN.
From Verif Require Import Base.Outcome Model.IntModel Model.Index Model.Array1D Model.Expr Model.StableOps Model.FloatModel Model.Random.
Import ListNotations.
Local Open Scope Z_scope.

(** strict_traits.hpp 37-48: the floating types float, double, long double (x87), float128. *)
Inductive fmt := F32 | F64 | F80 | F128.
Definition fprec (f : fmt) : Z := match f with F32 => 24 | F64 => 53 | F80 => 64 | F128 => 113 end.
Definition femax (f : fmt) : Z := match f with F32 => 128 | F64 => 1024 | F80 => 16384 | F128 => 16384 end.
#[export] Instance fprec_gt (f : fmt) : Prec_gt_0 (fprec f).
Proof. destruct f; reflexivity. Qed.
#[export] Instance fprec_lt (f : fmt) : Prec_lt_emax (fprec f) (femax f).
Proof. destruct f; reflexivity. Qed.
Notation flt f := (binary_float (fprec f) (femax f)).
(** strict_traits.hpp 51-53: the concepts Real, Boolean, Builtin. *)
Inductive bty := TB | TI (t : ity) | TF (f : fmt).
(** A value of a built-in type. *)
Inductive value := VB (b : bool) | VI (t : ity) (z : Z) | VF (f : fmt) (x : flt f).
Definition tyof (v : value) : bty := match v with VB _ => TB | VI t _ => TI t | VF f _ => TF f end.

(** ** Conversions *)
(** strict_val.hpp 333-366 (builtin_cast, real_cast, strict_cast), 230-265 and 516-563 (si(), sl(), ...), 369-378 (whole),
    309-330 (to_size_t, to_index_t): static_cast.
    Integers convert modulo 2^bits ([conv.integral]), integer to floating point rounds to nearest ([conv.fpint]), floating point to
    integer truncates and is undefined if the truncated value does not fit (ibid.), a wider to a narrower floating type rounds and is
    undefined if the value is out of range ([conv.double]; IEEE hardware returns an infinity, see [convert]), bool is 0 or 1, and to
    bool compares with 0 ([conv.bool]; NaN gives true). *)
Definition int_to_flt (f : fmt) (z : Z) : flt f := nofZ (fnum (fprec f) (femax f)) z.
Definition flt_to_int {p e} (t : ity) (x : binary_float p e) : outcome Z :=
  match x with
  | B754_zero _ => Ok 0
  | B754_finite _ _ _ _ => let z := Btrunc x in if inr t z then Ok z else UB
  | _ => UB
  end.
Definition flt_to_flt {p e} (f : fmt) (x : binary_float p e) : outcome (flt f) :=
  let y := convert (fprec f) (femax f) x in if is_finite x && negb (is_finite y) then UB else Ok y.
Definition nonzero {p e} (x : binary_float p e) : bool := match x with B754_zero _ => false | _ => true end.
Definition cast (b : bty) (v : value) : outcome value :=
  match b, v with
  | TB, VB x => Ok (VB x)
  | TB, VI _ z => Ok (VB (negb (z =? 0)))
  | TB, VF _ x => Ok (VB (nonzero x))
  | TI t, VB x => Ok (VI t (Z.b2z x))
  | TI t, VI _ z => Ok (VI t (icast t z))
  | TI t, VF _ x => z <- flt_to_int t x ;; Ok (VI t z)
  | TF f, VB x => Ok (VF f (int_to_flt f (Z.b2z x)))
  | TF f, VI _ z => Ok (VF f (int_to_flt f z))
  | TF f, VF _ x => y <- flt_to_flt f x ;; Ok (VF f y)
  end.
(** strict_val.hpp 279-301: Zero, One, NegOne, Thousand, Million, Billion of type b: T(0), T(1), ...: conversions of ints. *)
Definition constant (b : bty) (z : Z) : outcome value := cast b (VI I32 z).
(** Expr/unary.hpp 341-344 (array_cast) with functors.hpp 166-172: a lazy expression converting every element. *)
Definition array_cast (b : bty) (A : src1 value) : src1 value := x_un (cast b) A.

(** ** Tag types *)
(** auxiliary_types.hpp 37-64, 125-135: Size, Count, Pos, First, Endmost, Index, Rows, Cols, ImplicitNonNegInt ([nonneg] is true), Stride and
    ImplicitInt ([nonneg] is false): from int and long only; the value as a long, with a debug check. *)
Definition tag (c : cfg) (nonneg : bool) (v : value) : option (outcome Z) :=
  match v with
  | VI I32 z | VI I64 z => Some (let x := icast I64 z in (if nonneg then check_debug c (Ok (-1 <? x)) else Ok tt) ;;; Ok x)
  | _ => None
  end.

(** ** Operators *)
Inductive uop := UPlus | UMinus | UCompl | UNot.
Inductive bop := OAdd | OSub | OMul | ODiv | OMod | OShl | OShr | OAnd | OOr | OXor | OLand | OLor | OEq | ONe | OLt | OLe | OGt | OGe.
(** strict_val.hpp 382-457, 461-513: the operators on integers (IntModel), on floating types and on bool.  None: not defined for the
    type. *)
Definition iop (c : cfg) (o : bop) (t : ity) (x y : Z) : option (outcome value) :=
  let num r := Some (z <- r ;; Ok (VI t z)) in let cmp b := Some (Ok (VB b)) in
  match o with
  | OAdd => num (iadd t x y) | OSub => num (isub t x y) | OMul => num (imul t x y) | ODiv => num (idiv c t x y) | OMod => num (imod c t x y)
  | OShl => num (ishl c t x y) | OShr => num (ishr c t x y)
  | OAnd => num (Ok (iand t x y)) | OOr => num (Ok (ior t x y)) | OXor => num (Ok (ixor t x y))
  | OEq => cmp (x =? y) | ONe => cmp (negb (x =? y)) | OLt => cmp (x <? y) | OLe => cmp (x <=? y) | OGt => cmp (y <? x) | OGe => cmp (y <=? x)
  | OLand | OLor => None
  end.
Definition fop (o : bop) (f : fmt) (x y : flt f) : option (outcome value) :=
  let N := fnum (fprec f) (femax f) in let num r := Some (Ok (VF f r)) in let cmp b := Some (Ok (VB b)) in
  match o with
  | OAdd => num (nadd N x y) | OSub => num (nsub N x y) | OMul => num (nmul N x y) | ODiv => num (ndiv N x y)
  | OEq => cmp (neqb N x y) | ONe => cmp (negb (neqb N x y)) | OLt => cmp (nlt N x y) | OLe => cmp (nle N x y) | OGt => cmp (nlt N y x) | OGe => cmp (nle N y x)
  | _ => None
  end.
(** strict_val.hpp 454-457: ^ of bools through int; 462-470: && and ||; 473-513: comparisons, false < true. *)
Definition bool_op (o : bop) (x y : bool) : option (outcome value) :=
  let cmp b := Some (Ok (VB b)) in
  match o with
  | OXor => cmp (xorb x y) | OLand => cmp (x && y) | OLor => cmp (x || y)
  | OEq => cmp (Bool.eqb x y) | ONe => cmp (xorb x y) | OLt => cmp (negb x && y) | OLe => cmp (implb x y) | OGt => cmp (x && negb y) | OGe => cmp (implb y x)
  | _ => None
  end.
(** An operator applied to two values of the same type; None if the types differ: the built-in operator would convert an operand. *)
Definition fmt_eq (f g : fmt) : {f = g} + {f <> g}.
Proof. decide equality. Defined.
Definition ity_eqb (a b : ity) : bool := match a, b with I32, I32 | I64, I64 | U32, U32 | U64, U64 => true | _, _ => false end.
Definition apply2 (c : cfg) (o : bop) (v w : value) : option (outcome value) :=
  match v, w with
  | VB x, VB y => bool_op o x y
  | VI t x, VI t' y => if ity_eqb t t' then iop c o t x y else None
  | VF f x, VF g y => match fmt_eq g f with left E => fop o f x (eq_rect g (fun h => flt h) y f E) | right _ => None end
  | _, _ => None
  end.
(** strict_val.hpp 124-137 (unary + - ~), 65-67 (! of StrictBool). *)
Definition apply1 (o : uop) (v : value) : option (outcome value) :=
  match o, v with
  | UPlus, VI t z => Some (Ok (VI t z))
  | UPlus, VF f x => Some (Ok (VF f x))
  | UMinus, VI t z => if signed t then Some (r <- ineg t z ;; Ok (VI t r)) else None
  | UMinus, VF f x => Some (Ok (VF f (nneg (fnum (fprec f) (femax f)) x)))
  | UCompl, VI t z => Some (Ok (VI t (inot t z)))
  | UNot, VB b => Some (Ok (VB (negb b)))
  | _, _ => None
  end.

(** ** Expressions and what compiles *)
(** Raw b: the built-in type b.  Str b: Strict<b>. *)
Inductive vty := Raw (b : bty) | Str (b : bty).
Inductive exp :=
| XVar (n : nat)
| XRaw (v : value)                (* a constant of a built-in type *)
| XMake (b : bty) (e : exp)       (* Strict<b>{e} *)
| XDeduce (e : exp)               (* Strict{e} *)
| XVal (e : exp)                  (* e.val() *)
| XExact (b : bty) (e : exp)      (* static_cast<b>(e), e Strict *)
| XCast (b : bty) (e : exp)       (* strict_cast<b>(e), and e.si(), e.sd(), ... *)
| XBuiltin (b : bty) (e : exp)    (* builtin_cast<b>(e) *)
| XWhole (f : fmt) (e : exp)      (* whole<f>(e) *)
| XUn (o : uop) (e : exp)
| XBin (o : bop) (e1 e2 : exp)
| XIf (e e1 e2 : exp).            (* e ? e1 : e2 *)
Definition bty_eqb (a b : bty) : bool :=
  match a, b with TB, TB => true | TI t, TI u => ity_eqb t u | TF f, TF g => if fmt_eq f g then true else false | _, _ => false end.
Definition vty_eqb (a b : vty) : bool := match a, b with Raw x, Raw y | Str x, Str y => bty_eqb x y | _, _ => false end.
Definition base (t : vty) : bty := match t with Raw b | Str b => b end.
(** The constraints of the operator templates: strict_val.hpp 382-513 (Real, Integer, Boolean, Builtin). *)
Definition op_result (o : bop) (b : bty) : option bty :=
  match o, b with
  | (OAdd | OSub | OMul | ODiv), (TI _ | TF _) => Some b
  | (OMod | OShl | OShr | OAnd | OOr), TI _ => Some b
  | OXor, (TI _ | TB) => Some b
  | (OLand | OLor), TB => Some TB
  | (OEq | ONe | OLt | OLe | OGt | OGe), _ => Some TB
  | _, _ => None
  end.
Definition un_result (o : uop) (b : bty) : option bty :=
  match o, b with
  | UPlus, (TI _ | TF _) => Some b
  | UMinus, TI t => if signed t then Some b else None
  | UMinus, TF _ => Some b
  | UCompl, TI _ => Some b
  | UNot, TB => Some TB
  | _, _ => None
  end.
Definition is_int (b : bty) : bool := match b with TI _ => true | _ => false end.
(** The type of an expression; None: does not compile.  Operators on two built-in values are the language's own and not part of the
    model.
    Strict<b>{e} (strict_val.hpp 45-48, 110-113): any other type than b selects the deleted constructor.  The conversion to the
    built-in type (120-122) is explicit and to exactly that type; StrictBool also converts implicitly to bool (55-57) and every other
    conversion of it is deleted (59-63), so that it is accepted as a condition and next to a built-in value in && and || (whose
    operands are converted to bool).  An operator template
    (382-513) needs two operands Strict<T> of the same T; for + and - of integers of different types the overloads on ImplicitInt
    and on ImplicitIntStatic (auxiliary_types.hpp 225-244) are found as well, but they are ambiguous.  whole (369-378): from an integer to a floating type. *)
Fixpoint typ (G : list vty) (e : exp) : option vty :=
  match e with
  | XVar n => nth_error G n
  | XRaw v => Some (Raw (tyof v))
  | XMake b e => match typ G e with Some t => if bty_eqb (base t) b then Some (Str b) else None | None => None end
  | XDeduce e => match typ G e with Some t => Some (Str (base t)) | None => None end
  | XVal e => match typ G e with Some (Str b) => Some (Raw b) | _ => None end
  | XExact b e => match typ G e with Some (Str b') => if bty_eqb b' b then Some (Raw b) else None | _ => None end
  | XCast b e => match typ G e with Some _ => Some (Str b) | None => None end
  | XBuiltin b e => match typ G e with Some _ => Some (Raw b) | None => None end
  | XWhole f e => match typ G e with Some t => if is_int (base t) then Some (Str (TF f)) else None | None => None end
  | XUn o e => match typ G e with Some (Str b) => option_map Str (un_result o b) | _ => None end
  | XBin o e1 e2 =>
      match typ G e1, typ G e2 with
      | Some (Str a), Some (Str b) => if bty_eqb a b then option_map Str (op_result o a) else None
      | Some (Str TB), Some (Raw _) | Some (Raw _), Some (Str TB) => match o with OLand | OLor => Some (Raw TB) | _ => None end
      | _, _ => None
      end
  | XIf e e1 e2 =>
      match typ G e, typ G e1, typ G e2 with
      | Some t, Some a, Some b => if vty_eqb t (Str TB) || vty_eqb t (Raw TB) then if vty_eqb a b then Some a else None else None
      | _, _, _ => None
      end
  end.
(** Evaluation on the stored values.  None: an operand of another type than the operation is defined for, where C++ would convert
    implicitly.  && and || of StrictBool (462-470) are functions and evaluate both operands; next to a built-in value
    ([builtin_logic]) they are the built-in operators, convert it to bool and evaluate the second operand only if needed. *)
Definition bindo {A B} (x : option (outcome A)) (k : A -> option (outcome B)) : option (outcome B) :=
  match x with Some (Ok v) => k v | Some (Fail f) => Some (Fail f) | Some UB => Some UB | None => None end.
Definition builtin_logic (G : list vty) (e1 e2 : exp) : bool :=
  match typ G e1, typ G e2 with Some (Raw _), _ | _, Some (Raw _) => true | _, _ => false end.
Fixpoint eval (c : cfg) (G : list vty) (r : list value) (e : exp) : option (outcome value) :=
  match e with
  | XVar n => match nth_error r n with Some v => Some (Ok v) | None => None end
  | XRaw v => Some (Ok v)
  | XMake b e => bindo (eval c G r e) (fun v => if bty_eqb (tyof v) b then Some (Ok v) else None)
  | XExact b e => bindo (eval c G r e) (fun v => if bty_eqb (tyof v) b then Some (Ok v) else None)
  | XDeduce e | XVal e => eval c G r e
  | XCast b e | XBuiltin b e => bindo (eval c G r e) (fun v => Some (cast b v))
  | XWhole f e => bindo (eval c G r e) (fun v => Some (cast (TF f) v))
  | XUn o e => bindo (eval c G r e) (apply1 o)
  | XBin o e1 e2 =>
      bindo (eval c G r e1) (fun v =>
        if builtin_logic G e1 e2 then
          bindo (Some (cast TB v)) (fun b =>
            match o, b with
            | OLand, VB false | OLor, VB true => Some (Ok b)
            | OLand, _ | OLor, _ => bindo (eval c G r e2) (fun w => Some (cast TB w))
            | _, _ => None
            end)
        else bindo (eval c G r e2) (fun w => apply2 c o v w))
  | XIf e e1 e2 => bindo (eval c G r e) (fun v => match v with VB true => eval c G r e1 | VB false => eval c G r e2 | _ => None end)
  end.
