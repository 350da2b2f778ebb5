(** The operators and conversions of C++ on built-in types, as the language defines them for operands of different types, and the
    program obtained by deleting Strict.  [cast] is static_cast; operators on equal types are those of Model/Scalars.v. *)
From Coq Require Import ZArith Bool List Reals.
From Flocq Require Import Core BinarySingleNaN.
From Verif Require Import Base.Outcome Model.IntModel Model.FloatModel Model.Scalars Spec.IntSpec Spec.Configs.
Import ListNotations.
Local Open Scope Z_scope.

(** A value representable in its type. *)
Definition valid (v : value) : Prop := match v with VI t z => fits (signed t) (bits t) z | _ => True end.
(** The real number a finite value stands for. *)
Definition real (v : value) : R := match v with VB b => IZR (Z.b2z b) | VI _ z => IZR z | VF _ x => B2R x end.
Definition finite (v : value) : Prop := match v with VF _ x => is_finite x = true | _ => True end.
(** Real numbers of a format, whatever their size. *)
Definition format (f : fmt) (x : R) : Prop := generic_format radix2 (FLT_exp (3 - femax f - fprec f) (fprec f)) x.

(** Integer promotion and the usual arithmetic conversions ([conv.prom], [expr.arith.conv]). *)
Definition promote (b : bty) : bty := match b with TB => TI I32 | _ => b end.
Definition ity_max (t u : ity) : ity :=
  match t, u with
  | U64, _ | _, U64 => U64
  | I64, _ | _, I64 => I64
  | U32, _ | _, U32 => U32
  | I32, I32 => I32
  end.
Definition fmt_max (f g : fmt) : fmt :=
  match f, g with
  | F128, _ | _, F128 => F128
  | F80, _ | _, F80 => F80
  | F64, _ | _, F64 => F64
  | F32, F32 => F32
  end.
Definition common (a b : bty) : bty :=
  match promote a, promote b with
  | TF f, TF g => TF (fmt_max f g)
  | TF f, _ | _, TF f => TF f
  | TI t, TI u => TI (ity_max t u)
  | _, _ => TB
  end.

Inductive cexp :=
| CVar (n : nat)
| CConst (v : value)
| CCast (b : bty) (e : cexp)
| CUn (o : uop) (e : cexp)
| CBin (o : bop) (e1 e2 : cexp)
| CIf (e e1 e2 : cexp).
(** A built-in operator on values of the promoted common type, without any checks. *)
Definition same_type (o : bop) (v w : value) : outcome value := match apply2 c_off o v w with Some r => r | None => UB end.
Definition cpp_bin (o : bop) (v w : value) : outcome value :=
  match o with
  | OShl | OShr => v' <- cast (promote (tyof v)) v ;; w' <- cast (promote (tyof w)) w ;; w'' <- cast (tyof v') w' ;; same_type o v' w''
  | _ => let b := common (tyof v) (tyof w) in v' <- cast b v ;; w' <- cast b w ;; same_type o v' w'
  end.
Definition cpp_un (o : uop) (v : value) : outcome value :=
  match o with
  | UNot => b <- cast TB v ;; match b with VB x => Ok (VB (negb x)) | _ => UB end
  | _ => v' <- cast (promote (tyof v)) v ;; match apply1 o v' with Some r => r | None => UB end
  end.
(** Evaluation; && and || evaluate the second operand only if needed. *)
Fixpoint cpp (r : list value) (e : cexp) : outcome value :=
  match e with
  | CVar n => match nth_error r n with Some v => Ok v | None => UB end
  | CConst v => Ok v
  | CCast b e => v <- cpp r e ;; cast b v
  | CUn o e => v <- cpp r e ;; cpp_un o v
  | CBin OLand e1 e2 => v <- cpp r e1 ;; b <- cast TB v ;; match b with VB false => Ok (VB false) | _ => w <- cpp r e2 ;; cast TB w end
  | CBin OLor e1 e2 => v <- cpp r e1 ;; b <- cast TB v ;; match b with VB true => Ok (VB true) | _ => w <- cpp r e2 ;; cast TB w end
  | CBin o e1 e2 => v <- cpp r e1 ;; w <- cpp r e2 ;; cpp_bin o v w
  | CIf e e1 e2 => v <- cpp r e ;; b <- cast TB v ;; match b with VB true => cpp r e1 | _ => cpp r e2 end
  end.
(** The same program on built-in types: only the explicit conversions stay. *)
Fixpoint erase (e : exp) : cexp :=
  match e with
  | XVar n => CVar n
  | XRaw v => CConst v
  | XMake _ e | XDeduce e | XVal e | XExact _ e => erase e
  | XCast b e | XBuiltin b e => CCast b (erase e)
  | XWhole f e => CCast (TF f) (erase e)
  | XUn o e => CUn o (erase e)
  | XBin o e1 e2 => CBin o (erase e1) (erase e2)
  | XIf e e1 e2 => CIf (erase e) (erase e1) (erase e2)
  end.
(** No && or ||. *)
Fixpoint no_logic (e : exp) : Prop :=
  match e with
  | XVar _ | XRaw _ => True
  | XMake _ e | XDeduce e | XVal e | XExact _ e | XCast _ e | XBuiltin _ e | XWhole _ e | XUn _ e => no_logic e
  | XBin o e1 e2 => o <> OLand /\ o <> OLor /\ no_logic e1 /\ no_logic e2
  | XIf e e1 e2 => no_logic e /\ no_logic e1 /\ no_logic e2
  end.
(** The constants written in the program are values of their types. *)
Fixpoint consts_valid (e : exp) : Prop :=
  match e with
  | XVar _ => True
  | XRaw v => valid v
  | XMake _ e | XDeduce e | XVal e | XExact _ e | XCast _ e | XBuiltin _ e | XWhole _ e | XUn _ e => consts_valid e
  | XBin _ e1 e2 => consts_valid e1 /\ consts_valid e2
  | XIf e e1 e2 => consts_valid e /\ consts_valid e1 /\ consts_valid e2
  end.
(** The variables hold values of their types. *)
Definition matches (G : list vty) (r : list value) : Prop := Forall2 (fun t v => tyof v = base t /\ valid v) G r.
(** What a comparison operator claims about two real numbers. *)
Definition compares (o : bop) (x y : R) : Prop :=
  match o with
  | OEq => x = y | ONe => x <> y | OLt => (x < y)%R | OLe => (x <= y)%R | OGt => (x > y)%R | OGe => (x >= y)%R
  | _ => False
  end.
Definition comparison (o : bop) : Prop := In o [OEq; ONe; OLt; OLe; OGt; OGe].
(** The mathematical operation of an operator. *)
Definition zmath (o : bop) (x y : Z) : Z := match o with OAdd => x + y | OSub => x - y | OMul => x * y | _ => 0 end.
Definition rmath (o : bop) (x y : R) : R := match o with OAdd => x + y | OSub => x - y | OMul => x * y | ODiv => x / y | _ => 0 end%R.
