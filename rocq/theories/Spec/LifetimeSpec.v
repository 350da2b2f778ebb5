(** Vocabulary for the lifetime theorems: which builders promise to reject temporary arrays, and which terms are written with care. *)
From Coq Require Import List Arith Bool.
Import ListNotations.
From Verif Require Import Model.Lifetimes.

(** The builders of expressions and slices whose overloads for temporary arrays are deleted. *)
Definition guarded1 (b : builder1) : Prop :=
  match b with
  | B1Unary _ | B1ScalarL _ | B1ScalarR _ | B1MergeScalar | B1Exclude | B1RowReduce _ | B1ColReduce _ | B1RowBroadcast | B1ColBroadcast
  | B1Slice | B1View1D _ | B1View2D _ | B1Row | B1Col | B1Diag | B1Slice2 | B1Rows | B1Cols | B1Block | B1BlockN => True
  | _ => False
  end.
Definition guarded2 (b : builder2) : Prop := match b with B2Op _ | B2TwoProd | B2Merge | B2MergeH | B2MergeV => True | _ => False end.
(** Iterators, pointers and row ranges: every rvalue is rejected. *)
Definition pointing (b : builder1) : Prop := match b with B1Begin | B1Data | B1RowIt => True | _ => False end.
(** Nothing of the operand is kept. *)
Definition detached (b : builder1) : Prop := match b with B1Irange _ | B1Eval => True | _ => False end.

(** The functions and operators without an effective guard. *)
Definition unguarded1 (b : builder1) : Prop := match b with B1Gen _ | B1List | B1Elem => True | _ => False end.
Definition unguarded2 (b : builder2) : Prop := match b with B2Gen _ | B2PowProd | B2Tensor => True | _ => False end.

(** The elements and dimensions for which a builder is meant. *)
Definition boolean (e : elt) : Prop := e = EBool.
Definition number (e : elt) : Prop := e <> EBool.
Definition integer (e : elt) : Prop := match e with ESInt _ | EUInt _ => True | _ => False end.
Definition floating (e : elt) : Prop := match e with EFlt _ => True | _ => False end.
Definition unary_suits (u : unary) (e : elt) : Prop :=
  match u with UPlus | UMinus | UAbs => number e | UBitNot => integer e | UNot => boolean e | UCast _ => True | _ => floating e end.
Definition op_suits (o : binop) (e : elt) : Prop :=
  match o with OAdd | OSub | OMul | ODiv => number e | OAnd | OOr | OXor => boolean e | _ => integer e end.
Definition suits1 (b : builder1) (t : ty) : Prop :=
  match b with
  | B1Unary u => unary_suits u (telt t)
  | B1ScalarL o | B1ScalarR o => op_suits o (telt t)
  | B1MergeScalar | B1Exclude | B1RowBroadcast | B1ColBroadcast | B1Slice | B1List => tdim t = D1
  | B1Transpose | B1RowReduce _ | B1ColReduce _ | B1Row | B1Col | B1Diag | B1Slice2 | B1Rows | B1Cols | B1Block | B1BlockN => tdim t = D2
  | B1Irange d | B1View1D d | B1View2D d => tdim t = d
  | B1Gen _ | B1Begin | B1Elem | B1Eval => True
  | B1Data => tkind t = KArray
  | B1RowIt => tdim t = D2 /\ tkind t <> KRand
  end.
Definition suits2 (b : builder2) (t1 t2 : ty) : Prop :=
  match b with
  | B2Gen _ => tdim t1 = tdim t2
  | B2Op o => op_suits o (telt t1) /\ telt t1 = telt t2 /\ tdim t1 = tdim t2
  | B2TwoProd => floating (telt t1) /\ telt t1 = telt t2 /\ tdim t1 = tdim t2
  | B2PowProd => floating (telt t1) /\ (match telt t2 with ESInt _ => True | _ => False end) /\ tdim t1 = tdim t2
  | B2Matvec => tdim t1 = D2 /\ tdim t2 = D1 /\ number (telt t1) /\ telt t1 = telt t2
  | B2Tensor => tdim t1 = D1 /\ tdim t2 = D1 /\ number (telt t1) /\ telt t1 = telt t2
  | B2Merge => tdim t1 = D1 /\ tdim t2 = D1 /\ telt t1 = telt t2
  | B2MergeH | B2MergeV => tdim t1 = D2 /\ tdim t2 = D2 /\ telt t1 = telt t2
  end.

Definition temp_array (s : sig) : Prop := tkind (fst s) = KArray /\ snd s <> Lv.

(** Terms in which only such builders are used, and lval() is not. *)
Fixpoint guarded (t : tree) : Prop :=
  match t with
  | TVar _ | TNew _ => True
  | TLval _ => False
  | TMove t => guarded t
  | TApp1 b t => (guarded1 b \/ pointing b \/ detached b) /\ guarded t
  | TApp2 b t1 t2 => guarded2 b /\ guarded t1 /\ guarded t2
  end.
Fixpoint guarded_prog (p : prog) : Prop :=
  match p with
  | PDone => True
  | PLet t p | PUse t p => guarded t /\ guarded_prog p
  | PBlock p q => guarded_prog p /\ guarded_prog q
  end.

(** Terms in which the other builders are applied with care: generate, pow_prod, tensor_prod, lists of indexes and elements not
    to temporary arrays, transpose only to lvalues; matvec_prod and lval() not at all. *)
Fixpoint careful (G : list ty) (t : tree) : Prop :=
  match t with
  | TVar _ | TNew _ => True
  | TLval _ => False
  | TMove t => careful G t
  | TApp1 b t =>
      careful G t /\ forall s, typecheck G t = Some s ->
        match b with B1Gen _ | B1List | B1Elem => ~ temp_array s | B1Transpose => snd s = Lv | _ => True end
  | TApp2 b t1 t2 =>
      careful G t1 /\ careful G t2 /\ forall s1 s2, typecheck G t1 = Some s1 -> typecheck G t2 = Some s2 ->
        match b with B2Gen _ | B2PowProd | B2Tensor => ~ temp_array s1 /\ ~ temp_array s2 | B2Matvec => False | _ => True end
  end.
Fixpoint no_matvec (t : tree) : Prop :=
  match t with
  | TVar _ | TNew _ => True
  | TLval t | TMove t | TApp1 _ t => no_matvec t
  | TApp2 b t1 t2 => b <> B2Matvec /\ no_matvec t1 /\ no_matvec t2
  end.
(** Declarations are careful; a term consumed inside its full expression only has to do without matvec_prod. *)
Fixpoint careful_prog (G : list ty) (p : prog) : Prop :=
  match p with
  | PDone => True
  | PLet t p => careful G t /\ forall s, typecheck G t = Some s -> careful_prog (G ++ [fst s]) p
  | PUse t p => no_matvec t /\ careful_prog G p
  | PBlock p q => careful_prog G p /\ careful_prog G q
  end.

(** auto x0 = t0; auto x1 = t1; ...; p, and the types of x0, x1, ... *)
Definition lets (ts : list tree) (p : prog) : prog := fold_right PLet p ts.
Fixpoint types (G : list ty) (ts : list tree) : option (list ty) :=
  match ts with
  | [] => Some G
  | t :: ts => match typecheck G t with Some s => types (G ++ [fst s]) ts | None => None end
  end.
(** auto x = t; followed by a use of x. *)
Definition let_use (n : nat) (t : tree) : prog := PLet t (PUse (TVar n) PDone).
