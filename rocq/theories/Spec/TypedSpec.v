(** Well-formed states of programs on typed arrays, and what their statements mean element by element, without loops, index arithmetic
    or expression objects. *)
From Coq Require Import ZArith Bool List Reals.
From Flocq Require Import BinarySingleNaN.
From Verif Require Import Base.Outcome Base.ZList Model.IntModel Model.Scalars Model.Typed Spec.ScalarSpec.
Import ListNotations.
Local Open Scope Z_scope.

Notation state := (list tarr * list (vty * value))%type.
(** Every element of an array has its element type; every scalar has its type. *)
Definition arr_typed (a : tarr) : Prop := Forall (fun v => tyof v = tty a /\ valid v) (tel a).
Definition scal_typed (x : vty * value) : Prop := tyof (snd x) = base (fst x) /\ valid (snd x).
Definition typed (s : state) : Prop := Forall arr_typed (fst s) /\ Forall scal_typed (snd s).
(** The types of the variables of a state. *)
Definition types_of (s : state) : list (bool * bty) * list vty := (kinds (fst s), map fst (snd s)).
(** The number of elements is that of the sizes, and fits an index. *)
Definition arr_sized (a : tarr) : Prop :=
  zlen (tel a) = total (tsh a) /\ total (tsh a) <= LONG_MAX /\ match tsh a with Sh1 n => 0 <= n | Sh2 m n => 0 <= m /\ 0 <= n end.
Definition sized (s : state) : Prop := Forall arr_sized (fst s).
(** The constants written in the program are values of their types. *)
Fixpoint ax_consts (e : ax) : Prop :=
  match e with
  | AVar _ => True
  | AUn _ e | AAbs e | AInv e | ACast _ e | ATemp e => ax_consts e
  | ABin _ e1 e2 => ax_consts e1 /\ ax_consts e2
  | ALeft _ s e | ARight _ e s => consts_valid s /\ ax_consts e
  end.
Definition stm_consts (t : stm) : Prop :=
  match t with
  | SLet s | SFill _ s | SOpS _ _ s => consts_valid s
  | SSum e | SNew e | SSet _ e | SOp _ _ e | SRes _ e => ax_consts e
  | SEqual e1 e2 => ax_consts e1 /\ ax_consts e2
  | SGet _ is => Forall consts_valid is
  | SPut _ is s => Forall consts_valid is /\ consts_valid s
  end.
(** Failures a program can end with: a check that is switched on (an exception or an assert), or memory. *)
Definition reported (c : cfg) (f : failure) : Prop := (checked c = true /\ (f = report c \/ f = Abort)) \/ f = BadAlloc.

Section Meaning.
Context (c : cfg).
Definition scalar (s : state) (x : exp) (v : value) : Prop := eval c (map fst (snd s)) (map snd (snd s)) x = Some (Ok v).
(** v is element number i of the expression (counted by rows). *)
Fixpoint elem (s : state) (e : ax) (i : Z) (v : value) : Prop :=
  match e with
  | AVar k => exists a, nth_error (fst s) k = Some a /\ znth (tel a) i = Some v
  | AUn o e => exists u, elem s e i u /\ apply1 o u = Some (Ok v)
  | AAbs e => exists u, elem s e i u /\ vabs c u = Some (Ok v)
  | AInv e => exists u, elem s e i u /\ vinv c u = Some (Ok v)
  | ABin o e1 e2 => exists u w, elem s e1 i u /\ elem s e2 i w /\ apply2 c o u w = Some (Ok v)
  | ALeft o x e => exists u w, scalar s x u /\ elem s e i w /\ apply2 c o u w = Some (Ok v)
  | ARight o e x => exists u w, elem s e i u /\ scalar s x w /\ apply2 c o u w = Some (Ok v)
  | ACast b e => exists u, elem s e i u /\ cast b u = Ok v
  | ATemp e => elem s e i v
  end.
(** The expression is meaningful and has sizes h: all its operands have, its scalars have values, and its temporaries have elements
    and fit in memory. *)
Fixpoint shaped (s : state) (e : ax) (h : shape) : Prop :=
  match e with
  | AVar k => exists a, nth_error (fst s) k = Some a /\ tsh a = h
  | AUn _ e | AAbs e | AInv e | ACast _ e => shaped s e h
  | ABin _ e1 e2 => shaped s e1 h /\ shaped s e2 h
  | ALeft _ x e | ARight _ e x => (exists v, scalar s x v) /\ shaped s e h
  | ATemp e => shaped s e h /\ forall i, 0 <= i < total h -> exists v, elem s e i v
  end.
(** The array with the elements of e; nothing is allocated for a temporary that already is one. *)
Fixpoint fits_memory (e : ax) (h : shape) : Prop :=
  match e with
  | AVar _ => True
  | AUn _ e | AAbs e | AInv e | ACast _ e => fits_memory e h
  | ABin _ e1 e2 => fits_memory e1 h /\ fits_memory e2 h
  | ALeft _ _ e | ARight _ e _ => fits_memory e h
  | ATemp e => total h <= amax c /\ fits_memory e h
  end.
Definition array_of (s : state) (e : ax) (a : tarr) : Prop :=
  shaped s e (tsh a) /\ fits_memory e (tsh a) /\ zlen (tel a) = total (tsh a) /\
  forall i v, znth (tel a) i = Some v -> elem s e i v.
(** v is the sum from left to right. *)
Fixpoint adds (v : value) (l : list value) (r : value) : Prop :=
  match l with [] => r = v | w :: l' => exists u, apply2 c OAdd v w = Some (Ok u) /\ adds u l' r end.
Definition sums_to (b : bty) (l : list value) (r : value) : Prop :=
  match l with [] => constant b 0 = Ok r | v :: l' => adds v l' r end.
(** Elements i are equal (r is true), or not. *)
Definition elems_equal (s : state) (e1 e2 : ax) (i : Z) (r : bool) : Prop :=
  exists v w, elem s e1 i v /\ elem s e2 i w /\ apply2 c OEq v w = Some (Ok (VB r)).
Definition compares_as (s : state) (e1 e2 : ax) (r : bool) : Prop :=
  exists h1 h2, shaped s e1 h1 /\ fits_memory e1 h1 /\ shaped s e2 h2 /\ fits_memory e2 h2 /\
    if r then h1 = h2 /\ forall i, 0 <= i < total h1 -> elems_equal s e1 e2 i true
    else h1 <> h2 \/ exists i, 0 <= i < total h1 /\ (forall j, 0 <= j < i -> elems_equal s e1 e2 j true) /\ elems_equal s e1 e2 i false.
(** Position of an element. *)
Definition index_is (s : state) (x : exp) (n i : Z) : Prop :=
  0 <= i < n /\ (scalar s x (VI I32 i) \/ scalar s x (VI I64 i)).
Definition position (s : state) (h : shape) (is : list exp) (p : Z) : Prop :=
  match h, is with
  | Sh1 n, [x] => index_is s x n p
  | Sh2 m n, [x; y] => exists i j, index_is s x m i /\ index_is s y n j /\ p = i * n + j
  | _, _ => False
  end.
Definition with_array (s : state) (k : nat) (a : tarr) : state := (upd (fst s) k a, snd s).
Definition with_scalar (s : state) (t : vty) (v : value) : state := (fst s, snd s ++ [(t, v)]).
(** The statement t takes state s to s'. *)
Definition does (s : state) (t : stm) (s' : state) : Prop :=
  match t with
  | SLet x => exists v b, typ (map fst (snd s)) x = Some b /\ scalar s x v /\ s' = with_scalar s b v
  | SSum e => exists a v, array_of s e a /\ (exists d t, atyp (kinds (fst s)) (map fst (snd s)) e = Some (mkaty d (tty a) t)) /\
                sums_to (tty a) (tel a) v /\ s' = with_scalar s (Str (tty a)) v
  | SEqual e1 e2 => exists r, compares_as s e1 e2 r /\ s' = with_scalar s (Str TB) (VB r)
  | SGet k is => exists a p v, nth_error (fst s) k = Some a /\ position s (tsh a) is p /\ znth (tel a) p = Some v /\ s' = with_scalar s (Str (tty a)) v
  | SPut k is x => exists a p v, nth_error (fst s) k = Some a /\ position s (tsh a) is p /\ scalar s x v /\
                     s' = with_array s k (mktarr (tty a) (tsh a) (zupd (tel a) p v))
  | SNew e => exists a, array_of s (ATemp e) a /\ (exists d t, atyp (kinds (fst s)) (map fst (snd s)) e = Some (mkaty d (tty a) t)) /\ s' = (fst s ++ [a], snd s)
  | SSet k e => exists a a', nth_error (fst s) k = Some a /\ array_of s e a' /\ tty a' = tty a /\ tsh a' = tsh a /\ s' = with_array s k a'
  | SFill k x => exists a v, nth_error (fst s) k = Some a /\ scalar s x v /\ s' = with_array s k (mktarr (tty a) (tsh a) (map (fun _ => v) (tel a)))
  | SOp o k e => exists a a' a'', nth_error (fst s) k = Some a /\ array_of s e a' /\ tsh a' = tsh a /\
      tty a'' = tty a /\ tsh a'' = tsh a /\ zlen (tel a'') = zlen (tel a) /\
      (forall i v w u, znth (tel a) i = Some v -> znth (tel a') i = Some w -> znth (tel a'') i = Some u -> apply2 c o v w = Some (Ok u)) /\
      s' = with_array s k a''
  | SOpS o k x => exists a w a'', nth_error (fst s) k = Some a /\ scalar s x w /\
      tty a'' = tty a /\ tsh a'' = tsh a /\ zlen (tel a'') = zlen (tel a) /\
      (forall i v u, znth (tel a) i = Some v -> znth (tel a'') i = Some u -> apply2 c o v w = Some (Ok u)) /\
      s' = with_array s k a''
  | SRes k e => exists a a', nth_error (fst s) k = Some a /\ array_of s (ATemp e) a' /\ tty a' = tty a /\ s' = with_array s k a'
  end.
Fixpoint performs (s : state) (l : list stm) (s' : state) : Prop :=
  match l with [] => s' = s | t :: l' => exists s1, does s t s1 /\ performs s1 l' s' end.
End Meaning.
(** Assignments from a temporary array, which are moves. *)
Definition moves (t : stm) : Prop := match t with SSet _ (ATemp _) => True | _ => False end.
(** No array_cast. *)
Fixpoint uncast (e : ax) : Prop :=
  match e with
  | AVar _ => True
  | AUn _ e | AAbs e | AInv e | ATemp e => uncast e
  | ABin _ e1 e2 => uncast e1 /\ uncast e2
  | ALeft _ _ e | ARight _ e _ => uncast e
  | ACast _ _ => False
  end.
(** The arrays an expression names. *)
Fixpoint names (e : ax) : list nat :=
  match e with
  | AVar k => [k]
  | AUn _ e | AAbs e | AInv e | ATemp e | ACast _ e | ALeft _ _ e | ARight _ e _ => names e
  | ABin _ e1 e2 => names e1 ++ names e2
  end.
(** Two operands have different sizes (operands are evaluated from left to right). *)
Fixpoint clash (c : cfg) (s : state) (e : ax) : Prop :=
  match e with
  | AVar _ => False
  | AUn _ e | AAbs e | AInv e | ACast _ e | ATemp e => clash c s e
  | ABin _ e1 e2 => clash c s e1 \/ exists h1, shaped c s e1 h1 /\ fits_memory c e1 h1 /\
                    (clash c s e2 \/ exists h2, shaped c s e2 h2 /\ fits_memory c e2 h2 /\ h1 <> h2)
  | ALeft _ x e => (exists v, scalar c s x v) /\ clash c s e
  | ARight _ e x => clash c s e
  end.
Definition mismatched (c : cfg) (s : state) (t : stm) : Prop :=
  let other k e := exists a h, nth_error (fst s) k = Some a /\ shaped c s e h /\ fits_memory c e h /\ h <> tsh a in
  match t with
  | SSum e | SNew e | SRes _ e => clash c s e
  | SEqual e1 e2 => clash c s e1 \/ (exists h, shaped c s e1 h /\ fits_memory c e1 h) /\ clash c s e2
  | SSet k e => clash c s e \/ (~ moves t /\ other k e)
  | SOp _ k e => clash c s e \/ other k e
  | _ => False
  end.
(** The array a statement changes; whether it gives it other sizes. *)
Definition target (t : stm) : option nat :=
  match t with SPut k _ _ | SSet k _ | SFill k _ | SOp _ k _ | SOpS _ k _ | SRes k _ => Some k | _ => None end.
Definition resizes (t : stm) : Prop := match t with SRes _ _ => True | _ => False end.
(** Types whose operators, other than shifts and conversions, have a defined result or a check. *)
Definition steady (b : bty) : Prop := match b with TI t => signed t = false | _ => True end.
Definition no_shift (o : bop) : Prop := o <> OShl /\ o <> OShr.
(** Constants, variables and Strict made of them. *)
Fixpoint simple (x : exp) : Prop :=
  match x with XVar _ | XRaw _ => True | XMake _ x | XDeduce x | XVal x | XExact _ x => simple x | _ => False end.
Fixpoint gentle (e : ax) : Prop :=
  match e with
  | AVar _ => True
  | AUn _ e | AAbs e | AInv e | ATemp e => gentle e
  | ABin o e1 e2 => no_shift o /\ gentle e1 /\ gentle e2
  | ALeft o x e | ARight o e x => no_shift o /\ simple x /\ gentle e
  | ACast _ _ => False
  end.
Definition gentle_stm (t : stm) : Prop :=
  match t with
  | SLet x | SFill _ x => simple x
  | SSum e | SNew e | SSet _ e | SRes _ e => gentle e
  | SEqual e1 e2 => gentle e1 /\ gentle e2
  | SGet _ is => Forall simple is
  | SPut _ is x => Forall simple is /\ simple x
  | SOp o _ e => no_shift o /\ gentle e
  | SOpS o _ x => no_shift o /\ simple x
  end.

(** ** What compiles, as rules *)
(** The unary operators: + and - of numbers except - of unsigned ones, ~ of integers, ! of bool. *)
Definition unary_op (o : uop) (b : bty) : Prop :=
  match o with
  | UPlus => b <> TB
  | UMinus => (exists t, b = TI t /\ signed t = true) \/ exists f, b = TF f
  | UCompl => exists t, b = TI t
  | UNot => b = TB
  end.
(** The binary operators that make arrays; their elements have the type of the operands. *)
Definition binary_op (o : bop) (b : bty) : Prop :=
  match o with
  | OAdd | OSub | OMul | ODiv => b <> TB
  | OMod | OShl | OShr | OAnd | OOr => exists t, b = TI t
  | OXor => forall f, b <> TF f
  | OLand | OLor => b = TB
  | OEq | ONe | OLt | OLe | OGt | OGe => False
  end.
(** [object d b]: an array expression of dimension d and element type b, which is not a temporary array. *)
Inductive object (K : list (bool * bty)) (G : list vty) : bool -> bty -> ax -> Prop :=
| ob_var k d b : nth_error K k = Some (d, b) -> object K G d b (AVar k)
| ob_un o d b e : object K G d b e -> unary_op o b -> object K G d b (AUn o e)
| ob_abs d b e : object K G d b e -> b <> TB -> object K G d b (AAbs e)
| ob_inv d f e : object K G d (TF f) e -> object K G d (TF f) (AInv e)
| ob_bin o d b e1 e2 : object K G d b e1 -> object K G d b e2 -> binary_op o b -> object K G d b (ABin o e1 e2)
| ob_left o d b x e : typ G x = Some (Str b) -> object K G d b e -> binary_op o b -> object K G d b (ALeft o x e)
| ob_right o d b x e : object K G d b e -> typ G x = Some (Str b) -> binary_op o b -> object K G d b (ARight o e x)
| ob_cast d b b' e : object K G d b e -> object K G d b' (ACast b' e).
(** Any expression: possibly a temporary array, made of a temporary array any number of times. *)
Inductive array (K : list (bool * bty)) (G : list vty) : bool -> bty -> ax -> Prop :=
| ar_object d b e : object K G d b e -> array K G d b e
| ar_temp d b e : array K G d b e -> array K G d b (ATemp e).
(** Statements: E and E' are the types of the variables before and after. *)
Definition compiles (K : list (bool * bty)) (G : list vty) (t : stm) (E' : list (bool * bty) * list vty) : Prop :=
  let index x := exists i, (i = I32 \/ i = I64) /\ (typ G x = Some (Raw (TI i)) \/ typ G x = Some (Str (TI i))) in
  let element d b k is := nth_error K k = Some (d, b) /\ length is = (if d : bool then 2%nat else 1%nat) /\ Forall index is in
  match t with
  | SLet x => exists v, typ G x = Some v /\ E' = (K, G ++ [v])
  | SSum e => exists d b, array K G d b e /\ b <> TB /\ E' = (K, G ++ [Str b])
  | SEqual e1 e2 => exists d b, array K G d b e1 /\ array K G d b e2 /\ E' = (K, G ++ [Str TB])
  | SGet k is => exists d b, element d b k is /\ E' = (K, G ++ [Str b])
  | SPut k is x => exists d b, element d b k is /\ typ G x = Some (Str b) /\ E' = (K, G)
  | SNew e => exists d b, array K G d b e /\ E' = (K ++ [(d, b)], G)
  | SSet k e | SRes k e => exists d b, nth_error K k = Some (d, b) /\ array K G d b e /\ E' = (K, G)
  | SFill k x => exists d b, nth_error K k = Some (d, b) /\ typ G x = Some (Str b) /\ E' = (K, G)
  | SOp o k e => exists d b, nth_error K k = Some (d, b) /\ array K G d b e /\ binary_op o b /\ b <> TB /\ E' = (K, G)
  | SOpS o k x => exists d b, nth_error K k = Some (d, b) /\ typ G x = Some (Str b) /\ binary_op o b /\ b <> TB /\ E' = (K, G)
  end.
(** Positive, of a floating-point number. *)
Definition above_zero {prec emax} (x : binary_float prec emax) : bool :=
  match x with B754_infinity false | B754_finite false _ _ _ => true | _ => false end.
