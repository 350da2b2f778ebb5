(** What expressions of matrices mean, and what it means to store one element by element into a matrix it may read. *)
From Verif Require Import Base.Outcome Base.ZList Model.Index Model.Slice Model.Array1D Model.Array2D Model.Expr Model.Store1D Model.Store2D Model.Lazy2.
From Verif Require Import Spec.ArraySpec Spec.MatrixSpec Spec.Matrix2Spec Spec.Store1DSpec Spec.Store2DSpec Spec.ExprSpec.

Section S.
Context {V : Type}.
Notation world := (list (list (list V))).
Implicit Types (M A R : list (list V)).

(** Written without kept expressions. *)
Fixpoint spelled2 (x : mxt V) : bool :=
  match x with
  | TArr _ | TOwn _ => true
  | THeld _ => false
  | TUn _ x | TScalR _ x _ | TScalL _ _ x | TTrans x => spelled2 x
  | TBin _ x y => spelled2 x && spelled2 y
  end.
(** The arrays that are named. *)
Fixpoint names_in (x : mxt V) : list Z :=
  match x with
  | TArr k => [k]
  | THeld _ | TOwn _ => []
  | TUn _ x | TScalR _ x _ | TScalL _ _ x | TTrans x => names_in x
  | TBin _ x y => names_in x ++ names_in y
  end.
(** Stand-alone expressions are matrices. *)
Fixpoint owned2 (x : mxt V) : Prop :=
  match x with
  | TArr _ | THeld _ => True
  | TOwn m => exists B : src2 V, m = Ok B /\ yields2 B (mkmx (s2rows B) (s2cols B) (s2un B)) /\ (s2rows B = 0 <-> s2cols B = 0)
  | TUn _ x | TScalR _ x _ | TScalL _ _ x | TTrans x => owned2 x
  | TBin _ x y => owned2 x /\ owned2 y
  end.
(** Rows and columns, if all operators have operands of equal shapes. *)
Fixpoint shape2 (w : world) (x : mxt V) : option (Z * Z) :=
  match x with
  | TArr k => match znth w k with Some M => Some (zlen M, ncols M) | None => None end
  | THeld _ => None
  | TOwn m => match m with Ok B => Some (s2rows B, s2cols B) | _ => None end
  | TUn _ x | TScalR _ x _ | TScalL _ _ x => shape2 w x
  | TBin _ x y =>
      match shape2 w x, shape2 w y with
      | Some (m, n), Some (m', n') => if (m =? m') && (n =? n') then Some (m, n) else None
      | _, _ => None
      end
  | TTrans x => match shape2 w x with Some (m, n) => Some (n, m) | None => None end
  end.
(** Element (i, j), where rd k p q is element (p, q) of array k. *)
Fixpoint value2 (rd : Z -> Z -> Z -> outcome V) (x : mxt V) (i j : Z) : outcome V :=
  match x with
  | TArr k => rd k i j
  | THeld _ => UB
  | TOwn m => B <- m ;; s2un B i j
  | TUn f x => u <- value2 rd x i j ;; f u
  | TBin f x y => u <- value2 rd x i j ;; v <- value2 rd y i j ;; f u v
  | TScalR f x v => u <- value2 rd x i j ;; f u v
  | TScalL f v x => u <- value2 rd x i j ;; f v u
  | TTrans x => value2 rd x j i
  end.
Definition entry M (p q : Z) : outcome V := match mget M p q with Some v => Ok v | None => UB end.
(** The matrices as they are. *)
Definition now (w : world) (k p q : Z) : outcome V := match znth w k with Some M => entry M p q | None => UB end.

(** (p, q) comes before (i, j), reading row by row. *)
Definition before (i j p q : Z) : bool := (p <? i) || ((p =? i) && (q <? j)).
(** The matrices when (i, j) is the next element of matrix k to be replaced: that matrix is R up to there and A from there on. *)
Definition midway (w : world) (k : Z) A R (i j : Z) (k' p q : Z) : outcome V :=
  if k' =? k then if before i j p q then entry R p q else entry A p q else now w k' p q.
(** R is A with the elements before (i0, j0) replaced by those of x, each computed when its turn came. *)
Definition swept (w : world) (k : Z) A (x : mxt V) (i0 j0 : Z) R : Prop :=
  zlen R = zlen A /\ rect (ncols A) R /\
  forall i j, 0 <= i < zlen A -> 0 <= j < ncols A ->
    if before i0 j0 i j then exists v, value2 (midway w k A R i j) x i j = Ok v /\ mget R i j = Some v else mget R i j = mget A i j.

(** No transposition of array k. *)
Fixpoint upright (k : Z) (x : mxt V) : bool :=
  match x with
  | TArr _ | THeld _ | TOwn _ => true
  | TUn _ x | TScalR _ x _ | TScalL _ _ x => upright k x
  | TBin _ x y => upright k x && upright k y
  | TTrans x => negb (existsb (Z.eqb k) (names_in x))
  end.
(** R is the matrix of x. *)
Definition matrix_of (w : world) (x : mxt V) R : Prop :=
  wfm R /\ shape2 w x = Some (zlen R, ncols R) /\
  forall i j v, mget R i j = Some v -> value2 (now w) x i j = Ok v.
Definition symmetric A : Prop := forall i j, mget A i j = mget A j i.
Definition transpose_of A R : Prop := zlen R = ncols A /\ forall i j, mget R i j = mget A j i.
(** Only the variables 0, ..., n - 1 are used, and none is introduced. *)
Fixpoint uses_below (n : Z) (x : mxt V) : bool :=
  match x with
  | TArr _ | TOwn _ => true
  | THeld h => h <? n
  | TUn _ x | TScalR _ x _ | TScalL _ _ x | TTrans x => uses_below n x
  | TBin _ x y => uses_below n x && uses_below n y
  end.
Definition stays_below (n : Z) (t : gstm V) : bool :=
  match t with
  | DOp _ => true
  | DLet _ => false
  | DGet h _ _ | DRows h | DCols h => h <? n
  | DNew x | DSet _ x | DUpd _ _ x | DRes _ x => uses_below n x
  end.
End S.
