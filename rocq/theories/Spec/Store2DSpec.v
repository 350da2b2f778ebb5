(** The abstract meaning of the two-dimensional array operations: a list of matrices. *)
From Verif Require Import Base.Outcome Base.ZList Model.Index Model.Slice Model.Array1D Model.Array2D Model.Store1D Model.Store2D.
From Verif Require Import Spec.ArraySpec Spec.SliceSpec Spec.Store1DSpec Spec.MatrixSpec Spec.Matrix2Spec.

Section Spec.
Context {V : Type} (zero : V).
Notation world := (list (list (list V))).
Implicit Types (M N : list (list V)).

Definition same_shape M N : bool := (zlen M =? zlen N) && (ncols M =? ncols N).

Definition spec_step2 (c : cfg) (w : world) (o : op2 V) : res world V :=
  match o with
  | New2 m n => spush w (spec_new2 c m n zero)
  | NewFill2 m n x => spush w (spec_new2 c m n x)
  | NewList2 L => spush w (spec_list2 c L)
  | NewCopy2 j => swith1 w j (fun N => spush w (Ok N))
  | NewMove2 j => swith1 w j (fun N => Next (zupd w j [] ++ [N]) Done)
  | SetAll2 i x => swith1 w i (fun M => sput w i (Ok (map (map (fun _ => x)) M)))
  | AssignList2 i L => swith1 w i (fun M => sput w i (N <- spec_list2 c L ;; guard c (same_shape M N) (Ok N)))
  | Assign2 i j => swith2 w i j (fun M N => sput w i (guard c (same_shape M N) (Ok N)))
  | MoveAssign2 i j => swith2 w i j (fun M N =>
      if i =? j then Next w Done
      else if same_shape M N then Next (zupd (zupd w i N) j []) Done else Next w (Failed Abort))
  | Swap2 i j => swith2 w i j (fun M N => Next (zupd (zupd w i N) j M) Done)
  | Resize2 i m n pr => swith1 w i (fun M => sput w i (spec_resize2 zero c M m n pr))
  | ResizeAssign2 i j => swith2 w i j (fun M N => sput w i (Ok N))
  | ResizeAssignMove2 i j => swith2 w i j (fun M N => Next (zupd (zupd w i N) j []) Done)
  | RemoveRows i p k => swith1 w i (fun M => sput w i (spec_remove_rows c M p k))
  | RemoveCols i p k => swith1 w i (fun M => sput w i (spec_remove_cols c M p k))
  | RemoveRow i p => swith1 w i (fun M => sput w i (spec_remove_rows c M p 1))
  | RemoveCol i p => swith1 w i (fun M => sput w i (spec_remove_cols c M p 1))
  | RemoveRowLast i _ => swith1 w i (fun M => sput w i (spec_remove_rows c M (zlen M - 1) 1))
  | RemoveColLast i _ => swith1 w i (fun M => sput w i (spec_remove_cols c M (ncols M - 1) 1))
  | RemoveRowsFront i k => swith1 w i (fun M => sput w i (spec_remove_rows c M 0 k))
  | RemoveRowsBack i k => swith1 w i (fun M => sput w i
      (if in_long (zlen M - k) then spec_remove_rows c M (zlen M - k) k else UB))
  | RemoveColsFront i k => swith1 w i (fun M => sput w i (spec_remove_cols c M 0 k))
  | RemoveColsBack i k => swith1 w i (fun M => sput w i
      (if in_long (ncols M - k) then spec_remove_cols c M (ncols M - k) k else UB))
  | RemoveRowsIdx i v => swith1 w i (fun M => sput w i (spec_remove_rows_idx c M v))
  | RemoveColsIdx i v => swith1 w i (fun M => sput w i (spec_remove_cols_idx c M v))
  | InsertRows i p j => swith2 w i j (fun M N => sput w i (spec_insert_rows c M p N))
  | InsertCols i p j => swith2 w i j (fun M N => sput w i (spec_insert_cols c M p N))
  | InsertRowsFront i j => swith2 w i j (fun M N => sput w i (spec_insert_rows c M 0 N))
  | InsertRowsBack i j => swith2 w i j (fun M N => sput w i (spec_insert_rows c M (zlen M) N))
  | InsertColsFront i j => swith2 w i j (fun M N => sput w i (spec_insert_cols c M 0 N))
  | InsertColsBack i j => swith2 w i j (fun M N => sput w i (spec_insert_cols c M (ncols M) N))
  | InsertRow i p l => swith1 w i (fun M => sput w i (spec_insert_row c M p l))
  | InsertCol i p l => swith1 w i (fun M => sput w i (spec_insert_col c M p l))
  | InsertRowFront i l => swith1 w i (fun M => sput w i (spec_insert_row c M 0 l))
  | InsertRowBack i l => swith1 w i (fun M => sput w i (spec_insert_row c M (zlen M) l))
  | InsertColFront i l => swith1 w i (fun M => sput w i (spec_insert_col c M 0 l))
  | InsertColBack i l => swith1 w i (fun M => sput w i (spec_insert_col c M (ncols M) l))
  | Write2 i ix jx x => swith1 w i (fun M => sput w i (spec_at2 c M ix jx (fun p q => Ok (mset M p q x))))
  | Read2 i ix jx => swith1 w i (fun M =>
      match spec_at2 c M ix jx (fun p q => match mget M p q with Some v => Ok v | None => UB end) with
      | Ok v => Next w (Value v) | Fail f => Next w (Failed f) | UB => Crash end)
  | Rows2 i => swith1 w i (fun M => Next w (Number (zlen M)))
  | Cols2 i => swith1 w i (fun M => Next w (Number (ncols M)))
  | Size2 i => swith1 w i (fun M => Next w (Number (zlen M * ncols M)))
  end.

(** Integer arguments of an operation are 64-bit. *)
Definition idx_arg (ix : idx) : Prop := match ix with Plain i => is_long i | FromLast k => is_long k end.
Definition op2_long (o : op2 V) : Prop :=
  match o with
  | New2 m n | NewFill2 m n _ | Resize2 _ m n _ | RemoveRows _ m n | RemoveCols _ m n => is_long m /\ is_long n
  | RemoveRow _ n | RemoveCol _ n | RemoveRowLast _ n | RemoveColLast _ n | RemoveRowsFront _ n | RemoveRowsBack _ n
  | RemoveColsFront _ n | RemoveColsBack _ n | InsertRows _ n _ | InsertCols _ n _ | InsertRow _ n _ | InsertCol _ n _ => is_long n
  | Write2 _ ix jx _ | Read2 _ ix jx => idx_arg ix /\ idx_arg jx
  | _ => True
  end.

(** The move assignments that the matrix model does not cover: an array moved onto itself, and arrays of different shapes
    when the assertion guarding them is compiled out. *)
Definition odd_move (c : cfg) (w : world) (o : op2 V) : bool :=
  match o with
  | MoveAssign2 i j =>
      match znth w i, znth w j with
      | Some M, Some N => if i =? j then negb (zlen M =? 0) else negb (same_shape M N) && (ndbg c || negb (dbg c))
      | _, _ => false
      end
  | _ => false
  end.
Fixpoint tame (c : cfg) (w : world) (ops : list (op2 V)) : Prop :=
  match ops with
  | [] => True
  | o :: ops' => odd_move c w o = false /\
      match spec_step2 c w o with
      | Crash => True
      | Next w' _ => tame c w' ops'
      end
  end.

Definition represents2 (c : cfg) (st : list (arr2 V)) (w : world) : Prop :=
  Forall2 (fun a M => rep2 a M /\ zlen M * ncols M <= amax c) st w.
End Spec.
