(** Who owns the elements of an array after an operation: what a program that keeps a pointer from data() has to know. *)
From Verif Require Import Base.Outcome Base.ZList Model.Index Model.Slice Model.Array1D Model.Array2D Model.Store1D Model.Store2D Model.Heap Model.Heap2D.

(** The arrays an operation names. *)
Definition names {V} (o : op1 V) : list Z :=
  match o with
  | New _ | NewFill _ _ | NewList _ => []
  | NewCopy j | NewMove j | NewSlice j _ => [j]
  | SetAll i _ | AssignList i _ | Resize i _ _ | Remove i _ _ | RemoveFront i _ | RemoveBack i _ | RemoveLast i _ | RemoveIndexes i _
  | Insert i _ _ | InsertFront i _ | InsertBack i _ | Write i _ _ | Read i _ | Size i => [i]
  | Assign i j | MoveAssign i j | Swap i j | ResizeAssign i j | ResizeAssignMove i j | InsertArr i _ j | InsertFrontArr i j | InsertBackArr i j => [i; j]
  end.

(** When the arrays have sizes sz and o succeeds: the array that then owns the elements that array k has now, in the same place;
    None when they were given back. *)
Definition heir {V} (sz : list Z) (o : op1 V) (k : Z) : option Z :=
  if negb (forallb (fun i => (0 <=? i) && (i <? zlen sz)) (names o)) then Some k else
  match o with
  (* a move constructor takes them over *)
  | NewMove j => if k =? j then Some (zlen sz) else Some k
  (* so does a move assignment, whose left side gives up its own *)
  | MoveAssign i j => if i =? j then Some k else if k =? i then None else if k =? j then Some i else Some k
  | ResizeAssignMove i j => if k =? i then None else if k =? j then Some i else Some k
  | Swap i j => if k =? i then Some j else if k =? j then Some i else Some k
  (* a resize to the size it already has, and the removal of no elements, do nothing *)
  | Resize i n _ => if (k =? i) && negb (match znth sz i with Some m => n =? m | None => true end) then None else Some k
  | RemoveIndexes i v => if (k =? i) && negb (match v with [] => true | _ => false end) then None else Some k
  (* every other change of size moves the elements *)
  | ResizeAssign i _ | Remove i _ _ | RemoveFront i _ | RemoveBack i _ | RemoveLast i _
  | Insert i _ _ | InsertFront i _ | InsertBack i _ | InsertArr i _ _ | InsertFrontArr i _ | InsertBackArr i _ => if k =? i then None else Some k
  (* construction, assignment and element access do not *)
  | _ => Some k
  end.

(** Along a program; an operation that fails changes no owner. *)
Fixpoint follow {V} (step : hstate (V := V) -> op1 V -> res (hstate (V := V)) V) (s : hstate (V := V)) (ops : list (op1 V)) (k : Z) : option Z :=
  match ops with
  | [] => Some k
  | o :: ops' =>
      match step s o with
      | Crash => None
      | Next s' (Failed _) => follow step s' ops' k
      | Next s' _ => match heir (map on (snd s)) o k with Some k' => follow step s' ops' k' | None => None end
      end
  end.

(** ** Two-dimensional arrays *)
Definition names2 {V} (o : op2 V) : list Z :=
  match o with
  | New2 _ _ | NewFill2 _ _ _ | NewList2 _ => []
  | NewCopy2 j | NewMove2 j => [j]
  | SetAll2 i _ | AssignList2 i _ | Resize2 i _ _ _ | RemoveRows i _ _ | RemoveCols i _ _ | RemoveRow i _ | RemoveCol i _ | RemoveRowLast i _ | RemoveColLast i _
  | RemoveRowsFront i _ | RemoveRowsBack i _ | RemoveColsFront i _ | RemoveColsBack i _ | RemoveRowsIdx i _ | RemoveColsIdx i _
  | InsertRow i _ _ | InsertCol i _ _ | InsertRowFront i _ | InsertRowBack i _ | InsertColFront i _ | InsertColBack i _
  | Write2 i _ _ _ | Read2 i _ _ | Rows2 i | Cols2 i | Size2 i => [i]
  | Assign2 i j | MoveAssign2 i j | Swap2 i j | ResizeAssign2 i j | ResizeAssignMove2 i j | InsertRows i _ j | InsertCols i _ j
  | InsertRowsFront i j | InsertRowsBack i j | InsertColsFront i j | InsertColsBack i j => [i; j]
  end.
(** sz are the numbers of rows and columns. *)
Definition heir2 {V} (sz : list (Z * Z)) (o : op2 V) (k : Z) : option Z :=
  if negb (forallb (fun i => (0 <=? i) && (i <? zlen sz)) (names2 o)) then Some k else
  match o with
  | NewMove2 j => if k =? j then Some (zlen sz) else Some k
  | MoveAssign2 i j => if i =? j then Some k else if k =? i then None else if k =? j then Some i else Some k
  | ResizeAssignMove2 i j => if k =? i then None else if k =? j then Some i else Some k
  | Swap2 i j => if k =? i then Some j else if k =? j then Some i else Some k
  (* without preserving elements, a resize to a shape with the same number of elements keeps the block *)
  | Resize2 i m n pr =>
      if (k =? i) && negb (match znth sz i with Some (r, c) => (m =? r) && (n =? c) || negb pr && (m * n =? r * c) | None => true end) then None else Some k
  | RemoveRowsIdx i v | RemoveColsIdx i v => if (k =? i) && negb (match v with [] => true | _ => false end) then None else Some k
  (* unlike in one dimension, the assignment of a list moves the elements *)
  | AssignList2 i _
  | ResizeAssign2 i _ | RemoveRows i _ _ | RemoveCols i _ _ | RemoveRow i _ | RemoveCol i _ | RemoveRowLast i _ | RemoveColLast i _
  | RemoveRowsFront i _ | RemoveRowsBack i _ | RemoveColsFront i _ | RemoveColsBack i _
  | InsertRows i _ _ | InsertCols i _ _ | InsertRowsFront i _ | InsertRowsBack i _ | InsertColsFront i _ | InsertColsBack i _
  | InsertRow i _ _ | InsertCol i _ _ | InsertRowFront i _ | InsertRowBack i _ | InsertColFront i _ | InsertColBack i _ => if k =? i then None else Some k
  | _ => Some k
  end.
Fixpoint follow2 {V} (step : hstate2 (V := V) -> op2 V -> res (hstate2 (V := V)) V) (s : hstate2 (V := V)) (ops : list (op2 V)) (k : Z) : option Z :=
  match ops with
  | [] => Some k
  | o :: ops' =>
      match step s o with
      | Crash => None
      | Next s' (Failed _) => follow2 step s' ops' k
      | Next s' _ => match heir2 (map (fun o => (orows o, ocols o)) (snd s)) o k with Some k' => follow2 step s' ops' k' | None => None end
      end
  end.
