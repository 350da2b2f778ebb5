(** A program state holding several owning two-dimensional arrays, and the member functions as operations on it. *)
From Verif Require Import Base.Outcome Base.ZList Model.Index Model.Slice Model.Array1D Model.Array2D Model.Store1D.

(** [i], [j] in the first position(s) name arrays (see Store1D.v). *)
Inductive op2 (V : Type) :=
| New2 (m n : Z) | NewFill2 (m n : Z) (x : V) | NewList2 (L : list (list V)) | NewCopy2 (j : Z) | NewMove2 (j : Z)
| SetAll2 (i : Z) (x : V) | AssignList2 (i : Z) (L : list (list V)) | Assign2 (i j : Z) | MoveAssign2 (i j : Z) | Swap2 (i j : Z)
| Resize2 (i m n : Z) (preserve : bool) | ResizeAssign2 (i j : Z) | ResizeAssignMove2 (i j : Z)
| RemoveRows (i pos count : Z) | RemoveCols (i pos count : Z) | RemoveRow (i pos : Z) | RemoveCol (i pos : Z)
| RemoveRowLast (i k : Z) | RemoveColLast (i k : Z)
| RemoveRowsFront (i count : Z) | RemoveRowsBack (i count : Z) | RemoveColsFront (i count : Z) | RemoveColsBack (i count : Z)
| RemoveRowsIdx (i : Z) (v : list Z) | RemoveColsIdx (i : Z) (v : list Z)
| InsertRows (i pos j : Z) | InsertCols (i pos j : Z)
| InsertRowsFront (i j : Z) | InsertRowsBack (i j : Z) | InsertColsFront (i j : Z) | InsertColsBack (i j : Z)
| InsertRow (i pos : Z) (l : list V) | InsertCol (i pos : Z) (l : list V)
| InsertRowFront (i : Z) (l : list V) | InsertRowBack (i : Z) (l : list V)
| InsertColFront (i : Z) (l : list V) | InsertColBack (i : Z) (l : list V)
| Write2 (i : Z) (ix jx : idx) (x : V) | Read2 (i : Z) (ix jx : idx) | Rows2 (i : Z) | Cols2 (i : Z) | Size2 (i : Z).
Arguments New2 {V}. Arguments NewFill2 {V}. Arguments NewList2 {V}. Arguments NewCopy2 {V}. Arguments NewMove2 {V}.
Arguments SetAll2 {V}. Arguments AssignList2 {V}. Arguments Assign2 {V}. Arguments MoveAssign2 {V}. Arguments Swap2 {V}.
Arguments Resize2 {V}. Arguments ResizeAssign2 {V}. Arguments ResizeAssignMove2 {V}.
Arguments RemoveRows {V}. Arguments RemoveCols {V}. Arguments RemoveRow {V}. Arguments RemoveCol {V}.
Arguments RemoveRowLast {V}. Arguments RemoveColLast {V}.
Arguments RemoveRowsFront {V}. Arguments RemoveRowsBack {V}. Arguments RemoveColsFront {V}. Arguments RemoveColsBack {V}.
Arguments RemoveRowsIdx {V}. Arguments RemoveColsIdx {V}. Arguments InsertRows {V}. Arguments InsertCols {V}.
Arguments InsertRowsFront {V}. Arguments InsertRowsBack {V}. Arguments InsertColsFront {V}. Arguments InsertColsBack {V}.
Arguments InsertRow {V}. Arguments InsertCol {V}. Arguments InsertRowFront {V}. Arguments InsertRowBack {V}.
Arguments InsertColFront {V}. Arguments InsertColBack {V}. Arguments Write2 {V}. Arguments Read2 {V}.
Arguments Rows2 {V}. Arguments Cols2 {V}. Arguments Size2 {V}.

Section Store.
Context {V : Type} (zero : V).
Notation store := (list (arr2 V)).

(** array_base2D.hpp 152-692 through the functions of Model/Array2D.v; the front and back variants are
    array_base2D.hpp 504-512, 541-549, 591-599, 638-646. *)
Definition step2 (c : cfg) (st : store) (o : op2 V) : res store V :=
  match o with
  | New2 m n => push st (arr2_new zero c m n)
  | NewFill2 m n x => push st (arr2_new_fill zero c m n x)
  | NewList2 L => push st (arr2_of_list zero c L)
  | NewCopy2 j => with1 st j (fun b => push st (arr2_copy zero c b))
  | NewMove2 j => with1 st j (fun b => let (a, b') := arr2_move b in Next (zupd st j b' ++ [a]) Done)
  | SetAll2 i x => with1 st i (fun a => put st i (arr2_set_all x a))
  | AssignList2 i L => with1 st i (fun a => put st i (arr2_assign_list zero c L a))
  | Assign2 i j => with2 st i j (fun a b => if i =? j then Next st Done else put_mut st i (arr2_assign_arr c b a))
  | MoveAssign2 i j => with2 st i j (fun a b =>
      if i =? j then Next (zupd st i (arr2_move_assign_self a)) Done else
      match arr2_move_assign c a b with
      | Ok (a', b') => Next (zupd (zupd st i a') j b') Done
      | Fail f => Next st (Failed f)
      | UB => Crash
      end)
  | Swap2 i j => with2 st i j (fun a b => let (a', b') := arr2_swap a b in Next (zupd (zupd st i a') j b') Done)
  | Resize2 i m n pr => with1 st i (fun a => put st i (arr2_resize zero c m n pr a))
  | ResizeAssign2 i j => with2 st i j (fun a b => put st i (arr2_resize_and_assign_arr zero c b))
  | ResizeAssignMove2 i j => with2 st i j (fun a b =>
      if i =? j then Next (zupd st i (arr2_resize_and_assign_move_self a)) Done
      else let (a', b') := arr2_resize_and_assign_move a b in Next (zupd (zupd st i a') j b') Done)
  | RemoveRows i p k => with1 st i (fun a => put st i (arr2_remove_rows zero c p k a))
  | RemoveCols i p k => with1 st i (fun a => put st i (arr2_remove_cols zero c p k a))
  | RemoveRow i p => with1 st i (fun a => put st i (arr2_remove_row zero c p a))
  | RemoveCol i p => with1 st i (fun a => put st i (arr2_remove_col zero c p a))
  | RemoveRowLast i k => with1 st i (fun a => put st i (arr2_remove_row_last zero c k a))
  | RemoveColLast i k => with1 st i (fun a => put st i (arr2_remove_col_last zero c k a))
  | RemoveRowsFront i k => with1 st i (fun a => put st i (arr2_remove_rows_front zero c k a))
  | RemoveRowsBack i k => with1 st i (fun a => put st i (arr2_remove_rows_back zero c k a))
  | RemoveColsFront i k => with1 st i (fun a => put st i (arr2_remove_cols_front zero c k a))
  | RemoveColsBack i k => with1 st i (fun a => put st i (arr2_remove_cols_back zero c k a))
  | RemoveRowsIdx i v => with1 st i (fun a => put st i (arr2_remove_rows_idx zero c v a))
  | RemoveColsIdx i v => with1 st i (fun a => put st i (arr2_remove_cols_idx zero c v a))
  | InsertRows i p j => with2 st i j (fun a b => put st i (arr2_insert_rows_arr zero c p b a))
  | InsertCols i p j => with2 st i j (fun a b => put st i (arr2_insert_cols_arr zero c p b a))
  | InsertRowsFront i j => with2 st i j (fun a b => put st i (arr2_insert_rows_arr zero c 0 b a))
  | InsertRowsBack i j => with2 st i j (fun a b => put st i (arr2_insert_rows_arr zero c (drows a) b a))
  | InsertColsFront i j => with2 st i j (fun a b => put st i (arr2_insert_cols_arr zero c 0 b a))
  | InsertColsBack i j => with2 st i j (fun a b => put st i (arr2_insert_cols_arr zero c (dcols a) b a))
  | InsertRow i p l => with1 st i (fun a => put st i (arr2_insert_row zero c p (src_of_list l) a))
  | InsertCol i p l => with1 st i (fun a => put st i (arr2_insert_col zero c p (src_of_list l) a))
  | InsertRowFront i l => with1 st i (fun a => put st i (arr2_insert_row zero c 0 (src_of_list l) a))
  | InsertRowBack i l => with1 st i (fun a => put st i (arr2_insert_row zero c (drows a) (src_of_list l) a))
  | InsertColFront i l => with1 st i (fun a => put st i (arr2_insert_col zero c 0 (src_of_list l) a))
  | InsertColBack i l => with1 st i (fun a => put st i (arr2_insert_col zero c (dcols a) (src_of_list l) a))
  | Write2 i ix jx x => with1 st i (fun a => put st i (arr2_write c ix jx x a))
  | Read2 i ix jx => with1 st i (fun a => seen st Value (sub2 c (src_of_arr2 a) ix jx))
  | Rows2 i => with1 st i (fun a => Next st (Number (drows a)))
  | Cols2 i => with1 st i (fun a => Next st (Number (dcols a)))
  | Size2 i => with1 st i (fun a => Next st (Number (an (dat a))))
  end.
End Store.
