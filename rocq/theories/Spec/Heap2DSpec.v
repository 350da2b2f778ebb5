(** When memory represents the two-dimensional arrays of a program. *)
From Verif Require Import Base.Outcome Base.ZList Model.Array1D Model.Array2D Model.Store1D Model.Heap Model.Heap2D Spec.MatrixSpec Spec.HeapSpec.

Section Heap2DSpec.
Context {V : Type} (al : Z).
Notation heap := (heap (V := V)).

(** The array object o holds the elements of a and has its sizes. *)
Definition repr2 (h : heap) (o : hobj2) (a : arr2 V) : Prop := orows o = drows a /\ ocols o = dcols a /\ repr al h (odat o) (dat a).
Definition holds_all2 (h : heap) (l : list hobj2) (st : list (arr2 V)) : Prop :=
  zlen l = zlen st /\ forall i o a, znth l i = Some o -> znth st i = Some a -> repr2 h o a.
(** Every block belongs to exactly one object. *)
Definition memory_ok2 (h : heap) (l : list hobj2) (st : list (arr2 V)) : Prop :=
  holds_all2 h l st /\ unshared (map odat l) /\ no_leak h (map odat l).

(** m makes a new array with the contents of r; if it throws, the same blocks are live as before. *)
Definition made2 (h : heap) (m : hm (V := V) hobj2) (r : outcome (arr2 V)) : Prop :=
  match r with
  | Ok a => exists t h', m h = HOk t h' /\ repr2 h' t a /\ built h h' (odat t)
  | Fail f => exists h', m h = HFail f h' /\ kept h f h'
  | UB => m h = HUB
  end.
(** m changes the array o to the contents of r, in a new block, the old one being freed, or in the same memory; or leaves it as it is. *)
Definition changes2 (h : heap) (o : hobj2) (m : hm (V := V) hobj2) (r : outcome (arr2 V)) : Prop :=
  match r with
  | Ok a => exists t h', m h = HOk t h' /\ repr2 h' t a /\ (moved h (odat o) h' (odat t) \/ odat t = odat o /\ h' = h)
  | Fail f => exists h', m h = HFail f h' /\ kept h f h'
  | UB => m h = HUB
  end.
(** r reads what g gives as long as the blocks of h are there. *)
Definition sees2 (h : heap) (r : Z -> Z -> hm (V := V) V) (g : Z -> Z -> outcome V) : Prop :=
  forall h', (forall p x, lk h p = Some x -> lk h' p = Some x) -> forall i j, r i j h' = lift (g i j) h'.
(** The array object o holds the matrix M, row by row. *)
Definition contents2 (h : heap) (o : hobj2) (M : list (list V)) : Prop :=
  wfm M /\ orows o = zlen M /\ ocols o = ncols M /\ contents al h (odat o) (concat M).
End Heap2DSpec.
