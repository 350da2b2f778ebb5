(** Soundness of a two-dimensional array, its elements, and the convention for [last - k], independent of the matrix model. *)
From Verif Require Import Base.Outcome Base.ZList Model.Index Model.Array1D Model.Array2D.

Section S.
Context {V : Type}.
Implicit Types (a : arr2 V).
(** The shape is that of a matrix with no empty rows or columns, and the storage has exactly rows*cols elements. *)
Definition sound2 a : Prop :=
  0 <= drows a /\ 0 <= dcols a /\ (drows a = 0 <-> dcols a = 0) /\
  an (dat a) = drows a * dcols a /\ zlen (buf (dat a)) = drows a * dcols a.
(** Within the allocator's limit. *)
Definition fits2 (c : cfg) a : Prop := drows a * dcols a <= amax c.
Definition inside a (i j : Z) : Prop := 0 <= i < drows a /\ 0 <= j < dcols a.
(** Stored element (i, j). *)
Definition elem a (i j : Z) : option V := znth (buf (dat a)) (i * dcols a + j).
(** Shape m x n with the elements given by f. *)
Definition holds a (m n : Z) (f : Z -> Z -> option V) : Prop :=
  sound2 a /\ drows a = m /\ dcols a = n /\ forall i j, 0 <= i < m -> 0 <= j < n -> elem a i j = f i j.
(** No elements: 0 x 0. *)
Definition empty2 a : Prop := drows a = 0 /\ dcols a = 0 /\ an (dat a) = 0 /\ buf (dat a) = [].
End S.
