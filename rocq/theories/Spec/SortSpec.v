(** Sorting and shuffling. *)
From Coq Require Import Sorting.Permutation.
From Verif Require Import Base.Outcome Base.ZList Model.Slice Model.Array1D Model.View2D.

Section S.
Context {V : Type}.
Implicit Types (l : list V) (less : V -> V -> bool).

(** The view's elements in the storage b, in order. *)
Definition holds (c : cfg) (o : obj) (b : list V) l : Prop :=
  o_size o = Ok (zlen l) /\ forall i, 0 <= i < zlen l -> o_get c o b i = oget l i.
(** Different indexes of the view are different elements of the storage. *)
Definition separate (c : cfg) (o : obj) : Prop :=
  forall n i j p, o_size o = Ok n -> 0 <= i < n -> 0 <= j < n -> o_lin c o i = Ok p -> o_lin c o j = Ok p -> i = j.
(** No element is less than an earlier one. *)
Definition ordered less l : Prop := forall i j x y, 0 <= i < j -> znth l i = Some x -> znth l j = Some y -> less y x = false.
(** less is a strict weak ordering of the elements of l. *)
Definition strict_weak less l : Prop :=
  (forall x, In x l -> less x x = false) /\
  (forall x y z, In x l -> In y l -> In z l -> less x y = true -> less y z = true -> less x z = true) /\
  (forall x y z, In x l -> In y l -> In z l -> (less x y = false /\ less y x = false) -> (less y z = false /\ less z y = false) ->
     less x z = false /\ less z x = false).
(** The contracts of std::sort and std::shuffle. *)
Definition sorts (impl : (V -> V -> bool) -> list V -> list V) : Prop :=
  forall less l, strict_weak less l -> Permutation l (impl less l) /\ ordered less (impl less l).
Definition shuffles (impl : list V -> list V) : Prop := forall l, Permutation l (impl l).
(** A total order. *)
Definition total_order (ltb : V -> V -> bool) : Prop :=
  (forall x, ltb x x = false) /\ (forall x y z, ltb x y = true -> ltb y z = true -> ltb x z = true) /\
  (forall x y, ltb x y = false -> ltb y x = false -> x = y).
End S.

(** Slice arguments naming no element twice: an index list without repetitions, a strided run that moves. *)
Definition names_once (s : slice) : Prop :=
  match s with
  | Vec v => NoDup v
  | SeqN _ size stride => stride <> 0 \/ size <= 1
  | _ => True
  end.
Definition vop_once (w : vop) : Prop :=
  match w with
  | VwSlice s | VwRows s | VwCols s => names_once s
  | VwSlice2 s1 s2 => names_once s1 /\ names_once s2
  | _ => True
  end.
