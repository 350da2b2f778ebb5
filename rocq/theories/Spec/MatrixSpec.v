(** Matrices as lists of rows, and what it means for a two-dimensional array to hold one. *)
From Verif Require Import Base.Outcome Base.ZList Model.Index Model.Slice Model.Array1D Model.Array2D Model.Store1D.
From Verif Require Import Spec.ArraySpec Spec.SliceSpec Spec.Store1DSpec.

Section M.
Context {V : Type}.
Implicit Types (M : list (list V)).

Definition ncols M : Z := match M with [] => 0 | r :: _ => zlen r end.
(** Element (i, j). *)
Definition mget M (i j : Z) : option V := match znth M i with Some r => znth r j | None => None end.
(** All rows have n elements. *)
Definition rect (n : Z) M : Prop := Forall (fun r => zlen r = n) M.
(** Rectangular; not "some rows but no columns". *)
Definition wfm M : Prop := rect (ncols M) M /\ (M <> [] -> 0 < ncols M).
(** The array holds the matrix, row by row. *)
Definition rep2 (a : arr2 V) M : Prop :=
  wfm M /\ drows a = zlen M /\ dcols a = ncols M /\ rep (dat a) (concat M).
(** A two-dimensional object with these elements. *)
Definition produces2 (A : src2 V) M : Prop :=
  wfm M /\ s2rows A = zlen M /\ s2cols A = ncols M /\ s2size A = zlen M * ncols M /\
  (forall i j, 0 <= i < zlen M -> 0 <= j < ncols M -> exists v, mget M i j = Some v /\ s2un A i j = Ok v) /\
  (forall k, 0 <= k < zlen M * ncols M -> s2lin A k = oget (concat M) k).
End M.
