(** What is claimed about matrix products. *)
From Coq Require Import ZArith List Permutation.
From Flocq Require Import BinarySingleNaN.
From Verif Require Import Base.Outcome Base.ZList Model.Array2D Model.Eigen Model.StableOps Spec.MatrixSpec.
Import ListNotations.

Section M.
Context {V : Type}.
(** Row i and column j of a matrix given by its rows. *)
Definition line (M : list (list V)) (i : Z) : list V := match znth M i with Some r => r | None => [] end.
Definition column (M : list (list V)) (j : Z) : list V := flat_map (fun r => match znth r j with Some v => [v] | None => [] end) M.
(** The m by n matrix of the values T i j. *)
Definition grid (m n : Z) (T : Z -> Z -> V) : list (list V) := map (fun i => map (T i) (zseq 0 (Z.to_nat n))) (zseq 0 (Z.to_nat m)).
End M.

(** The products that are accumulated. *)
Fixpoint terms (s : sched) : list Z :=
  match s with
  | SZero => []
  | STerm p => [p]
  | SFma p s => p :: terms s
  | SAdd s t => terms s ++ terms t
  | SOne s => terms s
  end.
(** Each of the n products is accumulated exactly once, in any order and association. *)
Definition accumulates (n : nat) (s : sched) : Prop := Permutation (terms s) (zseq 0 n).

(** The arithmetic of numbers and of a floating-point type. *)
Definition num_ops {V} (N : num V) : eops V :=
  mkeops (nzero N) (none_ N) (fun x y => Ok (nadd N x y)) (fun x y => Ok (nmul N x y)) (fun x y z => Ok (nfma N x y z)).

(** A and B hold the matrices M and N, whose product is defined; they and the product can be stored. *)
Definition multipliable {V} (c : cfg) (A B : arr2 V) (M N : list (list V)) : Prop :=
  cfg_ok c /\ rep2 A M /\ rep2 B N /\ ncols M = zlen N /\ (zlen M * ncols M <= amax c)%Z /\ (zlen N * ncols N <= amax c)%Z /\ (zlen M * ncols N <= amax c)%Z.
(** Both overloads of matrix_prod, applied to the matrices M and N at the addresses pa and pb, deliver a matrix of the right dimensions
    whose element (i, j) has the property P (row i) (column j).  The one with a destination does so even if the destination is one of
    the factors: the rows and columns are those from before the call.  It changes no other array. *)
Definition products_are {V} (c : cfg) (O : eops V) (sch : Z -> Z -> sched) (h : objs V) (pa pb : Z) (M N : list (list V)) (P : list V -> list V -> V -> Prop) : Prop :=
  (exists C T, matrix_prod c O sch (h pa) (h pb) = Ok C /\ rep2 C (grid (zlen M) (ncols N) T) /\
     forall i j, (0 <= i < zlen M)%Z -> (0 <= j < ncols N)%Z -> P (line M i) (column N j) (T i j)) /\
  (forall pc K, rep2 (h pc) K -> zlen K = zlen M -> ncols K = ncols N -> exists h' T, matrix_prod3 c O sch h pa pb pc = MOk h' /\
     rep2 (h' pc) (grid (zlen M) (ncols N) T) /\ (forall q, q <> pc -> h' q = h q) /\
     forall i j, (0 <= i < zlen M)%Z -> (0 <= j < ncols N)%Z -> P (line M i) (column N j) (T i j)).
