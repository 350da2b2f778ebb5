(** Norms of lists of real numbers. *)
From Coq Require Import Reals List.
From Verif Require Import Base.Outcome Spec.ReduceSpec.
Import ListNotations.
Local Open Scope Z_scope.
Definition Rgtb (x y : R) : bool := if Rgt_dec x y then true else false.
Definition radd x y : outcome R := Ok (x + y)%R.
Definition rmul x y : outcome R := Ok (x * y)%R.
Definition rdiv x y : outcome R := Ok (x / y)%R.
Definition rcast n : outcome R := Ok (IZR n).
Definition rsum (l : list R) : R := total Rplus 0%R l.
Definition norm1 (l : list R) : R := rsum (map Rabs l).
Definition norm2 (l : list R) : R := sqrt (rsum (map (fun x => x * x)%R l)).
(** Largest absolute value, zero for the empty list. *)
Definition norminf (l : list R) : R := fold_right Rmax 0%R (map Rabs l).
Definition vadd (l k : list R) := products Rplus l k.
Definition scale (a : R) (l : list R) := map (Rmult a) l.
