(** When the powers of a floating-point number can be computed without overflow and underflow. *)
From Coq Require Import ZArith Reals.
From Flocq Require Import Core BinarySingleNaN.
From Verif Require Import Spec.FloatSpec.
Local Open Scope R_scope.

(** x and x^p stay between the smallest normal and the largest finite number, with room for p roundings. *)
Definition power_fits (prec emax : Z) (x : R) (p : nat) : Prop := forall k, k = 1%nat \/ k = p ->
  bpow radix2 (2 - emax) <= (1 - uro prec) ^ p * Rabs x ^ k /\ (1 + uro prec) ^ p * Rabs x ^ k <= fmax prec emax.
