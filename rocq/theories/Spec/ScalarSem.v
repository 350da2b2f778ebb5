(** Notions used to state the scalar properties that mention the library operators or types. *)
From Verif Require Import Base.Outcome Model.IntModel Spec.IntSpec.

(** Evaluation of an expression with the library operators. *)
Fixpoint ieval (t : ity) (e : iexpr) : outcome Z :=
  match e with
  | Lit z => Ok z
  | Add a b => x <- ieval t a ;; y <- ieval t b ;; iadd t x y
  | Sub a b => x <- ieval t a ;; y <- ieval t b ;; isub t x y
  | Mul a b => x <- ieval t a ;; y <- ieval t b ;; imul t x y
  end.

(** The only division that the zero check lets through although its quotient is not representable. *)
Definition trap (t : ity) (x y : Z) : Prop := signed t = true /\ x = - 2 ^ (bits t - 1) /\ y = -1.

(** The k-fold product x * (x * (... * one)). *)
Fixpoint mpow {M} (mul : M -> M -> M) (one : M) (x : M) (k : nat) : M :=
  match k with O => one | S k' => mul x (mpow mul one x k') end.
