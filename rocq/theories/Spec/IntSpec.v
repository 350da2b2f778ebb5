(** Independent vocabulary for the scalar properties. *)
From Coq Require Import ZArith Bool List Lia.
Open Scope Z_scope.

(** z can be stored in an integer of [w] bits, signed or not. *)
Definition fits (sgn : bool) (w z : Z) : Prop :=
  if sgn then - 2 ^ (w - 1) <= z < 2 ^ (w - 1) else 0 <= z < 2 ^ w.

(** Integer expressions over + - *. *)
Inductive iexpr := Lit (z : Z) | Add (a b : iexpr) | Sub (a b : iexpr) | Mul (a b : iexpr).

(** Their mathematical value. *)
Fixpoint mval (e : iexpr) : Z :=
  match e with
  | Lit z => z
  | Add a b => mval a + mval b
  | Sub a b => mval a - mval b
  | Mul a b => mval a * mval b
  end.

(** Every sub-expression has a representable mathematical value. *)
Fixpoint all_fit (sgn : bool) (w : Z) (e : iexpr) : Prop :=
  fits sgn w (mval e) /\
  match e with
  | Lit _ => True
  | Add a b | Sub a b | Mul a b => all_fit sgn w a /\ all_fit sgn w b
  end.

(** Every literal is representable (a precondition: literals are values of the type). *)
Fixpoint lits_fit (sgn : bool) (w : Z) (e : iexpr) : Prop :=
  match e with
  | Lit z => fits sgn w z
  | Add a b | Sub a b | Mul a b => lits_fit sgn w a /\ lits_fit sgn w b
  end.

(** n! and C(n,k) on nat by their textbook recursions. *)
Fixpoint fact (n : nat) : Z := match n with O => 1 | S m => Z.of_nat n * fact m end.
Fixpoint choose (n k : nat) : Z :=
  match n, k with
  | _, O => 1
  | O, S _ => 0
  | S n', S k' => choose n' k' + choose n' k
  end.
