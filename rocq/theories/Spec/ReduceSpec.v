(** What reductions, searches and selections are supposed to compute. *)
From Verif Require Import Base.Outcome Base.ZList.

(** Folding in order over elements that may fail. *)
Fixpoint foldo {V S} (op : S -> V -> outcome S) (s : S) (l : list (outcome V)) : outcome S :=
  match l with
  | [] => Ok s
  | v :: l' => x <- v ;; t <- op s x ;; foldo op t l'
  end.
(** A strict weak order (for instance < on integers, or on floating-point numbers that are not NaN). *)
Definition weak_order {V} (ltb : V -> V -> bool) : Prop :=
  (forall x, ltb x x = false) /\ (forall x y z, ltb x y = true -> ltb y z = true -> ltb x z = true) /\
  (forall x y z, ltb x y = false -> ltb y z = false -> ltb x z = false).
(** m is at position i, nothing in the list is better, and everything before position i is worse. *)
Definition first_best {V} (better : V -> V -> bool) (l : list V) (i : Z) (m : V) : Prop :=
  znth l i = Some m /\ (forall x, In x l -> better x m = false) /\
  (forall j y, j < i -> znth l j = Some y -> better m y = true).
(** Row-major order of positions. *)
Definition before (i' j' i j : Z) : Prop := i' < i \/ i' = i /\ j' < j.
Definition total {V} (add : V -> V -> V) (zero : V) (l : list V) : V := fold_right add zero l.
Fixpoint products {V} (mul : V -> V -> V) (l k : list V) : list V :=
  match l, k with
  | x :: l', y :: k' => mul x y :: products mul l' k'
  | _, _ => []
  end.
Fixpoint power {V} (one : V) (mul : V -> V -> V) (x : V) (n : nat) : V :=
  match n with O => one | S n' => mul x (power one mul x n') end.
(** c0 + c1 x + c2 x^2 + ... *)
Fixpoint poly_terms {V} (one : V) (mul : V -> V -> V) (x : V) (n : nat) (cs : list V) : list V :=
  match cs with [] => [] | a :: cs' => mul a (power one mul x n) :: poly_terms one mul x (S n) cs' end.
(** c0 X0^p0 + c1 X1^p1 + ... *)
Fixpoint gpoly_terms {V} (one : V) (mul : V -> V -> V) (cs xs : list V) (ps : list Z) : list V :=
  match cs, xs, ps with
  | a :: cs', x :: xs', p :: ps' => mul a (power one mul x (Z.to_nat p)) :: gpoly_terms one mul cs' xs' ps'
  | _, _, _ => []
  end.
