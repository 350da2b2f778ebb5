(** What it means for an array or a read-only source to hold a list of values. *)
From Verif Require Import Base.Outcome Base.ZList Model.Index Model.Array1D.

Section S.
Context {V : Type}.
Implicit Types (a : arr V) (A : src1 V) (l : list V).

(** An array represents the list l. *)
Definition rep a l : Prop := buf a = l /\ an a = zlen l.
(** A source produces the list l. *)
Definition produces A l : Prop := ssize A = zlen l /\ forall i, 0 <= i < zlen l -> sun A i = oget l i.
End S.

Definition is_long (z : Z) : Prop := LONG_MIN <= z <= LONG_MAX.

(** The position an index argument denotes in an object of n elements. *)
Definition denotes (n : Z) (ix : idx) : Z := match ix with Plain i => i | FromLast k => n - 1 - k end.
(** The index computation stays inside 64-bit arithmetic. *)
Definition idx_fits (n : Z) (ix : idx) : Prop :=
  match ix with Plain i => is_long i | FromLast k => is_long k /\ n - k <= LONG_MAX end.
