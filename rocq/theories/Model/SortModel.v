(** sort, sort_increasing, sort_decreasing and shuffle: array_ops.hpp 835-867.
    They call std::sort and std::shuffle on A.begin(), A.end().  The algorithms are parameters: [impl] rearranges the values
    of the range.  What the standard requires of the caller is part of the model: iterators of a range refer to different
    objects, and the comparison is a strict weak ordering of the values; otherwise the behaviour is undefined. *)
From Verif Require Import Base.Outcome Base.ZList Model.IntModel Model.ScalarOps Model.Index Model.Slice Model.Array1D Model.Array2D Model.View2D.

Section Sort.
Context {V : Type}.
Implicit Types (b vs : list V) (less : V -> V -> bool).

(** The positions k iterators from i on refer to (iterator.hpp: operator* is un(pos)). *)
Fixpoint range_positions (c : cfg) (o : obj) (k : nat) (i : Z) : outcome (list Z) :=
  match k with
  | O => Ok []
  | S k' => p <- o_lin c o i ;; ps <- range_positions c o k' (i + 1) ;; Ok (p :: ps)
  end.
Fixpoint read_at b (ps : list Z) : outcome (list V) :=
  match ps with [] => Ok [] | p :: ps' => x <- oget b p ;; xs <- read_at b ps' ;; Ok (x :: xs) end.
Fixpoint write_at b (ps : list Z) vs : outcome (list V) :=
  match ps, vs with p :: ps', x :: vs' => b' <- oset b p x ;; write_at b' ps' vs' | _, _ => Ok b end.
Fixpoint distinct (ps : list Z) : bool :=
  match ps with [] => true | p :: ps' => negb (existsb (Z.eqb p) ps') && distinct ps' end.

(** The requirements on a comparison ([alg.sorting]): irreflexive, transitive, and incomparability is transitive. *)
Definition swo_on less vs : bool :=
  forallb (fun x => negb (less x x) &&
    forallb (fun y => forallb (fun z =>
      implb (less x y && less y z) (less x z) &&
      implb (negb (less x y) && negb (less y x) && negb (less y z) && negb (less z y)) (negb (less x z) && negb (less z x))) vs) vs) vs.
Definition std_sort (impl : (V -> V -> bool) -> list V -> list V) less vs : outcome (list V) :=
  if swo_on less vs then Ok (impl less vs) else UB.

(** An algorithm on the range of all elements of an object over the storage b. *)
Definition on_range (c : cfg) (o : obj) b (f : list V -> outcome (list V)) : outcome (list V) :=
  n <- o_size o ;; ps <- range_positions c o (Z.to_nat n) 0 ;;
  if distinct ps then vs <- read_at b ps ;; ws <- f vs ;; write_at b ps ws else UB.
(** array_ops.hpp 835-840. *)
Definition sort_by impl less c o b : outcome (list V) := on_range c o b (std_sort impl less).
(** array_ops.hpp 843-848 and 851-856; [ltb] is operator< of the elements, a > b is b < a. *)
Definition sort_increasing impl (ltb : V -> V -> bool) c o b : outcome (list V) := sort_by impl (fun x y => ltb x y) c o b.
Definition sort_decreasing impl (ltb : V -> V -> bool) c o b : outcome (list V) := sort_by impl (fun x y => ltb y x) c o b.
(** array_ops.hpp 859-864; the rearrangement depends on the random device. *)
Definition shuffle (impl : list V -> list V) c o b : outcome (list V) := on_range c o b (fun vs => Ok (impl vs)).
End Sort.
