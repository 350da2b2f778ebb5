(** When memory represents the arrays of a program. *)
From Verif Require Import Base.Outcome Base.ZList Model.Array1D Model.Store1D Model.Heap.

Section HeapSpec.
Context {V : Type} (al : Z).
Notation heap := (heap (V := V)).

(** The array object o holds the elements of a, in a live block from the operator new[] that its destructor expects. *)
Definition repr (h : heap) (o : hobj) (a : arr V) : Prop :=
  on o = an a /\ match optr o with None => buf a = [] | Some p => lk h p = Some (al, buf a) end.
(** The objects hold the arrays, one by one. *)
Definition holds_all (h : heap) (l : list hobj) (st : list (arr V)) : Prop :=
  zlen l = zlen st /\ forall i o a, znth l i = Some o -> znth st i = Some a -> repr h o a.
(** Every block belongs to exactly one object. *)
Definition unshared (l : list hobj) : Prop :=
  forall i j o o' p, znth l i = Some o -> znth l j = Some o' -> optr o = Some p -> optr o' = Some p -> i = j.
Definition no_leak (h : heap) (l : list hobj) : Prop :=
  forall p b, lk h p = Some b -> exists i o, znth l i = Some o /\ optr o = Some p.
Definition memory_ok (h : heap) (l : list hobj) (st : list (arr V)) : Prop := holds_all h l st /\ unshared l /\ no_leak h l.
(** The same blocks are live, with the same contents. *)
Definition same_memory (h h' : heap) : Prop := forall p, lk h' p = lk h p.

(** Only the block q is different. *)
Definition only (q : option Z) (h h' : heap) : Prop := forall p, q <> Some p -> lk h' p = lk h p.
(** A new array t: its block is a new one, and all the others are as before. *)
Definition built (h h' : heap) (t : hobj) : Prop := (forall p, optr t = Some p -> lk h p = None) /\ only (optr t) h h'.
(** A failure: what was live is still there; if it is an exception that can be caught, nothing else is. *)
Definition kept (h : heap) (f : failure) (h' : heap) : Prop :=
  (forall p x, lk h p = Some x -> lk h' p = Some x) /\ (fatal f = false -> same_memory h h').
(** m makes a new array with the contents of r. *)
Definition made (h : heap) (m : hm (V := V) hobj) (r : outcome (arr V)) : Prop :=
  match r with
  | Ok a => exists t h', m h = HOk t h' /\ repr h' t a /\ built h h' t
  | Fail f => exists h', m h = HFail f h' /\ kept h f h'
  | UB => m h = HUB
  end.
(** o has become t: its old block is freed, the new one was not in use, and all the others are as before. *)
Definition moved (h : heap) (o : hobj) (h' : heap) (t : hobj) : Prop :=
  (forall p, optr t = Some p -> lk h p = None) /\ (forall p, optr o = Some p -> lk h' p = None) /\
  forall p, optr o <> Some p -> optr t <> Some p -> lk h' p = lk h p.
(** m changes the array o to the contents of r, or leaves it as it is. *)
Definition changes (h : heap) (o : hobj) (m : hm (V := V) hobj) (r : outcome (arr V)) : Prop :=
  match r with
  | Ok a => exists t h', m h = HOk t h' /\ repr h' t a /\ (moved h o h' t \/ t = o /\ h' = h)
  | Fail f => exists h', m h = HFail f h' /\ kept h f h'
  | UB => m h = HUB
  end.
(** r reads what g gives as long as the blocks of h are there: a list, an array, a slice, an expression, which can throw. *)
Definition sees (h : heap) (r : Z -> hm (V := V) V) (g : Z -> outcome V) : Prop :=
  forall h', (forall p x, lk h p = Some x -> lk h' p = Some x) -> forall i, r i h' = lift (g i) h'.
End HeapSpec.

(** The array object o holds the list x. *)
Definition contents {V} (al : Z) (h : heap (V := V)) (o : hobj) (x : list V) : Prop :=
  on o = zlen x /\ match optr o with None => x = [] | Some p => lk h p = Some (al, x) end.
Definition all_free {V} (h : heap (V := V)) : Prop := forall p, lk h p = None.
