(** The abstract meaning of the one-dimensional array operations: a list of lists. *)
From Coq Require Import Sorting.Sorted.
From Verif Require Import Base.Outcome Base.ZList Model.Index Model.Slice Model.Array1D Model.Store1D.
From Verif Require Import Spec.ArraySpec Spec.SliceSpec.

Section Spec.
Context {V : Type} (zero : V).
Notation world := (list (list V)).

(** Valid arguments give a new list; invalid arguments are reported; UB marks arguments whose validation overflows. *)
Definition guard (c : cfg) (ok : bool) {A} (x : outcome A) : outcome A := if ok then x else Fail (report c).
(** Storage for n elements. *)
Definition room (c : cfg) (n : Z) {A} (x : outcome A) : outcome A :=
  if amax c <? n then Fail BadAlloc else x.

Definition ins (l : list V) (p : Z) (m : list V) : list V := firstn (Z.to_nat p) l ++ m ++ skipn (Z.to_nat p) l.
Definition del (l : list V) (p k : Z) : list V := firstn (Z.to_nat p) l ++ skipn (Z.to_nat (p + k)) l.
Definition keep (l : list V) (v : list Z) : list V :=
  pick l (filter (fun p => negb (existsb (Z.eqb p) v)) (all_positions (zlen l))).
Fixpoint increasing (v : list Z) : bool :=
  match v with x :: (y :: _) as v' => (x <? y) && increasing v' | _ => true end.
Definition in_range (n p : Z) : bool := (0 <=? p) && (p <? n).

Definition spec_remove (c : cfg) (l : list V) (p k : Z) : outcome (list V) :=
  if (0 <? k) && in_range (zlen l) p && (LONG_MAX <? p + k) then UB
  else guard c ((0 <? k) && (0 <=? p) && (p + k <=? zlen l)) (Ok (del l p k)).
Definition spec_insert (c : cfg) (l : list V) (p : Z) (m : list V) : outcome (list V) :=
  guard c ((0 <=? p) && (p <=? zlen l)) 
    (if LONG_MAX <? zlen l + zlen m then UB else room c (zlen l + zlen m) (Ok (ins l p m))).
Definition spec_at (c : cfg) (l : list V) (ix : idx) {A} (k : Z -> outcome A) : outcome A :=
  if match ix with Plain _ => false | FromLast d => LONG_MAX <? zlen l - d end then UB
  else guard c (in_range (zlen l) (denotes (zlen l) ix)) (k (denotes (zlen l) ix)).
Definition spec_resize (c : cfg) (l : list V) (n : Z) (pr : bool) : outcome (list V) :=
  guard c (0 <=? n)
    (if n =? zlen l then Ok l
     else room c n (Ok (if pr then firstn (Z.to_nat n) l ++ repeat zero (Z.to_nat n - length l) else repeat zero (Z.to_nat n)))).
(** Decidable version of [acceptable] / [no_overflow] (SliceSpec.v). *)
Definition slice_fits (n : Z) (s : slice) : bool :=
  match s with
  | SeqN a b d => (a <? 0) || (b <=? 0) || (in_long (d * (b - 1)) && in_long (a + d * (b - 1)))
  | Even => n <? LONG_MAX
  | SkipN k => (k <=? 0) || (n + k <=? LONG_MAX)
  | _ => true
  end.
Definition slice_okb (n : Z) (s : slice) : bool :=
  match s with
  | SeqN a b d => (0 <=? a) && (0 <=? b) && ((b =? 0) || (a <? n) && in_range n (a + d * (b - 1)))
  | Seq f l d => in_range n f && in_range n l &&
      ((0 <? d) && (f <=? l) || (d <? 0) && (l <=? f) || (d =? 0) && (f =? l))
  | SkipN k => 0 <? k
  | FirstN m | LastN m => (0 <=? m) && (m <=? n)
  | Vec v => forallb (in_range n) v
  | Compl v => increasing v && forallb (in_range n) v
  | _ => true
  end.
Definition spec_slice (c : cfg) (l : list V) (s : slice) : outcome (list V) :=
  if negb (slice_fits (zlen l) s) then UB
  else guard c (slice_okb (zlen l) s) (Ok (pick l (positions (zlen l) s))).

Definition spush {X} (w : list X) (m : outcome X) : res (list X) V :=
  match m with Ok l => Next (w ++ [l]) Done | Fail f => Next w (Failed f) | UB => Crash end.
Definition sput {X} (w : list X) (i : Z) (m : outcome X) : res (list X) V :=
  match m with Ok l => Next (zupd w i l) Done | Fail f => Next w (Failed f) | UB => Crash end.
Definition swith1 {X} (w : list X) (i : Z) (k : X -> res (list X) V) : res (list X) V :=
  match znth w i with Some l => k l | None => Next w Done end.
Definition swith2 {X} (w : list X) (i j : Z) (k : X -> X -> res (list X) V) : res (list X) V :=
  swith1 w i (fun l => swith1 w j (k l)).

Definition spec_step1 (c : cfg) (w : world) (o : op1 V) : res world V :=
  match o with
  | New n => spush w (guard c (0 <=? n) (room c n (Ok (repeat zero (Z.to_nat n)))))
  | NewFill n x => spush w (guard c (0 <=? n) (room c n (Ok (repeat x (Z.to_nat n)))))
  | NewList l => spush w (room c (zlen l) (Ok l))
  | NewCopy j => swith1 w j (fun l => spush w (Ok l))
  | NewMove j => swith1 w j (fun l => Next (zupd w j [] ++ [l]) Done)
  | NewSlice j s => swith1 w j (fun l => spush w (m <- spec_slice c l s ;; room c (zlen m) (Ok m)))
  | SetAll i x => swith1 w i (fun l => sput w i (Ok (repeat x (length l))))
  | AssignList i m => swith1 w i (fun l => sput w i (guard c (zlen l =? zlen m) (Ok m)))
  | Assign i j => swith2 w i j (fun l m => sput w i (guard c (zlen l =? zlen m) (Ok m)))
  | MoveAssign i j => swith2 w i j (fun l m =>
      if i =? j then Next w Done
      else if (zlen l =? zlen m) || ndbg c || negb (dbg c) then Next (zupd (zupd w i m) j []) Done
      else Next w (Failed Abort))
  | Swap i j => swith2 w i j (fun l m => Next (zupd (zupd w i m) j l) Done)
  | Resize i n pr => swith1 w i (fun l => sput w i (spec_resize c l n pr))
  | ResizeAssign i j => swith2 w i j (fun l m => sput w i (Ok m))
  | ResizeAssignMove i j => swith2 w i j (fun l m => Next (zupd (zupd w i m) j []) Done)
  | Remove i p k => swith1 w i (fun l => sput w i (spec_remove c l p k))
  | RemoveFront i k => swith1 w i (fun l => sput w i (spec_remove c l 0 k))
  | RemoveBack i k => swith1 w i (fun l => sput w i (if in_long (zlen l - k) then spec_remove c l (zlen l - k) k else UB))
  | RemoveLast i k => swith1 w i (fun l => sput w i
      (if in_long (zlen l - 1 - k) then spec_remove c l (zlen l - 1 - k) 1 else UB))
  | RemoveIndexes i v => swith1 w i (fun l => sput w i
      (guard c (increasing v && forallb (in_range (zlen l)) v) (Ok (keep l v))))
  | Insert i p x => swith1 w i (fun l => sput w i (spec_insert c l p [x]))
  | InsertFront i x => swith1 w i (fun l => sput w i (spec_insert c l 0 [x]))
  | InsertBack i x => swith1 w i (fun l => sput w i (spec_insert c l (zlen l) [x]))
  | InsertArr i p j => swith2 w i j (fun l m => sput w i (spec_insert c l p m))
  | InsertFrontArr i j => swith2 w i j (fun l m => sput w i (spec_insert c l 0 m))
  | InsertBackArr i j => swith2 w i j (fun l m => sput w i (spec_insert c l (zlen l) m))
  | Write i ix x => swith1 w i (fun l => sput w i (spec_at c l ix (fun p => Ok (zupd l p x))))
  | Read i ix => swith1 w i (fun l =>
      match spec_at c l ix (fun p => oget l p) with
      | Ok v => Next w (Value v) | Fail f => Next w (Failed f) | UB => Crash end)
  | Size i => swith1 w i (fun l => Next w (Number (zlen l)))
  end.

(** Integer arguments of an operation are 64-bit. *)
Definition op_long (o : op1 V) : Prop :=
  match o with
  | New n | NewFill n _ | Resize _ n _ | RemoveFront _ n | RemoveBack _ n | RemoveLast _ n | Insert _ n _
  | InsertArr _ n _ => is_long n
  | Remove _ p k => is_long p /\ is_long k
  | NewSlice _ s => args_long s
  | Write _ ix _ | Read _ ix => match ix with Plain i => is_long i | FromLast k => is_long k end
  | _ => True
  end.

(** The concrete state represents the abstract one; array sizes are within the allocator's limit. *)
Definition represents (c : cfg) (st : list (arr V)) (w : world) : Prop :=
  Forall2 (fun a l => rep a l /\ zlen l <= amax c) st w.
End Spec.
