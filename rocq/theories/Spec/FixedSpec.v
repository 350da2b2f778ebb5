(** Fixed-size arrays as lists that never change their length; exact in every build configuration. *)
From Verif Require Import Base.Outcome Base.ZList Model.Index Model.Slice Model.Array1D Model.Array2D Model.Store1D Model.FixedArray.
From Verif Require Import Spec.ArraySpec Spec.SliceSpec Spec.Store1DSpec Spec.MatrixSpec.

Section S.
Context {V : Type} (zero : V).
Notation world := (list (list V)).

(** A violated condition is reported when checks are active and ignored otherwise. *)
Definition gate (c : cfg) (ok : bool) {A} (x : outcome A) : outcome A :=
  if ok || negb (checked c) then x else Fail (report c).
Definition zeros (n : Z) : list V := repeat zero (Z.to_nat n).
(** m written over the beginning of l; a longer m runs off the end. *)
Definition over (l m : list V) : outcome (list V) :=
  if zlen m <=? zlen l then Ok (m ++ skipn (length m) l) else UB.
Definition segment (l : list V) (p q : Z) : list V := firstn (Z.to_nat (q - p)) (skipn (Z.to_nat p) l).

Definition at_pos (c : cfg) (l : list V) (ix : idx) {A} (k : Z -> outcome A) : outcome A :=
  if match ix with Plain _ => false | FromLast d => LONG_MAX <? zlen l - d end then UB
  else if in_range (zlen l) (denotes (zlen l) ix) then k (denotes (zlen l) ix)
  else if checked c then Fail (report c) else UB.

Definition spec_fstep (c : cfg) (w : world) (o : fop) : res world V :=
  match o with
  | FNew n => spush w (Ok (zeros n))
  | FNewFill n x => spush w (Ok (repeat x (Z.to_nat n)))
  | FNewList n m => spush w (gate c (n =? zlen m) (over (zeros n) m))
  | FNewCopy j => swith1 w j (fun m => spush w (Ok m))
  | FNewMove j => swith1 w j (fun m => Next (zupd w j (zeros (zlen m)) ++ [m]) Done)
  | FNewFrom n j => swith1 w j (fun m => spush w (gate c (n =? zlen m) (over (zeros n) m)))
  | FNewIter n j p q => swith1 w j (fun m =>
      spush w (gate c (q - p =? n) (gate c (p <=? q) (if q <? p then UB else over (zeros n) (segment m p q)))))
  | FSetAll i x => swith1 w i (fun l => sput w i (Ok (repeat x (length l))))
  | FAssignList i m => swith1 w i (fun l => sput w i (gate c (zlen l =? zlen m) (over l m)))
  | FAssign i j => swith2 w i j (fun l m => if i =? j then Next w Done else sput w i (gate c (zlen l =? zlen m) (over l m)))
  | FMoveAssign i j => swith2 w i j (fun l m =>
      if i =? j then Next w Done
      else if zlen l =? zlen m then Next (zupd (zupd w i m) j (zeros (zlen m))) Done
      else sput w i (gate c false (over l m)))
  | FSwap i j => swith2 w i j (fun l m => if zlen l =? zlen m then Next (zupd (zupd w i m) j l) Done else Next w Done)
  | FWrite i ix x => swith1 w i (fun l => sput w i (at_pos c l ix (fun p => Ok (zupd l p x))))
  | FRead i ix => swith1 w i (fun l =>
      match at_pos c l ix (fun p => oget l p) with
      | Ok v => Next w (Value v) | Fail f => Next w (Failed f) | UB => Crash end)
  | FSize i => swith1 w i (fun l => Next w (Number (zlen l)))
  end.

(** Sizes are template arguments (non-negative longs); integer arguments are longs; iterators point into their array. *)
Definition fop_ok (w : world) (o : fop (V := V)) : Prop :=
  match o with
  | FNew n | FNewFill n _ | FNewList n _ | FNewFrom n _ => 0 <= n <= LONG_MAX
  | FNewIter n j p q => 0 <= n <= LONG_MAX /\ forall m, znth w j = Some m -> 0 <= p <= zlen m /\ 0 <= q <= zlen m
  | FWrite _ ix _ | FRead _ ix => match ix with Plain i => is_long i | FromLast k => is_long k end
  | _ => True
  end.
(** The operations of a program, each in the state it is executed in. *)
Fixpoint fops_ok (c : cfg) (w : world) (ops : list (fop (V := V))) : Prop :=
  match ops with
  | [] => True
  | o :: ops' => fop_ok w o /\ match spec_fstep c w o with Next w' _ => fops_ok c w' ops' | Crash => True end
  end.

(** The objects holding these lists. *)
Definition objects (w : world) : list (arr V) := map (fun l => mkarr l (zlen l)) w.
Definition on_res (r : res world V) : res (list (arr V)) V :=
  match r with Next w ob => Next (objects w) ob | Crash => Crash end.
(** All sizes are longs. *)
Definition sizes_long (w : world) : Prop := Forall (fun l => zlen l <= LONG_MAX) w.
(** The matrix a nested initializer list stands for: {{}} is the empty matrix. *)
Definition matrix_of (L : list (list V)) : list (list V) := match L with [[]] => [] | _ => L end.
End S.
