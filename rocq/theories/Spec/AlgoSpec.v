(** What algorithms do on plain ranges of values: sequences that share nothing, and positions in them. *)
From Verif Require Import Base.Outcome Base.ZList Model.Index Model.View2D Model.Iterator Model.Algo.
From Verif Require Import Spec.ArraySpec Spec.IteratorSpec.
From Coq Require Import Bool.

(** A range: the object it belongs to, read forwards or backwards. *)
Definition range := (Z * bool)%type.
Definition same_range (r q : range) : bool := (fst r =? fst q) && Bool.eqb (snd r) (snd q).
(** A place: a position in a range. *)
Definition place := (range * Z)%type.
Definition memory (V : Type) := range -> list V.
Definition put {V} (M : memory V) (r : range) (i : Z) (v : V) : memory V := fun q => if same_range r q then zupd (M r) i v else M q.

Definition moved (m : move) (i n : Z) : Z :=
  match m with
  | MPlus | MPlusL | MAddEq => i + n
  | MMinus | MSubEq => i - n
  | MInc | MPostInc => i + 1
  | MDec | MPostDec => i - 1
  end.
Definition comp_at (o : icmp) (i j : Z) : bool :=
  match o with IEq => i =? j | INe => negb (i =? j) | ILt => i <? j | ILe => i <=? j | IGt => i >? j | IGe => i >=? j end.

(** *** Plain pointers
    What the language guarantees for pointers into arrays: they stay within 0 .. size, only elements are read and written,
    only writable ones are written, and only pointers into the same array are compared or subtracted.  None: anything else. *)
Section Pointers.
Context {V R : Type}.
Variable writable : range -> bool.
Fixpoint pointers (a : algo V R) (ps : list place) (M : memory V) : option (R * memory V) :=
  match a with
  | Return r => Some (r, M)
  | Load x k => match nth_error ps x with Some (r, i) => match znth (M r) i with Some v => pointers (k v) ps M | None => None end | None => None end
  | Index x n k => match nth_error ps x with Some (r, i) => match znth (M r) (i + n) with Some v => pointers (k v) ps M | None => None end | None => None end
  | Store x v k =>
      match nth_error ps x with
      | Some (r, i) => if writable r && (0 <=? i) && (i <? zlen (M r)) then pointers k ps (put M r i v) else None
      | None => None
      end
  | IndexStore x n v k =>
      match nth_error ps x with
      | Some (r, i) => if writable r && (0 <=? i + n) && (i + n <? zlen (M r)) then pointers k ps (put M r (i + n) v) else None
      | None => None
      end
  | Move m x n k =>
      match nth_error ps x with
      | Some (r, i) => if (0 <=? moved m i n) && (moved m i n <=? zlen (M r)) then pointers k (ps ++ [(r, moved m i n)]) M else None
      | None => None
      end
  | Diff x y k =>
      match nth_error ps x, nth_error ps y with
      | Some (r, i), Some (q, j) => if same_range r q then pointers (k (i - j)) ps M else None
      | _, _ => None
      end
  | Comp o x y k =>
      match nth_error ps x, nth_error ps y with
      | Some (r, i), Some (q, j) => if same_range r q then pointers (k (comp_at o i j)) ps M else None
      | _, _ => None
      end
  end.

(** *** Checked positions
    Positions may be anywhere as long as they are not astronomically far away; elements outside a range and positions of
    different objects are reported.  [Nothing]: no claim (far away, stores into ranges that are not writable, iterators
    compared with reverse iterators, variables that do not exist). *)
Inductive checked_result := Done (r : R) (M : memory V) | Reported (M : memory V) | Nothing.
(** All the arithmetic on position i of n elements, counted from either end, fits. *)
Definition near (n i : Z) : bool := in_long i && in_long (n - i) && in_long (n - i - 1).
Definition at_place (M : memory V) (r : range) (i : Z) (yes : V -> checked_result) : checked_result :=
  if near (zlen (M r)) i then match znth (M r) i with Some v => yes v | None => Reported M end else Nothing.
Definition compared (M : memory V) (r q : range) (yes : checked_result) : checked_result :=
  if Bool.eqb (snd r) (snd q) then if fst r =? fst q then yes else Reported M else Nothing.
Fixpoint positions (a : algo V R) (ps : list place) (M : memory V) : checked_result :=
  match a with
  | Return r => Done r M
  | Load x k => match nth_error ps x with Some (r, i) => at_place M r i (fun v => positions (k v) ps M) | None => Nothing end
  | Index x n k => match nth_error ps x with Some (r, i) => at_place M r (i + n) (fun v => positions (k v) ps M) | None => Nothing end
  | Store x v k =>
      match nth_error ps x with
      | Some (r, i) => if writable r then at_place M r i (fun _ => positions k ps (put M r i v)) else Nothing
      | None => Nothing
      end
  | IndexStore x n v k =>
      match nth_error ps x with
      | Some (r, i) => if writable r then at_place M r (i + n) (fun _ => positions k ps (put M r (i + n) v)) else Nothing
      | None => Nothing
      end
  | Move m x n k =>
      match nth_error ps x with
      | Some (r, i) => if near (zlen (M r)) (moved m i n) then positions k (ps ++ [(r, moved m i n)]) M else Nothing
      | None => Nothing
      end
  | Diff x y k =>
      match nth_error ps x, nth_error ps y with
      | Some (r, i), Some (q, j) => compared M r q (if in_long (i - j) then positions (k (i - j)) ps M else Nothing)
      | _, _ => Nothing
      end
  | Comp o x y k =>
      match nth_error ps x, nth_error ps y with
      | Some (r, i), Some (q, j) => compared M r q (positions (k (comp_at o i j)) ps M)
      | _, _ => Nothing
      end
  end.
End Pointers.
Arguments Done {V R} r M.
Arguments Reported {V R} M.
Arguments Nothing {V R}.

(** *** How the objects of a program sit in the storage *)
(** The positions in the storage a range goes through, if the object's own elements are at those of ix. *)
Definition way (ix : Z -> list Z) (r : range) : list Z := if snd r then rev (ix (fst r)) else ix (fst r).
(** Range r of the storage s holds the values l. *)
Definition holds {V} (s : list V) (ps : list Z) (l : list V) : Prop := zlen ps = zlen l /\ forall i p, znth ps i = Some p -> znth s p = znth l i.
(** The ranges in use: the iterators of object p refer to the positions ix p of the storage s, which has the values of M
    there, and no position of a writable range is used in any other place. *)
Definition laid_out {V} (E : env Z) (used : range -> Prop) (writable : range -> bool) (ix : Z -> list Z) (s : list V) (M : memory V) : Prop :=
  forall r, used r ->
    shows (E (fst r)) (ix (fst r)) /\ (forall p, In p (ix (fst r)) -> 0 <= p < zlen s) /\ holds s (way ix r) (M r) /\
    (writable r = true -> forall q, used q -> forall i j p, znth (way ix r) i = Some p -> znth (way ix q) j = Some p -> r = q /\ i = j).
(** A variable is at a place: a reverse iterator at position i of n elements has its base at n - i. *)
Definition at_ (ix : Z -> list Z) (used : range -> Prop) (x : var) (w : place) : Prop :=
  let '(r, i) := w in
  used r /\ v_rev x = snd r /\ v_it x = mkit (Some (fst r)) (if snd r then zlen (ix (fst r)) - i else i) /\ near (zlen (ix (fst r))) i = true.
(** Everything outside the writable ranges is as before. *)
Definition rest_kept {V} (used : range -> Prop) (writable : range -> bool) (ix : Z -> list Z) (s s' : list V) : Prop :=
  zlen s' = zlen s /\ forall p, (forall r, used r -> writable r = true -> ~ In p (way ix r)) -> znth s' p = znth s p.

(** o is an owning array of n elements, one- or two-dimensional. *)
Definition owner (o : obj) (n : Z) : Prop := o = O1 n \/ exists m k, o = O2 m k n.
