(** A program state holding several owning one-dimensional arrays, and the member functions as operations on it. *)
From Verif Require Import Base.Outcome Base.ZList Model.Index Model.Slice Model.Array1D.

(** Arrays are named by their position in the store; the operations that create an array append it.
    [i], [j] below are names of arrays. *)
Inductive op1 (V : Type) :=
| New (n : Z) | NewFill (n : Z) (x : V) | NewList (l : list V) | NewCopy (j : Z) | NewMove (j : Z)
| NewSlice (j : Z) (s : slice)
| SetAll (i : Z) (x : V) | AssignList (i : Z) (l : list V) | Assign (i j : Z) | MoveAssign (i j : Z) | Swap (i j : Z)
| Resize (i n : Z) (preserve : bool) | ResizeAssign (i j : Z) | ResizeAssignMove (i j : Z)
| Remove (i pos count : Z) | RemoveFront (i count : Z) | RemoveBack (i count : Z) | RemoveLast (i k : Z)
| RemoveIndexes (i : Z) (v : list Z)
| Insert (i pos : Z) (x : V) | InsertFront (i : Z) (x : V) | InsertBack (i : Z) (x : V)
| InsertArr (i pos j : Z) | InsertFrontArr (i j : Z) | InsertBackArr (i j : Z)
| Write (i : Z) (ix : idx) (x : V) | Read (i : Z) (ix : idx) | Size (i : Z).
Arguments New {V}. Arguments NewFill {V}. Arguments NewList {V}. Arguments NewCopy {V}. Arguments NewMove {V}.
Arguments NewSlice {V}.
Arguments SetAll {V}. Arguments AssignList {V}. Arguments Assign {V}. Arguments MoveAssign {V}. Arguments Swap {V}.
Arguments Resize {V}. Arguments ResizeAssign {V}. Arguments ResizeAssignMove {V}.
Arguments Remove {V}. Arguments RemoveFront {V}. Arguments RemoveBack {V}. Arguments RemoveLast {V}.
Arguments RemoveIndexes {V}. Arguments Insert {V}. Arguments InsertFront {V}. Arguments InsertBack {V}.
Arguments InsertArr {V}. Arguments InsertFrontArr {V}. Arguments InsertBackArr {V}.
Arguments Write {V}. Arguments Read {V}. Arguments Size {V}.

(** What the caller observes. *)
Inductive obs (V : Type) := Done | Value (x : V) | Number (n : Z) | Failed (f : failure).
Arguments Done {V}. Arguments Value {V}. Arguments Number {V}. Arguments Failed {V}.

(** Result of one operation: the next state with an observation, or undefined behaviour. *)
Inductive res (S V : Type) := Next (s : S) (o : obs V) | Crash.
Arguments Next {S V}. Arguments Crash {S V}.

(** Arrays of any kind X, elements V. *)
Section Generic.
Context {X V : Type}.
(** A new array from an outcome: appended on success. *)
Definition push (st : list X) (m : outcome X) : res (list X) V :=
  match m with Ok a => Next (st ++ [a]) Done | Fail f => Next st (Failed f) | UB => Crash end.
(** A function that builds the new contents in a temporary and swaps. *)
Definition put (st : list X) (i : Z) (m : outcome X) : res (list X) V :=
  match m with Ok a => Next (zupd st i a) Done | Fail f => Next st (Failed f) | UB => Crash end.
(** An in-place function. *)
Definition put_mut (st : list X) (i : Z) (m : mut X) : res (list X) V :=
  match m with MOk a => Next (zupd st i a) Done | MFail f a => Next (zupd st i a) (Failed f) | MUB => Crash end.
(** Observers. *)
Definition seen {A} (st : list X) (f : A -> obs V) (m : outcome A) : res (list X) V :=
  match m with Ok x => Next st (f x) | Fail e => Next st (Failed e) | UB => Crash end.
(** Naming an array that does not exist cannot be written in a program: such operations are skipped. *)
Definition with1 (st : list X) (i : Z) (k : X -> res (list X) V) : res (list X) V :=
  match znth st i with Some a => k a | None => Next st Done end.
Definition with2 (st : list X) (i j : Z) (k : X -> X -> res (list X) V) : res (list X) V :=
  with1 st i (fun a => with1 st j (k a)).

End Generic.

Section Store.
Context {V : Type} (zero : V).
Notation store := (list (arr V)).

(** Slice A_j(s) as a source (derived1D.hpp 177-193, slicearray_base1D.hpp 170-174). *)
Definition slice_src (c : cfg) (a : arr V) (s : slice) : outcome (src1 V) :=
  v <- view_slice c (VBase (an a)) s ;; Ok (mksrc1 (view_size v) (view_un v (buf a))).

(** array_base1D.hpp 130-460 through the functions of Model/Array1D.v. *)
Definition step1 (c : cfg) (st : store) (o : op1 V) : res store V :=
  match o with
  | New n => push st (arr_new zero c n)
  | NewFill n x => push st (arr_new_fill zero c n x)
  | NewList l => push st (arr_of_list zero c l)
  | NewCopy j => with1 st j (fun b => push st (arr_of_src zero c (src_of_arr b)))
  | NewMove j => with1 st j (fun b => let (a, b') := arr_move b in Next (zupd st j b' ++ [a]) Done)
  | NewSlice j s => with1 st j (fun b => push st (A <- slice_src c b s ;; arr_of_src zero c A))
  | SetAll i x => with1 st i (fun a => put st i (arr_set_all x a))
  | AssignList i l => with1 st i (fun a => put_mut st i (arr_assign_list c l a))
  | Assign i j => with2 st i j (fun a b => if i =? j then Next st Done else put_mut st i (arr_assign_arr c b a))
  | MoveAssign i j => with2 st i j (fun a b =>
      if i =? j then Next (zupd st i (arr_move_assign_self a)) Done else
      match arr_move_assign c a b with
      | Ok (a', b') => Next (zupd (zupd st i a') j b') Done
      | Fail f => Next st (Failed f)
      | UB => Crash
      end)
  | Swap i j => with2 st i j (fun a b => let (a', b') := arr_swap a b in Next (zupd (zupd st i a') j b') Done)
  | Resize i n pr => with1 st i (fun a => put st i (arr_resize zero c n pr a))
  | ResizeAssign i j => with2 st i j (fun a b => put st i (arr_resize_and_assign zero c (src_of_arr b)))
  | ResizeAssignMove i j => with2 st i j (fun a b =>
      if i =? j then Next (zupd st i (arr_resize_and_assign_move_self a)) Done
      else let (a', b') := arr_resize_and_assign_move a b in Next (zupd (zupd st i a') j b') Done)
  | Remove i p k => with1 st i (fun a => put st i (arr_remove zero c p k a))
  | RemoveFront i k => with1 st i (fun a => put st i (arr_remove_front zero c k a))
  | RemoveBack i k => with1 st i (fun a => put st i (arr_remove_back zero c k a))
  | RemoveLast i k => with1 st i (fun a => put st i (arr_remove_last zero c k a))
  | RemoveIndexes i v => with1 st i (fun a => put st i (arr_remove_indexes zero c v a))
  | Insert i p x => with1 st i (fun a => put st i (arr_insert zero c p x a))
  | InsertFront i x => with1 st i (fun a => put st i (arr_insert_front zero c x a))
  | InsertBack i x => with1 st i (fun a => put st i (arr_insert_back zero c x a))
  | InsertArr i p j => with2 st i j (fun a b => put st i (arr_insert_arr zero c p (src_of_arr b) a))
  | InsertFrontArr i j => with2 st i j (fun a b => put st i (arr_insert_front_arr zero c (src_of_arr b) a))
  | InsertBackArr i j => with2 st i j (fun a b => put st i (arr_insert_back_arr zero c (src_of_arr b) a))
  | Write i ix x => with1 st i (fun a => put st i (arr_write c ix x a))
  | Read i ix => with1 st i (fun a => seen st Value (sub1 c (src_of_arr a) ix))
  | Size i => with1 st i (fun a => Next st (Number (an a)))
  end.
End Store.

(** A program: it goes on after an exception (which the caller catches); an abort or terminate ends it. *)
Definition fatal (f : failure) : bool := match f with Throw | BadAlloc => false | Abort | Terminate => true end.
Fixpoint run {S V O} (step : S -> O -> res S V) (s : S) (ops : list O) : res S V * list (obs V) :=
  match ops with
  | [] => (Next s Done, [])
  | o :: ops' =>
      match step s o with
      | Crash => (Crash, [])
      | Next s' (Failed f) =>
          if fatal f then (Next s' (Failed f), [Failed f])
          else let (r, t) := run step s' ops' in (r, Failed f :: t)
      | Next s' ob => let (r, t) := run step s' ops' in (r, ob :: t)
      end
  end.
