(** Stored views while the array they were taken from changes.  A slice array keeps a reference to the owning array and copies
    of the slices between (CopyOrReferenceExpr, ArrayCommon/array_traits.hpp 91-106; the member A_ in slicearray_base1D.hpp
    49, 156, slicearray_base2D.hpp 46, 198, attach2D.hpp 165, 210).  So the size of a stored view is that of its slices, fixed
    when it was created, and its elements are looked up in the array as it is when they are used. *)
From Verif Require Import Base.Outcome Base.ZList Model.Index Model.Slice Model.Array1D Model.Array2D Model.Store1D Model.Store2D Model.View2D Model.Iterator.

(** The same view when the referenced array is now r. *)
Fixpoint rebase (r o : obj) : obj :=
  match o with
  | O1 _ | O2 _ _ _ => r
  | OS1 o' s => OS1 (rebase r o') s
  | OS2 o' s1 s2 => OS2 (rebase r o') s1 s2
  | OC2 o' m n => OC2 (rebase r o') m n
  end.

(** A variable holding a view: the name of the array and the view as it was created. *)
Record held := mkheld { h_on : Z; h_view : obj }.

(** Programs: operations on arrays; taking views of arrays and of views (stored in new variables); using stored views and
    stored iterators.  [k] names an array, [h] a stored view. *)
Inductive stm (O V : Type) :=
| Own (o : O) | Take (k : Z) (ws : list vop) | Sub (h : Z) (ws : list vop)
| Get (h : Z) (ix : idx) | Get2 (h : Z) (ix jx : idx) | Put (h : Z) (ix : idx) (x : V) | Put2 (h : Z) (ix jx : idx) (x : V)
| Length (h : Z) | Rows (h : Z) | Cols (h : Z) | Deref (k pos : Z).
Arguments Own {O V}. Arguments Take {O V}. Arguments Sub {O V}. Arguments Get {O V}. Arguments Get2 {O V}. Arguments Put {O V}.
Arguments Put2 {O V}. Arguments Length {O V}. Arguments Rows {O V}. Arguments Cols {O V}. Arguments Deref {O V}.

(** Arrays of kind X with operations O; [rt] is the array as an object, [mem] its storage. *)
Section World.
Context {X O V : Type} (step : cfg -> list X -> O -> res (list X) V) (rt : X -> obj) (mem : X -> list V) (with_mem : X -> list V -> X).
Notation state := (list X * list held)%type.

(** Using the stored view h: the array it refers to and the view as it is now. *)
Definition with_view (s : state) (h : Z) (k : Z -> X -> obj -> res state V) : res state V :=
  match znth (snd s) h with
  | None => Next s Done
  | Some v => match znth (fst s) (h_on v) with None => Next s Done | Some a => k (h_on v) a (rebase (rt a) (h_view v)) end
  end.
(** The variable gets the new view. *)
Definition keep_view (s : state) (k : Z) (m : outcome obj) : res state V :=
  match m with Ok o => Next (fst s, snd s ++ [mkheld k o]) Done | Fail f => Next s (Failed f) | UB => Crash end.
Definition show {A} (s : state) (f : A -> obs V) (m : outcome A) : res state V :=
  match m with Ok x => Next s (f x) | Fail e => Next s (Failed e) | UB => Crash end.
(** Writing through a reference to the element at the given position. *)
Definition store (s : state) (k : Z) (a : X) (m : outcome Z) (x : V) : res state V :=
  match (p <- m ;; oset (mem a) p x) with
  | Ok b => Next (zupd (fst s) k (with_mem a b), snd s) Done | Fail e => Next s (Failed e) | UB => Crash
  end.

(** derived1D.hpp 56-92, 172-260, derived2D.hpp 61-111, 214-432 on a stored view; iterator.hpp 340-353 on a stored iterator of
    the array k at position pos (an iterator is a pointer to the array object and a position, iterator.hpp 222-223). *)
Definition vstep (c : cfg) (s : state) (t : stm O V) : res state V :=
  match t with
  | Own o => match step c (fst s) o with Next st ob => Next (st, snd s) ob | Crash => Crash end
  | Take k ws => match znth (fst s) k with None => Next s Done | Some a => keep_view s k (o_chain c (rt a) ws) end
  | Sub h ws => with_view s h (fun k a o => keep_view s k (o_chain c o ws))
  | Get h ix => with_view s h (fun k a o => show s Value (p <- o_ref1 c o ix ;; oget (mem a) p))
  | Get2 h ix jx => with_view s h (fun k a o => show s Value (p <- o_ref2 c o ix jx ;; oget (mem a) p))
  | Put h ix x => with_view s h (fun k a o => store s k a (o_ref1 c o ix) x)
  | Put2 h ix jx x => with_view s h (fun k a o => store s k a (o_ref2 c o ix jx) x)
  | Length h => with_view s h (fun k a o => show s Number (o_size o))
  | Rows h => with_view s h (fun k a o => Next s (Number (o_rows o)))
  | Cols h => with_view s h (fun k a o => Next s (Number (o_cols o)))
  | Deref k pos => match znth (fst s) k with None => Next s Done
                   | Some a => show s Value (it_deref c (fun _ => flag_list (mem a)) (it_make k pos)) end
  end.
End World.

(** The two kinds of owning arrays. *)
Definition vstep1 {V} (zero : V) : cfg -> list (arr V) * list held -> stm (op1 V) V -> res (list (arr V) * list held) V :=
  vstep (step1 zero) (fun a => O1 (an a)) (@buf V) (fun a b => mkarr b (an a)).
Definition vstep2 {V} (zero : V) : cfg -> list (arr2 V) * list held -> stm (op2 V) V -> res (list (arr2 V) * list held) V :=
  vstep (step2 zero) obj_of_arr2 (fun a => buf (dat a)) (fun a b => mkarr2 (drows a) (dcols a) (mkarr b (an (dat a)))).
