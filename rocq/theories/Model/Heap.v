(** The memory behind owning one-dimensional arrays: array_base1D.hpp with its pointers, operator new[] and operator delete[].  Model/Array1D.v
    gives the values of the same functions; here an array is a pointer and a size, and every access goes through the heap.
    Simplifications: an address is never used again after it was freed; the type of the exception does not matter for unwinding;
    the address itself (its alignment is the contract of operator new) is not modelled. *)
From Verif Require Import Base.Outcome Base.ZList Model.IntModel Model.ScalarOps Model.Index Model.Slice Model.Array1D Model.Store1D.

(** array_base1D.hpp 125-126: data_ and n_. *)
Record hobj := mkobj { optr : option Z; on : Z }.

Section Heap.
(** al: alignment_of<T, AF>() (ArrayCommon/alignment.hpp 16-20): 64, or 0 for the plain operator new[]. *)
Context {V : Type} (zero : V) (al : Z).

(** Live and freed blocks; a block remembers which operator new[] it comes from. *)
Definition heap := list (option (Z * list V)).
Inductive hres (A : Type) := HOk (a : A) (h : heap) | HFail (f : failure) (h : heap) | HUB.
Arguments HOk {A}. Arguments HFail {A}. Arguments HUB {A}.
(** Computations on the heap; an exception keeps the heap as it was when thrown. *)
Definition hm (A : Type) := heap -> hres A.
Definition hret {A} (a : A) : hm A := fun h => HOk a h.
Definition hbind {A B} (m : hm A) (k : A -> hm B) : hm B :=
  fun h => match m h with HOk a h' => k a h' | HFail f h' => HFail f h' | HUB => HUB end.
Notation "x <-- m ;; k" := (hbind m (fun x => k)) (at level 61, m at next level, right associativity).
Definition lift {A} (m : outcome A) : hm A := fun h => match m with Ok a => HOk a h | Fail f => HFail f h | UB => HUB end.
Fixpoint hfor_loop (k : nat) (i : Z) (body : Z -> hm unit) : hm unit :=
  match k with O => hret tt | S k' => _ <-- body i ;; hfor_loop k' (i + 1) body end.
Definition hfor (lo hi : Z) (body : Z -> hm unit) : hm unit := hfor_loop (Z.to_nat (hi - lo)) lo body.

Definition lk (h : heap) (p : Z) : option (Z * list V) := match znth h p with Some (Some b) => Some b | _ => None end.
(** array_base1D.hpp 143, 155: new value_type[n]. *)
Definition h_alloc (c : cfg) (n : Z) : hm Z :=
  fun h => match alloc zero c n with Ok b => HOk (zlen h) (h ++ [Some (al, b)]) | Fail f => HFail f h | UB => HUB end.
(** array_base1D.hpp 260-273: delete[] of null does nothing; of anything but a live block of the same operator new[] is undefined. *)
Definition h_delete (q : option Z) : hm unit := fun h =>
  match q with
  | None => HOk tt h
  | Some p => match lk h p with Some (a, _) => if a =? al then HOk tt (zupd h p None) else HUB | None => HUB end
  end.
(** array_base1D.hpp 470-480: un(i) is data_[i], read and written. *)
Definition h_load (o : hobj) (i : Z) : hm V := fun h =>
  match optr o with
  | None => HUB
  | Some p => match lk h p with Some (_, b) => lift (oget b i) h | None => HUB end
  end.
Definition h_store (o : hobj) (i : Z) (v : V) : hm unit := fun h =>
  match optr o with
  | None => HUB
  | Some p => match lk h p with
              | Some (a, b) => match oset b i v with Ok b' => HOk tt (zupd h p (Some (a, b'))) | _ => HUB end
              | None => HUB
              end
  end.

(** array_base1D.hpp 136-157: ArrayBase1D(n). *)
Definition h_new (c : cfg) (n : Z) : hm hobj :=
  _ <-- lift (check_debug c (Ok (-1 <? n))) ;;
  if n =? 0 then hret (mkobj None n) else p <-- h_alloc c n ;; hret (mkobj (Some p) n).
(** array_base1D.hpp 130-133: ArrayBase1D(). *)
Definition h_empty : hobj := mkobj None 0.
(** The array t is destroyed (array_base1D.hpp 260-273) when an exception leaves m: a local array, or the array under construction once
    the delegated constructor is done. *)
Definition unwind {A} (t : hobj) (m : hm A) : hm A := fun h =>
  match m h with
  | HFail f h' => if fatal f then HFail f h' else match h_delete (optr t) h' with HOk _ h'' => HFail f h'' | _ => HUB end
  | r => r
  end.
(** array_base1D.hpp 160-213: the constructors that delegate to ArrayBase1D(n) and then write the elements; also the local arrays tmp
    of the functions below. *)
Definition h_build (c : cfg) (n : Z) (body : hobj -> hm unit) : hm hobj :=
  t <-- h_new c n ;; _ <-- unwind t (body t) ;; hret t.
(** array_base1D.hpp 276-280: this->swap(tmp), then ~tmp. *)
Definition h_replace (o t : hobj) : hm hobj := _ <-- h_delete (optr o) ;; hret t.

(** ArrayCommon/algorithm.hpp 149-154, 61-66, 87-102: fill, copy, copyn; r reads the source. *)
Definition h_fill (x : V) (t : hobj) : hm unit := hfor 0 (on t) (fun i => h_store t i x).
Definition h_copyn (r : Z -> hm V) (t : hobj) (n : Z) : hm unit := hfor 0 n (fun i => v <-- r i ;; h_store t i v).
Definition h_copyn3 (r : Z -> hm V) (t : hobj) (s1 s2 n : Z) : hm unit :=
  hfor 0 n (fun i => j1 <-- lift (ladd s1 i) ;; v <-- r j1 ;; j2 <-- lift (ladd s2 i) ;; h_store t j2 v).

(** array_base1D.hpp 165-182, 195-213: from a value, a list, an array, any one-dimensional object. *)
Definition h_new_fill (c : cfg) (n : Z) (x : V) : hm hobj := h_build c n (h_fill x).
Definition h_of_src (c : cfg) (size : Z) (r : Z -> hm V) : hm hobj := h_build c size (fun t => h_copyn r t size).
(** array_base1D.hpp 289-301: resize. *)
Definition h_resize (c : cfg) (n : Z) (preserve : bool) (o : hobj) : hm hobj :=
  _ <-- lift (check_debug c (Ok (-1 <? n))) ;;
  if n =? on o then hret o
  else t <-- h_build c n (fun t => if preserve then h_copyn (h_load o) t (mins (on o) n) else hret tt) ;; h_replace o t.
(** array_base1D.hpp 304-308: resize_and_assign. *)
Definition h_resize_and_assign (c : cfg) (size : Z) (r : Z -> hm V) (o : hobj) : hm hobj := t <-- h_of_src c size r ;; h_replace o t.
(** array_base1D.hpp 321-332: remove(pos, count). *)
Definition h_remove (c : cfg) (pos count : Z) (o : hobj) : hm hobj :=
  _ <-- lift (check_debug c (Ok (0 <? count))) ;;
  _ <-- lift (check_debug c (Ok (valid_index (on o) pos))) ;;
  _ <-- lift (check_debug c (s <- ladd pos count ;; e <- lsub s 1 ;; Ok (valid_index (on o) e))) ;;
  m <-- lift (lsub (on o) count) ;;
  t <-- h_build c m (fun t =>
    _ <-- h_copyn (h_load o) t pos ;;
    s <-- lift (ladd pos count) ;; d <-- lift (lsub (on o) pos) ;; k <-- lift (lsub d count) ;;
    h_copyn3 (h_load o) t s pos k) ;;
  h_replace o t.
(** array_base1D.hpp 371-385: remove(indexes). *)
Definition h_remove_indexes (c : cfg) (v : list Z) (o : hobj) : hm hobj :=
  match v with
  | [] => hret o
  | _ => ci <-- lift (complement_index_vector c (on o) v) ;;
         t <-- h_build c (zlen ci) (fun t => hfor 0 (on t) (fun i => j <-- lift (oget ci i) ;; v <-- h_load o j ;; h_store t i v)) ;;
         h_replace o t
  end.
(** array_base1D.hpp 389-399: insert(pos, x). *)
Definition h_insert (c : cfg) (pos : Z) (x : V) (o : hobj) : hm hobj :=
  _ <-- lift (check_debug c (Ok ((0 <=? pos) && (pos <=? on o)))) ;;
  m <-- lift (ladd (on o) 1) ;;
  t <-- h_build c m (fun t =>
    _ <-- h_copyn (h_load o) t pos ;; _ <-- h_store t pos x ;;
    p1 <-- lift (ladd pos 1) ;; k <-- lift (lsub (on o) pos) ;;
    h_copyn3 (h_load o) t pos p1 k) ;;
  h_replace o t.
(** array_base1D.hpp 432-442: insert(pos, A). *)
Definition h_insert_src (c : cfg) (pos size : Z) (r : Z -> hm V) (o : hobj) : hm hobj :=
  _ <-- lift (check_debug c (Ok ((0 <=? pos) && (pos <=? on o)))) ;;
  m <-- lift (ladd (on o) size) ;;
  t <-- h_build c m (fun t =>
    _ <-- h_copyn (h_load o) t pos ;; _ <-- h_copyn3 r t 0 pos size ;;
    p1 <-- lift (ladd pos size) ;; k <-- lift (lsub (on o) pos) ;;
    h_copyn3 (h_load o) t pos p1 k) ;;
  h_replace o t.
(** array_base1D.hpp 223-257: assignment of a list, of another array or of an expression, in place. *)
Definition h_assign (c : cfg) (size : Z) (r : Z -> hm V) (o : hobj) : hm unit :=
  _ <-- lift (check_debug c (Ok (on o =? size))) ;; h_copyn r o size.
(** derived1D.hpp 56-62 operator[]: reading and writing an element. *)
Definition h_write (c : cfg) (ix : idx) (x : V) (o : hobj) : hm unit :=
  i <-- lift (idx_get (on o) ix) ;; _ <-- lift (check_debug c (Ok (valid_index (on o) i))) ;; h_store o i x.
Definition h_read (c : cfg) (ix : idx) (o : hobj) : hm V :=
  i <-- lift (idx_get (on o) ix) ;; _ <-- lift (check_debug c (Ok (valid_index (on o) i))) ;; h_load o i.

(** The heap and the arrays of a program; the operations of Model/Store1D.v. *)
Definition hstate := (heap * list hobj)%type.
Definition h_push (s : hstate) (m : hm hobj) : res hstate V :=
  match m (fst s) with HOk t h => Next (h, snd s ++ [t]) Done | HFail f h => Next (h, snd s) (Failed f) | HUB => Crash end.
Definition h_put (s : hstate) (i : Z) (m : hm hobj) : res hstate V :=
  match m (fst s) with HOk t h => Next (h, zupd (snd s) i t) Done | HFail f h => Next (h, snd s) (Failed f) | HUB => Crash end.
Definition h_see {A} (s : hstate) (ob : A -> obs V) (m : hm A) : res hstate V :=
  match m (fst s) with HOk v h => Next (h, snd s) (ob v) | HFail f h => Next (h, snd s) (Failed f) | HUB => Crash end.
Definition h_done (s : hstate) (m : hm unit) : res hstate V := h_see s (fun _ => Done) m.
(** Naming an array that does not exist cannot be written in a program (as in Store1D). *)
Definition h_with (s : hstate) (i : Z) (k : hobj -> res hstate V) : res hstate V :=
  match znth (snd s) i with Some o => k o | None => Next s Done end.
(** derived1D.hpp 177-193: A(s), read through A (slicearray_base1D.hpp 170-174). *)
Definition h_slice (c : cfg) (o : hobj) (s : slice) (k : Z -> (Z -> hm V) -> hm hobj) : hm hobj :=
  v <-- lift (view_slice c (VBase (on o)) s) ;; k (view_size v) (fun i => j <-- lift (view_map v i) ;; h_load o j).
(** array_base1D.hpp 276-286: swap of the members data_ and n_ of the arrays i and j, which can be the same array. *)
Definition h_swap (l : list hobj) (i j : Z) : list hobj :=
  match znth l i, znth l j with Some a, Some b => zupd (zupd l i b) j a | _, _ => l end.
(** array_base1D.hpp 245, 315: A.swap(ArrayBase1D{}), then the destructor of the temporary. *)
Definition h_clear (s : hstate) (j : Z) : res hstate V :=
  h_with s j (fun b => match h_delete (optr b) (fst s) with HOk _ h => Next (h, zupd (snd s) j h_empty) Done | _ => Crash end).

(** array_base1D.hpp 130-460. *)
Definition hstep1 (c : cfg) (s : hstate) (o : op1 V) : res hstate V :=
  match o with
  | New n => h_push s (h_new c n)
  | NewFill n x => h_push s (h_new_fill c n x)
  | NewList l => h_push s (h_of_src c (zlen l) (fun i => lift (oget l i)))
  | NewCopy j => h_with s j (fun b => h_push s (h_of_src c (on b) (h_load b)))
  | NewMove j => h_with s j (fun b => Next (fst s, zupd (snd s) j h_empty ++ [b]) Done)
  | NewSlice j sl => h_with s j (fun b => h_push s (h_slice c b sl (h_of_src c)))
  | SetAll i x => h_with s i (fun a => h_done s (h_fill x a))
  | AssignList i l => h_with s i (fun a => h_done s (h_assign c (zlen l) (fun i => lift (oget l i)) a))
  | Assign i j => h_with s i (fun a => h_with s j (fun b => if i =? j then Next s Done else h_done s (h_assign c (on b) (h_load b) a)))
  | MoveAssign i j => h_with s i (fun a => h_with s j (fun b =>
      if i =? j then Next s Done else
      match noexcept (check_normal c (Ok (on a =? on b))) with
      | Ok _ => h_clear (fst s, h_swap (snd s) i j) j
      | Fail f => Next s (Failed f)
      | UB => Crash
      end))
  | Swap i j => h_with s i (fun a => h_with s j (fun b => Next (fst s, h_swap (snd s) i j) Done))
  | Resize i n pr => h_with s i (fun a => h_put s i (h_resize c n pr a))
  | ResizeAssign i j => h_with s i (fun a => h_with s j (fun b => h_put s i (h_resize_and_assign c (on b) (h_load b) a)))
  | ResizeAssignMove i j => h_with s i (fun a => h_with s j (fun b => h_clear (fst s, h_swap (snd s) i j) j))
  | Remove i p k => h_with s i (fun a => h_put s i (h_remove c p k a))
  | RemoveFront i k => h_with s i (fun a => h_put s i (h_remove c 0 k a))
  | RemoveBack i k => h_with s i (fun a => h_put s i (p <-- lift (lsub (on a) k) ;; h_remove c p k a))
  | RemoveLast i k => h_with s i (fun a => h_put s i (n1 <-- lift (lsub (on a) 1) ;; p <-- lift (lsub n1 k) ;; h_remove c p 1 a))
  | RemoveIndexes i v => h_with s i (fun a => h_put s i (h_remove_indexes c v a))
  | Insert i p x => h_with s i (fun a => h_put s i (h_insert c p x a))
  | InsertFront i x => h_with s i (fun a => h_put s i (h_insert c 0 x a))
  | InsertBack i x => h_with s i (fun a => h_put s i (h_insert c (on a) x a))
  | InsertArr i p j => h_with s i (fun a => h_with s j (fun b => h_put s i (h_insert_src c p (on b) (h_load b) a)))
  | InsertFrontArr i j => h_with s i (fun a => h_with s j (fun b => h_put s i (h_insert_src c 0 (on b) (h_load b) a)))
  | InsertBackArr i j => h_with s i (fun a => h_with s j (fun b => h_put s i (h_insert_src c (on a) (on b) (h_load b) a)))
  | Write i ix x => h_with s i (fun a => h_done s (h_write c ix x a))
  | Read i ix => h_with s i (fun a => h_see s Value (h_read c ix a))
  | Size i => h_with s i (fun a => Next s (Number (on a)))
  end.
(** array_base1D.hpp 260-273: the arrays go out of scope. *)
Fixpoint h_close (l : list hobj) : hm unit :=
  match l with [] => hret tt | o :: l' => _ <-- h_close l' ;; h_delete (optr o) end.
End Heap.
Arguments HOk {V A}. Arguments HFail {V A}. Arguments HUB {V A}.
