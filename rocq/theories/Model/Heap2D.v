(** The memory behind owning two-dimensional arrays: array_base2D.hpp.  Model/Array2D.v gives the values of the same functions; here an array
    is its two sizes and the one-dimensional array data1D_ of Model/Heap.v, whose simplifications apply, and every access goes through the heap. *)
From Verif Require Import Base.Outcome Base.ZList Model.IntModel Model.ScalarOps Model.Index Model.Slice Model.Array1D Model.Array2D Model.Store1D Model.Store2D Model.Heap.

(** array_base2D.hpp 147-148: dims_ and data1D_. *)
Record hobj2 := mkobj2 { orows : Z; ocols : Z; odat : hobj }.

Section Heap2.
Context {V : Type} (zero : V) (al : Z).
Notation hm := (hm (V := V)).
Notation heap := (heap (V := V)).
Notation "x <-- m ;; k" := (hbind m (fun x => k)) (at level 61, m at next level, right associativity).

(** array_base2D.hpp 681-692: un(i, j), read and written. *)
Definition h2_load (o : hobj2) (i j : Z) : hm V := p <-- lift (lmul i (ocols o)) ;; q <-- lift (ladd p j) ;; h_load (odat o) q.
Definition h2_store (o : hobj2) (i j : Z) (v : V) : hm unit := p <-- lift (lmul i (ocols o)) ;; q <-- lift (ladd p j) ;; h_store (odat o) q v.

(** array_base2D.hpp 34: the default constructor. *)
Definition h2_empty : hobj2 := mkobj2 0 0 h_empty.
(** array_base2D.hpp 152-159: ArrayBase2D(m, n).  data1D_ is constructed before the checks; its destructor runs when one of them throws. *)
Definition h2_new (c : cfg) (m n : Z) : hm hobj2 :=
  p <-- lift (lmul m n) ;; d <-- h_new zero al c p ;;
  _ <-- unwind al d (lift (check_debug c (Ok (0 <=? m)) ;;; check_debug c (Ok (0 <=? n)) ;;; check_debug c (Ok (semi_valid m n)))) ;;
  hret (mkobj2 m n d).
(** array_base2D.hpp 168-194: the constructors that delegate to ArrayBase2D(m, n) and then write the elements; also the local arrays tmp of
    the functions below. *)
Definition h2_build (c : cfg) (m n : Z) (body : hobj2 -> hm unit) : hm hobj2 :=
  t <-- h2_new c m n ;; _ <-- unwind al (odat t) (body t) ;; hret t.
(** array_base2D.hpp 237-241: this->swap(tmp), then ~tmp, which destroys data1D_. *)
Definition h2_replace (o t : hobj2) : hm hobj2 := _ <-- h_delete al (optr (odat o)) ;; hret t.

(** ArrayCommon/algorithm.hpp 77-84, 105-146: copy, copy_rows, copy_cols; r reads the source. *)
Definition h2_copy (m n : Z) (r : Z -> Z -> hm V) (t : hobj2) : hm unit :=
  hfor 0 m (fun i => hfor 0 n (fun j => v <-- r i j ;; h2_store t i j v)).
Definition h2_copy_rows (cols : Z) (r : Z -> Z -> hm V) (t : hobj2) (s1 s2 n : Z) : hm unit :=
  hfor 0 n (fun i => hfor 0 cols (fun j => i1 <-- lift (ladd i s1) ;; v <-- r i1 j ;; i2 <-- lift (ladd i s2) ;; h2_store t i2 j v)).
Definition h2_copy_cols (rows : Z) (r : Z -> Z -> hm V) (t : hobj2) (s1 s2 n : Z) : hm unit :=
  hfor 0 rows (fun i => hfor 0 n (fun j => j1 <-- lift (ladd j s1) ;; v <-- r i j1 ;; j2 <-- lift (ladd j s2) ;; h2_store t i j2 v)).
(** ArrayCommon/algorithm.hpp 48-58: copy of a nested initializer list. *)
Fixpoint h2_copy_list_row (t : hobj2) (r cc : Z) (l : list V) : hm unit :=
  match l with [] => hret tt | x :: l' => _ <-- h2_store t r cc x ;; h2_copy_list_row t r (cc + 1) l' end.
Fixpoint h2_copy_list (t : hobj2) (r : Z) (L : list (list V)) : hm unit :=
  match L with [] => hret tt | l :: L' => _ <-- h2_copy_list_row t r 0 l ;; h2_copy_list t (r + 1) L' end.

(** array_base2D.hpp 168-173, 182-187, 190-194. *)
Definition h2_new_fill (c : cfg) (m n : Z) (x : V) : hm hobj2 := h2_build c m n (fun t => h_fill x (odat t)).
Definition h2_of_list (c : cfg) (L : list (list V)) : hm hobj2 :=
  h2_build c (fst (list2_sizes L)) (snd (list2_sizes L)) (fun t => _ <-- lift (check_debug c (Ok (valid_list2 L))) ;; h2_copy_list t 0 L).
Definition h2_of_src (c : cfg) (m n : Z) (r : Z -> Z -> hm V) : hm hobj2 := h2_build c m n (h2_copy m n r).
(** ... from an owning array, where overload algorithm.hpp 69-74 copies linearly. *)
Definition h2_of_arr (c : cfg) (b : hobj2) : hm hobj2 :=
  h2_build c (orows b) (ocols b) (fun t => h_copyn (h_load (odat b)) (odat t) (on (odat b))).
(** array_base2D.hpp 43: the defaulted copy constructor. *)
Definition h2_copy_of (c : cfg) (b : hobj2) : hm hobj2 :=
  d <-- h_of_src zero al c (on (odat b)) (h_load (odat b)) ;; hret (mkobj2 (orows b) (ocols b) d).
(** array_base2D.hpp 220-226: operator=(&&) from another array; data1D_ takes the block of the source and its own is freed
    (array_base1D.hpp 241-249). *)
Definition h2_move_assign (c : cfg) (o s : hobj2) : hm hobj2 :=
  _ <-- lift (noexcept (check_normal c (Ok (same_size2 (orows o) (ocols o) (orows s) (ocols s))) ;;;
                        noexcept (check_normal c (Ok (on (odat o) =? on (odat s)))))) ;;
  _ <-- h_delete al (optr (odat o)) ;; hret (mkobj2 (orows o) (ocols o) (odat s)).
(** array_base2D.hpp 204-209: operator=(nested initializer list); the moved-from tmp has no block when it is destroyed. *)
Definition h2_assign_list (c : cfg) (L : list (list V)) (o : hobj2) : hm hobj2 :=
  t <-- h2_of_list c L ;;
  _ <-- unwind al (odat t) (lift (check_debug c (Ok (same_size2 (orows o) (ocols o) (orows t) (ocols t))))) ;;
  h2_move_assign c o t.
(** array_base2D.hpp 212-217 and 229-234: assignment of another array, and of any two-dimensional object, in place. *)
Definition h2_assign_arr (c : cfg) (b o : hobj2) : hm unit :=
  _ <-- lift (check_debug c (Ok (same_size2 (orows o) (ocols o) (orows b) (ocols b)))) ;;
  h_assign c (on (odat b)) (h_load (odat b)) (odat o).
Definition h2_assign (c : cfg) (m n : Z) (r : Z -> Z -> hm V) (o : hobj2) : hm unit :=
  _ <-- lift (check_debug c (Ok (same_size2 (orows o) (ocols o) m n))) ;; h2_copy m n r o.

(** array_base2D.hpp 250-283: resize. *)
Definition h2_resize (c : cfg) (m n : Z) (preserve : bool) (o : hobj2) : hm hobj2 :=
  _ <-- lift (check_debug c (Ok (0 <=? m)) ;;; check_debug c (Ok (0 <=? n)) ;;; check_debug c (Ok (semi_valid m n))) ;;
  if (m =? orows o) && (n =? ocols o) then hret o
  else if preserve then
    t <-- h2_build c m n (h2_copy (mins (orows o) m) (mins (ocols o) n) (h2_load o)) ;; h2_replace o t
  else
    p <-- lift (lmul m n) ;; q <-- lift (lmul (orows o) (ocols o)) ;;
    if p =? q then hret (mkobj2 m n (odat o)) else t <-- h2_new c m n ;; h2_replace o t.
(** array_base2D.hpp 286-291. *)
Definition h2_resize_and_assign_arr (c : cfg) (b o : hobj2) : hm hobj2 := t <-- h2_of_arr c b ;; h2_replace o t.
Definition h2_resize_and_assign (c : cfg) (m n : Z) (r : Z -> Z -> hm V) (o : hobj2) : hm hobj2 := t <-- h2_of_src c m n r ;; h2_replace o t.

(** array_base2D.hpp 303-319, 328-344: remove_rows, remove_cols. *)
Definition h2_remove_rows (c : cfg) (pos count : Z) (o : hobj2) : hm hobj2 :=
  _ <-- lift (check_debug c (Ok (0 <? count))) ;;
  _ <-- lift (check_debug c (Ok (valid_row (orows o) pos))) ;;
  _ <-- lift (check_debug c (s <- ladd pos count ;; e <- lsub s 1 ;; Ok (valid_row (orows o) e))) ;;
  nr <-- lift (lsub (orows o) count) ;;
  t <-- h2_build c nr (if nr =? 0 then 0 else ocols o) (fun t =>
    _ <-- h2_copy pos (ocols o) (h2_load o) t ;;
    s <-- lift (ladd pos count) ;; d <-- lift (lsub (orows o) pos) ;; k <-- lift (lsub d count) ;;
    h2_copy_rows (ocols o) (h2_load o) t s pos k) ;;
  h2_replace o t.
Definition h2_remove_cols (c : cfg) (pos count : Z) (o : hobj2) : hm hobj2 :=
  _ <-- lift (check_debug c (Ok (0 <? count))) ;;
  _ <-- lift (check_debug c (Ok (valid_col (ocols o) pos))) ;;
  _ <-- lift (check_debug c (s <- ladd pos count ;; e <- lsub s 1 ;; Ok (valid_col (ocols o) e))) ;;
  nc <-- lift (lsub (ocols o) count) ;;
  t <-- h2_build c (if nc =? 0 then 0 else orows o) nc (fun t =>
    _ <-- h2_copy (orows o) pos (h2_load o) t ;;
    s <-- lift (ladd pos count) ;; d <-- lift (lsub (ocols o) pos) ;; k <-- lift (lsub d count) ;;
    h2_copy_cols (orows o) (h2_load o) t s pos k) ;;
  h2_replace o t.
(** array_base2D.hpp 365-368, 383-386, 401-404, 425-428: remove_row(Last), remove_col(Last), remove_rows_back, remove_cols_back. *)
Definition h2_remove_row_last (c : cfg) (k : Z) (o : hobj2) : hm hobj2 := p <-- lift (lsub (orows o) 1) ;; h2_remove_rows c p 1 o.
Definition h2_remove_col_last (c : cfg) (k : Z) (o : hobj2) : hm hobj2 := p <-- lift (lsub (ocols o) 1) ;; h2_remove_cols c p 1 o.
Definition h2_remove_rows_back (c : cfg) (k : Z) (o : hobj2) : hm hobj2 := p <-- lift (lsub (orows o) k) ;; h2_remove_rows c p k o.
Definition h2_remove_cols_back (c : cfg) (k : Z) (o : hobj2) : hm hobj2 := p <-- lift (lsub (ocols o) k) ;; h2_remove_cols c p k o.
(** array_base2D.hpp 437-474: remove_rows(indexes), remove_cols(indexes). *)
Definition h2_remove_rows_idx (c : cfg) (v : list Z) (o : hobj2) : hm hobj2 :=
  match v with
  | [] => hret o
  | _ => ci <-- lift (complement_index_vector c (orows o) v) ;;
         t <-- h2_build c (zlen ci) (if zlen ci =? 0 then 0 else ocols o) (fun t =>
           hfor 0 (orows t) (fun i => hfor 0 (ocols t) (fun j => p <-- lift (oget ci i) ;; v <-- h2_load o p j ;; h2_store t i j v))) ;;
         h2_replace o t
  end.
Definition h2_remove_cols_idx (c : cfg) (v : list Z) (o : hobj2) : hm hobj2 :=
  match v with
  | [] => hret o
  | _ => ci <-- lift (complement_index_vector c (ocols o) v) ;;
         t <-- h2_build c (if zlen ci =? 0 then 0 else orows o) (zlen ci) (fun t =>
           hfor 0 (orows t) (fun i => hfor 0 (ocols t) (fun j => p <-- lift (oget ci j) ;; v <-- h2_load o i p ;; h2_store t i j v))) ;;
         h2_replace o t
  end.

(** array_base2D.hpp 478-494, 515-531: insert_rows(pos, A), insert_cols(pos, A); [fresh] is resize_and_assign(A); m, n, r are the sizes of A
    and its un(i, j). *)
Definition h2_insert_rows (c : cfg) (fresh : hm hobj2) (pos m n : Z) (r : Z -> Z -> hm V) (o : hobj2) : hm hobj2 :=
  _ <-- lift (check_debug c (Ok ((0 <=? pos) && (pos <=? orows o)))) ;;
  if (orows o =? 0) && (ocols o =? 0) then fresh
  else
    _ <-- lift (check_debug c (Ok (n =? ocols o))) ;;
    nr <-- lift (ladd (orows o) m) ;;
    t <-- h2_build c nr (ocols o) (fun t =>
      _ <-- h2_copy pos (ocols o) (h2_load o) t ;;
      _ <-- h2_copy_rows n r t 0 pos m ;;
      p <-- lift (ladd pos m) ;; k <-- lift (lsub (orows o) pos) ;;
      h2_copy_rows (ocols o) (h2_load o) t pos p k) ;;
    h2_replace o t.
Definition h2_insert_cols (c : cfg) (fresh : hm hobj2) (pos m n : Z) (r : Z -> Z -> hm V) (o : hobj2) : hm hobj2 :=
  _ <-- lift (check_debug c (Ok ((0 <=? pos) && (pos <=? ocols o)))) ;;
  if (orows o =? 0) && (ocols o =? 0) then fresh
  else
    _ <-- lift (check_debug c (Ok (m =? orows o))) ;;
    nc <-- lift (ladd (ocols o) n) ;;
    t <-- h2_build c (orows o) nc (fun t =>
      _ <-- h2_copy (orows o) pos (h2_load o) t ;;
      _ <-- h2_copy_cols m r t 0 pos n ;;
      p <-- lift (ladd pos n) ;; k <-- lift (lsub (ocols o) pos) ;;
      h2_copy_cols (orows o) (h2_load o) t pos p k) ;;
    h2_replace o t.
(** A loop with a counter besides its own. *)
Fixpoint hfor_count_loop (k : nat) (i : Z) (body : Z -> Z -> hm Z) (q : Z) : hm Z :=
  match k with O => hret q | S k' => q' <-- body i q ;; hfor_count_loop k' (i + 1) body q' end.
Definition hfor_count (lo hi : Z) (body : Z -> Z -> hm Z) : hm Z := hfor_count_loop (Z.to_nat (hi - lo)) lo body 0.
(** array_base2D.hpp 552-581, 602-628: insert_row(pos, A), insert_col(pos, A) for a list; into an empty array the elements are copied in place
    after resize. *)
Definition h2_insert_row (c : cfg) (pos : Z) (l : list V) (o : hobj2) : hm hobj2 :=
  _ <-- lift (check_debug c (Ok ((0 <=? pos) && (pos <=? orows o)))) ;;
  if (orows o =? 0) && (ocols o =? 0) && negb (zlen l =? 0) then
    t <-- h2_resize c 1 (zlen l) true o ;; _ <-- h_copyn (fun i => lift (oget l i)) (odat t) (zlen l) ;; hret t
  else
    _ <-- lift (check_debug c (Ok (zlen l =? ocols o))) ;;
    nr <-- lift (ladd (orows o) 1) ;;
    t <-- h2_build c nr (ocols o) (fun t =>
      _ <-- hfor_count 0 (orows t) (fun i q =>
        if i =? pos then _ <-- hfor 0 (zlen l) (fun j => v <-- lift (oget l j) ;; h2_store t i j v) ;; hret q
        else _ <-- hfor 0 (zlen l) (fun j => v <-- h2_load o q j ;; h2_store t i j v) ;; lift (ladd q 1)) ;;
      hret tt) ;;
    h2_replace o t.
Definition h2_insert_col (c : cfg) (pos : Z) (l : list V) (o : hobj2) : hm hobj2 :=
  _ <-- lift (check_debug c (Ok ((0 <=? pos) && (pos <=? ocols o)))) ;;
  if (orows o =? 0) && (ocols o =? 0) && negb (zlen l =? 0) then
    t <-- h2_resize c (zlen l) 1 true o ;; _ <-- h_copyn (fun i => lift (oget l i)) (odat t) (zlen l) ;; hret t
  else
    _ <-- lift (check_debug c (Ok (zlen l =? orows o))) ;;
    nc <-- lift (ladd (ocols o) 1) ;;
    t <-- h2_build c (orows o) nc (fun t =>
      hfor 0 (zlen l) (fun i =>
        _ <-- hfor_count 0 (ocols t) (fun j q =>
          if j =? pos then v <-- lift (oget l i) ;; _ <-- h2_store t i j v ;; hret q
          else v <-- h2_load o i q ;; _ <-- h2_store t i j v ;; lift (ladd q 1)) ;;
        hret tt)) ;;
    h2_replace o t.

(** derived2D.hpp 61-75: operator()(i, j), reading and writing. *)
Definition h2_write (c : cfg) (ix jx : idx) (x : V) (o : hobj2) : hm unit :=
  i <-- lift (idx_get (orows o) ix) ;; j <-- lift (idx_get (ocols o) jx) ;;
  _ <-- lift (check_debug c (Ok (valid_index2 (orows o) (ocols o) i j))) ;; h2_store o i j x.
Definition h2_read (c : cfg) (ix jx : idx) (o : hobj2) : hm V :=
  i <-- lift (idx_get (orows o) ix) ;; j <-- lift (idx_get (ocols o) jx) ;;
  _ <-- lift (check_debug c (Ok (valid_index2 (orows o) (ocols o) i j))) ;; h2_load o i j.

(** The heap and the arrays of a program; the operations of Model/Store2D.v. *)
Definition hstate2 := (heap * list hobj2)%type.
Definition h2_push (s : hstate2) (m : hm hobj2) : res hstate2 V :=
  match m (fst s) with HOk t h => Next (h, snd s ++ [t]) Done | HFail f h => Next (h, snd s) (Failed f) | HUB => Crash end.
Definition h2_put (s : hstate2) (i : Z) (m : hm hobj2) : res hstate2 V :=
  match m (fst s) with HOk t h => Next (h, zupd (snd s) i t) Done | HFail f h => Next (h, snd s) (Failed f) | HUB => Crash end.
Definition h2_see {A} (s : hstate2) (ob : A -> obs V) (m : hm A) : res hstate2 V :=
  match m (fst s) with HOk v h => Next (h, snd s) (ob v) | HFail f h => Next (h, snd s) (Failed f) | HUB => Crash end.
Definition h2_done (s : hstate2) (m : hm unit) : res hstate2 V := h2_see s (fun _ => Done) m.
Definition h2_with (s : hstate2) (i : Z) (k : hobj2 -> res hstate2 V) : res hstate2 V :=
  match znth (snd s) i with Some o => k o | None => Next s Done end.
(** array_base2D.hpp 294-299: this->swap(A), then A.swap(ArrayBase2D{}) and the destructor of the temporary: the block that was this array's
    is freed, A is empty; A can be this array. *)
Definition h2_take (s : hstate2) (i j : Z) (a b : hobj2) : res hstate2 V :=
  match h_delete al (optr (odat a)) (fst s) with HOk _ h => Next (h, zupd (zupd (snd s) i b) j h2_empty) Done | _ => Crash end.

(** array_base2D.hpp 152-692. *)
Definition hstep2 (c : cfg) (s : hstate2) (o : op2 V) : res hstate2 V :=
  match o with
  | New2 m n => h2_push s (h2_new c m n)
  | NewFill2 m n x => h2_push s (h2_new_fill c m n x)
  | NewList2 L => h2_push s (h2_of_list c L)
  | NewCopy2 j => h2_with s j (fun b => h2_push s (h2_copy_of c b))
  | NewMove2 j => h2_with s j (fun b => Next (fst s, zupd (snd s) j h2_empty ++ [b]) Done)
  | SetAll2 i x => h2_with s i (fun a => h2_done s (h_fill x (odat a)))
  | AssignList2 i L => h2_with s i (fun a => h2_put s i (h2_assign_list c L a))
  | Assign2 i j => h2_with s i (fun a => h2_with s j (fun b => if i =? j then Next s Done else h2_done s (h2_assign_arr c b a)))
  | MoveAssign2 i j => h2_with s i (fun a => h2_with s j (fun b =>
      if i =? j then Next (fst s, zupd (snd s) i (mkobj2 0 0 (odat a))) Done else
      match h2_move_assign c a b (fst s) with
      | HOk a' h => Next (h, zupd (zupd (snd s) i a') j h2_empty) Done
      | HFail f h => Next (h, snd s) (Failed f)
      | HUB => Crash
      end))
  | Swap2 i j => h2_with s i (fun a => h2_with s j (fun b => Next (fst s, zupd (zupd (snd s) i b) j a) Done))
  | Resize2 i m n pr => h2_with s i (fun a => h2_put s i (h2_resize c m n pr a))
  | ResizeAssign2 i j => h2_with s i (fun a => h2_with s j (fun b => h2_put s i (h2_resize_and_assign_arr c b a)))
  | ResizeAssignMove2 i j => h2_with s i (fun a => h2_with s j (fun b => h2_take s i j a b))
  | RemoveRows i p k => h2_with s i (fun a => h2_put s i (h2_remove_rows c p k a))
  | RemoveCols i p k => h2_with s i (fun a => h2_put s i (h2_remove_cols c p k a))
  | RemoveRow i p => h2_with s i (fun a => h2_put s i (h2_remove_rows c p 1 a))
  | RemoveCol i p => h2_with s i (fun a => h2_put s i (h2_remove_cols c p 1 a))
  | RemoveRowLast i k => h2_with s i (fun a => h2_put s i (h2_remove_row_last c k a))
  | RemoveColLast i k => h2_with s i (fun a => h2_put s i (h2_remove_col_last c k a))
  | RemoveRowsFront i k => h2_with s i (fun a => h2_put s i (h2_remove_rows c 0 k a))
  | RemoveRowsBack i k => h2_with s i (fun a => h2_put s i (h2_remove_rows_back c k a))
  | RemoveColsFront i k => h2_with s i (fun a => h2_put s i (h2_remove_cols c 0 k a))
  | RemoveColsBack i k => h2_with s i (fun a => h2_put s i (h2_remove_cols_back c k a))
  | RemoveRowsIdx i v => h2_with s i (fun a => h2_put s i (h2_remove_rows_idx c v a))
  | RemoveColsIdx i v => h2_with s i (fun a => h2_put s i (h2_remove_cols_idx c v a))
  | InsertRows i p j => h2_with s i (fun a => h2_with s j (fun b =>
      h2_put s i (h2_insert_rows c (h2_resize_and_assign_arr c b a) p (orows b) (ocols b) (h2_load b) a)))
  | InsertCols i p j => h2_with s i (fun a => h2_with s j (fun b =>
      h2_put s i (h2_insert_cols c (h2_resize_and_assign_arr c b a) p (orows b) (ocols b) (h2_load b) a)))
  | InsertRowsFront i j => h2_with s i (fun a => h2_with s j (fun b =>
      h2_put s i (h2_insert_rows c (h2_resize_and_assign_arr c b a) 0 (orows b) (ocols b) (h2_load b) a)))
  | InsertRowsBack i j => h2_with s i (fun a => h2_with s j (fun b =>
      h2_put s i (h2_insert_rows c (h2_resize_and_assign_arr c b a) (orows a) (orows b) (ocols b) (h2_load b) a)))
  | InsertColsFront i j => h2_with s i (fun a => h2_with s j (fun b =>
      h2_put s i (h2_insert_cols c (h2_resize_and_assign_arr c b a) 0 (orows b) (ocols b) (h2_load b) a)))
  | InsertColsBack i j => h2_with s i (fun a => h2_with s j (fun b =>
      h2_put s i (h2_insert_cols c (h2_resize_and_assign_arr c b a) (ocols a) (orows b) (ocols b) (h2_load b) a)))
  | InsertRow i p l => h2_with s i (fun a => h2_put s i (h2_insert_row c p l a))
  | InsertCol i p l => h2_with s i (fun a => h2_put s i (h2_insert_col c p l a))
  | InsertRowFront i l => h2_with s i (fun a => h2_put s i (h2_insert_row c 0 l a))
  | InsertRowBack i l => h2_with s i (fun a => h2_put s i (h2_insert_row c (orows a) l a))
  | InsertColFront i l => h2_with s i (fun a => h2_put s i (h2_insert_col c 0 l a))
  | InsertColBack i l => h2_with s i (fun a => h2_put s i (h2_insert_col c (ocols a) l a))
  | Write2 i ix jx x => h2_with s i (fun a => h2_done s (h2_write c ix jx x a))
  | Read2 i ix jx => h2_with s i (fun a => h2_see s Value (h2_read c ix jx a))
  | Rows2 i => h2_with s i (fun a => Next s (Number (orows a)))
  | Cols2 i => h2_with s i (fun a => Next s (Number (ocols a)))
  | Size2 i => h2_with s i (fun a => Next s (Number (on (odat a))))
  end.
(** array_base2D.hpp 54: the defaulted destructor destroys data1D_; the arrays go out of scope. *)
Definition h2_close (l : list hobj2) : hm unit := h_close al (map odat l).
End Heap2.
