(** Owning one-dimensional arrays: array_base1D.hpp. *)
From Verif Require Import Base.Outcome Base.ZList Model.IntModel Model.ScalarOps Model.Index.

(** array_base1D.hpp 125-126: data_ (the elements owned, [] for nullptr) and n_. *)
Record arr (V : Type) := mkarr { buf : list V; an : Z }.
Arguments mkarr {V} _ _.
Arguments buf {V} _.
Arguments an {V} _.

Section Array1D.
Context {V : Type} (zero : V).  (* zero: value-initialised element, strict_val.hpp 269 (T val_{}) *)
Implicit Types (a : arr V) (A : src1 V) (b : list V) (c : cfg).

(** array_base1D.hpp 464-480: size() and un(). *)
Definition src_of_arr a : src1 V := mksrc1 (an a) (oget (buf a)).
Definition src_of_list (l : list V) : src1 V := mksrc1 (zlen l) (oget l).

(** new value_type[n]: n = 0 is skipped by the callers; negative n converts to a huge size_t. *)
Definition alloc c (n : Z) : outcome (list V) :=
  if (n <? 0) || (amax c <? n) then Fail BadAlloc else Ok (repeat zero (Z.to_nat n)).

(** array_base1D.hpp 130-133. *)
Definition arr_empty : arr V := mkarr [] 0.

(** array_base1D.hpp 136-157: ArrayBase1D(n) (aligned and unaligned). *)
Definition arr_new c (n : Z) : outcome (arr V) :=
  check_debug c (Ok (-1 <? n)) ;;;
  if n =? 0 then Ok (mkarr [] n) else b <- alloc c n ;; Ok (mkarr b n).

(** ArrayCommon/algorithm.hpp 149-154: fill. *)
Definition fill (x : V) (n : Z) b : outcome (list V) := for_ 0 n (fun i b => oset b i x) b.
(** ArrayCommon/algorithm.hpp 61-66: copy(A1, A2) into a distinct buffer. *)
Definition copy A b : outcome (list V) := for_ 0 (ssize A) (fun i b => v <- sun A i ;; oset b i v) b.
(** ArrayCommon/algorithm.hpp 87-93: copyn(A1, A2, n). *)
Definition copyn A b (n : Z) : outcome (list V) := for_ 0 n (fun i b => v <- sun A i ;; oset b i v) b.
(** ArrayCommon/algorithm.hpp 96-102: copyn(A1, A2, start1, start2, n). *)
Definition copyn3 A b (start1 start2 n : Z) : outcome (list V) :=
  for_ 0 n (fun i b => j1 <- ladd start1 i ;; v <- sun A j1 ;; j2 <- ladd start2 i ;; oset b j2 v) b.

(** array_base1D.hpp 165-169: ArrayBase1D(n, x). *)
Definition arr_new_fill c (n : Z) (x : V) : outcome (arr V) :=
  a <- arr_new c n ;; b <- fill x (an a) (buf a) ;; Ok (mkarr b (an a)).
(** array_base1D.hpp 178-182: from an initializer list (algorithm.hpp 34-45 copies all its elements);
    195-199 copy constructor and 209-213 from any one-dimensional object. *)
Definition arr_of_src c A : outcome (arr V) :=
  a <- arr_new c (ssize A) ;; b <- copy A (buf a) ;; Ok (mkarr b (an a)).
Definition arr_of_list c (l : list V) : outcome (arr V) := arr_of_src c (src_of_list l).

(** array_base1D.hpp 185-192: from an iterator pair [b, e) into a sequence [l] (positions pb, pe; Strict{e - b} is
    the signed distance).  The copy loop runs [while b != e]; with pe < pb (check disabled) it runs past the end. *)
Definition arr_of_iter c (l : list V) (pb pe : Z) : outcome (arr V) :=
  d <- lsub pe pb ;; n <- abss I64 d ;; a <- arr_new c n ;;
  check_debug c (Ok (pb <=? pe)) ;;;
  if pe <? pb then UB else
  b <- for_ pb pe (fun p b => v <- oget l p ;; oset b (p - pb) v) (buf a) ;; Ok (mkarr b (an a)).

(** array_base1D.hpp 202-206: move constructor; returns (new array, moved-from array). *)
Definition arr_move a : arr V * arr V := (a, arr_empty).

(** array_base1D.hpp 276-286: swap. *)
Definition arr_swap a1 a2 : arr V * arr V := (a2, a1).

(** array_base1D.hpp 216-220: operator=(x). *)
Definition arr_set_all (x : V) a : outcome (arr V) := b <- fill x (an a) (buf a) ;; Ok (mkarr b (an a)).

(** In-place element-wise assignment [un(i) = rd(i)] for i = 0..n-1, where reading may depend on the elements already
    overwritten (aliasing) and may fail midway (algorithm.hpp 61-66 with the destination an owning array). *)
Definition assign_loop (n : Z) (rd : list V -> Z -> outcome V) b : mut (list V) :=
  mfor 0 n (fun i b => commit b (v <- rd b i ;; oset b i v)) b.
Definition with_buf a (m : mut (list V)) : mut (arr V) :=
  mbind m (fun b => MOk (mkarr b (an a))) (fun b => mkarr b (an a)).

(** array_base1D.hpp 252-257: operator=(OneDimBaseType const&); [rd] is the source's un (it may read this array). *)
Definition arr_assign_rd c (size : Z) (rd : list V -> Z -> outcome V) a : mut (arr V) :=
  match check_debug c (Ok (an a =? size)) with
  | Ok _ => with_buf a (assign_loop size rd (buf a))
  | Fail f => MFail f a
  | UB => MUB
  end.
Definition arr_assign c A a : mut (arr V) := arr_assign_rd c (ssize A) (fun _ => sun A) a.
(** array_base1D.hpp 223-228: operator=(initializer list). *)
Definition arr_assign_list c (l : list V) a : mut (arr V) := arr_assign c (src_of_list l) a.
(** array_base1D.hpp 231-238: operator=(const ArrayBase1D&) from a different object (self-assignment is a no-op). *)
Definition arr_assign_arr c a2 a : mut (arr V) := arr_assign c (src_of_arr a2) a.

(** array_base1D.hpp 241-249: operator=(ArrayBase1D&&) from a different object; result: (this, source). *)
Definition arr_move_assign c a asrc : outcome (arr V * arr V) :=
  noexcept (check_normal c (Ok (an a =? an asrc)) ;;; Ok (asrc, arr_empty)).
(** ... and from itself: guarded by this != &A. *)
Definition arr_move_assign_self a : arr V := a.

(** array_base1D.hpp 289-301: resize(n, preserve). *)
Definition arr_resize c (n : Z) (preserve : bool) a : outcome (arr V) :=
  check_debug c (Ok (-1 <? n)) ;;;
  if n =? an a then Ok a
  else tmp <- arr_new c n ;;
       if preserve then b <- copyn (src_of_arr a) (buf tmp) (mins (an a) n) ;; Ok (mkarr b (an tmp))
       else Ok tmp.

(** array_base1D.hpp 304-308: resize_and_assign(A). *)
Definition arr_resize_and_assign c A : outcome (arr V) := arr_of_src c A.
(** array_base1D.hpp 312-317: resize_and_assign(A&&): swap, then the source is emptied; (this, source). *)
Definition arr_resize_and_assign_move a asrc : arr V * arr V := (asrc, arr_empty).
(** the same with the array itself as argument: swap(self) is a no-op, then A.swap(ArrayBase1D{}) empties it. *)
Definition arr_resize_and_assign_move_self a : arr V := arr_empty.

(** array_base1D.hpp 321-332: remove(pos, count). *)
Definition arr_remove c (pos count : Z) a : outcome (arr V) :=
  check_debug c (Ok (0 <? count)) ;;;
  check_debug c (Ok (valid_index (an a) pos)) ;;;
  check_debug c (s <- ladd pos count ;; e <- lsub s 1 ;; Ok (valid_index (an a) e)) ;;;
  m <- lsub (an a) count ;;
  tmp <- arr_new c m ;;
  b1 <- copyn (src_of_arr a) (buf tmp) pos ;;
  s <- ladd pos count ;;
  d <- lsub (an a) pos ;; k <- lsub d count ;;
  b2 <- copyn3 (src_of_arr a) b1 s pos k ;;
  Ok (mkarr b2 (an tmp)).
(** array_base1D.hpp 341-344, 353-356, 365-368: remove_front, remove_back, remove(Last). *)
Definition arr_remove_front c (count : Z) a : outcome (arr V) := arr_remove c 0 count a.
Definition arr_remove_back c (count : Z) a : outcome (arr V) := p <- lsub (an a) count ;; arr_remove c p count a.
Definition arr_remove_last c (k : Z) a : outcome (arr V) :=
  s <- lsub (an a) 1 ;; p <- lsub s k ;; arr_remove c p 1 a.
(** array_base1D.hpp 335-338, 347-350, 359-362: the Pos/Count overloads (argument constructors check non-negativity). *)
Definition arr_remove_pc c (pos count : Z) a : outcome (arr V) :=
  p <- nonneg_arg c pos ;; k <- nonneg_arg c count ;; arr_remove c p k a.

(** array_base1D.hpp 371-385: remove(indexes). *)
Definition arr_remove_indexes c (v : list Z) a : outcome (arr V) :=
  match v with
  | [] => Ok a
  | _ => ci <- complement_index_vector c (an a) v ;;
         tmp <- arr_new c (zlen ci) ;;
         b <- for_ 0 (an tmp) (fun i b => j <- oget ci i ;; v <- oget (buf a) j ;; oset b i v) (buf tmp) ;;
         Ok (mkarr b (an tmp))
  end.

(** array_base1D.hpp 389-399: insert(pos, x). *)
Definition arr_insert c (pos : Z) (x : V) a : outcome (arr V) :=
  check_debug c (Ok ((0 <=? pos) && (pos <=? an a))) ;;;
  m <- ladd (an a) 1 ;;
  tmp <- arr_new c m ;;
  b1 <- copyn (src_of_arr a) (buf tmp) pos ;;
  b2 <- oset b1 pos x ;;
  p1 <- ladd pos 1 ;; k <- lsub (an a) pos ;;
  b3 <- copyn3 (src_of_arr a) b2 pos p1 k ;;
  Ok (mkarr b3 (an tmp)).
(** array_base1D.hpp 408-429: insert_front(x), insert_back(x). *)
Definition arr_insert_front c (x : V) a : outcome (arr V) := arr_insert c 0 x a.
Definition arr_insert_back c (x : V) a : outcome (arr V) := arr_insert c (an a) x a.

(** array_base1D.hpp 432-442: insert(pos, A). *)
Definition arr_insert_arr c (pos : Z) A a : outcome (arr V) :=
  check_debug c (Ok ((0 <=? pos) && (pos <=? an a))) ;;;
  m <- ladd (an a) (ssize A) ;;
  tmp <- arr_new c m ;;
  b1 <- copyn (src_of_arr a) (buf tmp) pos ;;
  b2 <- copyn3 A b1 0 pos (ssize A) ;;
  p1 <- ladd pos (ssize A) ;; k <- lsub (an a) pos ;;
  b3 <- copyn3 (src_of_arr a) b2 pos p1 k ;;
  Ok (mkarr b3 (an tmp)).
(** array_base1D.hpp 451-460: insert_front(A), insert_back(A). *)
Definition arr_insert_front_arr c A a : outcome (arr V) := arr_insert_arr c 0 A a.
Definition arr_insert_back_arr c A a : outcome (arr V) := arr_insert_arr c (an a) A a.

(** derived1D.hpp 56-62 operator[] (non-const) used as an assignment target: A[ix] = x. *)
Definition arr_write c (ix : idx) (x : V) a : outcome (arr V) :=
  i <- idx_get (an a) ix ;; check_debug c (Ok (valid_index (an a) i)) ;;;
  b <- oset (buf a) i x ;; Ok (mkarr b (an a)).
End Array1D.
