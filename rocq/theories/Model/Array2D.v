(** Owning two-dimensional arrays: array_base2D.hpp. *)
From Verif Require Import Base.Outcome Base.ZList Model.IntModel Model.ScalarOps Model.Index Model.Array1D.

(** array_base2D.hpp 147-148: dims_ (two longs) and data1D_. *)
Record arr2 (V : Type) := mkarr2 { drows : Z; dcols : Z; dat : arr V }.
Arguments mkarr2 {V} _ _ _.
Arguments drows {V} _.
Arguments dcols {V} _.
Arguments dat {V} _.

(** A read-only two-dimensional object (TwoDimBaseType): rows(), cols(), size(), un(i,j), un(i). *)
Record src2 (V : Type) := mksrc2 { s2rows : Z; s2cols : Z; s2size : Z; s2un : Z -> Z -> outcome V; s2lin : Z -> outcome V }.
Arguments mksrc2 {V} _ _ _ _ _.
Arguments s2rows {V} _.
Arguments s2cols {V} _.
Arguments s2size {V} _.
Arguments s2un {V} _ _ _.
Arguments s2lin {V} _ _.

(** ArrayCommon/valid.hpp 29-46. *)
Definition valid_row (rows i : Z) : bool := (-1 <? i) && (i <? rows).
Definition valid_col (cols j : Z) : bool := (-1 <? j) && (j <? cols).
Definition valid_index2 (rows cols i j : Z) : bool := valid_row rows i && valid_col cols j.
Definition semi_valid (m n : Z) : bool := negb (xorb (m =? 0) (n =? 0)).

Section Array2D.
Context {V : Type} (zero : V).
Implicit Types (a : arr2 V) (A : src2 V) (b : list V) (c : cfg).

(** array_base2D.hpp 681-692: un(i, j). *)
Definition un2 a (i j : Z) : outcome V :=
  p <- lmul i (dcols a) ;; q <- ladd p j ;; oget (buf (dat a)) q.
(** The same address in a buffer of rows of n elements, as an assignment target. *)
Definition set2 (n : Z) b (i j : Z) (v : V) : outcome (list V) :=
  p <- lmul i n ;; q <- ladd p j ;; oset b q v.
(** array_base2D.hpp 650-692. *)
Definition src_of_arr2 a : src2 V := mksrc2 (drows a) (dcols a) (an (dat a)) (un2 a) (oget (buf (dat a))).

(** array_base2D.hpp 34: default constructor (dims_ value-initialised, data1D_ empty). *)
Definition arr2_empty : arr2 V := mkarr2 0 0 arr_empty.

(** array_base2D.hpp 152-159: ArrayBase2D(m, n): the product is formed and allocated before the checks. *)
Definition arr2_new c (m n : Z) : outcome (arr2 V) :=
  p <- lmul m n ;; d <- arr_new zero c p ;;
  check_debug c (Ok (0 <=? m)) ;;; check_debug c (Ok (0 <=? n)) ;;; check_debug c (Ok (semi_valid m n)) ;;;
  Ok (mkarr2 m n d).
(** array_base2D.hpp 168-173. *)
Definition arr2_new_fill c (m n : Z) (x : V) : outcome (arr2 V) :=
  a <- arr2_new c m n ;; d <- arr_set_all x (dat a) ;; Ok (mkarr2 (drows a) (dcols a) d).

(** ArrayCommon/algorithm.hpp 48-58: copy of a nested initializer list. *)
Fixpoint copy_list_row (n r cc : Z) (l : list V) b : outcome (list V) :=
  match l with
  | [] => Ok b
  | x :: l' => b' <- set2 n b r cc x ;; copy_list_row n r (cc + 1) l' b'
  end.
Fixpoint copy_list2 (n r : Z) (L : list (list V)) b : outcome (list V) :=
  match L with
  | [] => Ok b
  | l :: L' => b' <- copy_list_row n r 0 l b ;; copy_list2 n (r + 1) L' b'
  end.
(** ArrayCommon/valid.hpp 49-72: valid_list2D. *)
Definition valid_list2 (L : list (list V)) : bool :=
  match L with
  | [] => true
  | r :: L' => if (zlen L =? 1) && (zlen r =? 0) then true
               else if zlen r =? 0 then false
               else forallb (fun q => zlen q =? zlen r) L
  end.
(** ArrayCommon/valid.hpp 75-89: list2D_row_col_sizes. *)
Definition list2_sizes (L : list (list V)) : Z * Z :=
  match L with
  | [] => (0, 0)
  | r :: L' => if (zlen L =? 1) && (zlen r =? 0) then (0, 0) else (zlen L, zlen r)
  end.
(** array_base2D.hpp 182-187: from a nested initializer list. *)
Definition arr2_of_list c (L : list (list V)) : outcome (arr2 V) :=
  let (m, n) := list2_sizes L in
  a <- arr2_new c m n ;; check_debug c (Ok (valid_list2 L)) ;;;
  b <- copy_list2 (dcols a) 0 L (buf (dat a)) ;; Ok (mkarr2 (drows a) (dcols a) (mkarr b (an (dat a)))).

(** ArrayCommon/algorithm.hpp 77-84: two-index copy. *)
Definition copy2 A (n : Z) b : outcome (list V) :=
  for_ 0 (s2rows A) (fun i b => for_ 0 (s2cols A) (fun j b => v <- s2un A i j ;; set2 n b i j v) b) b.
(** array_base2D.hpp 190-194: from a two-dimensional object (expression, slice). *)
Definition arr2_of_src c A : outcome (arr2 V) :=
  a <- arr2_new c (s2rows A) (s2cols A) ;;
  b <- copy2 A (dcols a) (buf (dat a)) ;; Ok (mkarr2 (drows a) (dcols a) (mkarr b (an (dat a)))).
(** ... and from an owning array, where overload algorithm.hpp 69-74 copies linearly. *)
Definition arr2_of_arr c a0 : outcome (arr2 V) :=
  a <- arr2_new c (drows a0) (dcols a0) ;;
  b <- copy (src_of_arr (dat a0)) (buf (dat a)) ;; Ok (mkarr2 (drows a) (dcols a) (mkarr b (an (dat a)))).
(** array_base2D.hpp 43: defaulted copy constructor (memberwise; array_base1D.hpp 195-199 for data1D_). *)
Definition arr2_copy c a0 : outcome (arr2 V) :=
  d <- arr_of_src zero c (src_of_arr (dat a0)) ;; Ok (mkarr2 (drows a0) (dcols a0) d).
(** array_base2D.hpp 44: defaulted move constructor: dims_ is copied and zeroed in the source
    (fixed_array_base1D.hpp 119-124), data1D_ is moved.  Returns (new array, source). *)
Definition arr2_move a : arr2 V * arr2 V := (a, arr2_empty).

(** array_base2D.hpp 237-241. *)
Definition arr2_swap a1 a2 : arr2 V * arr2 V := (a2, a1).
(** array_base2D.hpp 197-201. *)
Definition arr2_set_all (x : V) a : outcome (arr2 V) :=
  d <- arr_set_all x (dat a) ;; Ok (mkarr2 (drows a) (dcols a) d).

Definition same_size2 (m n m' n' : Z) : bool := (m =? m') && (n =? n').
(** array_base2D.hpp 220-226: operator=(&&): only the source's dims_ are written; result (this, source). *)
Definition arr2_move_assign c a s : outcome (arr2 V * arr2 V) :=
  noexcept (check_normal c (Ok (same_size2 (drows a) (dcols a) (drows s) (dcols s))) ;;;
            ' p <- arr_move_assign c (dat a) (dat s) ;;
            Ok (mkarr2 (drows a) (dcols a) (fst p), mkarr2 0 0 (snd p))).
(** ... with the array itself as source: A.dims_ = 0 zeroes its own dims_, data1D_ = move(data1D_) is guarded. *)
Definition arr2_move_assign_self a : arr2 V := mkarr2 0 0 (arr_move_assign_self (dat a)).
(** array_base2D.hpp 204-209: operator=(nested initializer list). *)
Definition arr2_assign_list c (L : list (list V)) a : outcome (arr2 V) :=
  tmp <- arr2_of_list c L ;;
  check_debug c (Ok (same_size2 (drows a) (dcols a) (drows tmp) (dcols tmp))) ;;;
  p <- arr2_move_assign c a tmp ;; Ok (fst p).
(** array_base2D.hpp 212-217: operator=(const ArrayBase2D&) from a different array. *)
Definition arr2_assign_arr c s a : mut (arr2 V) :=
  match check_debug c (Ok (same_size2 (drows a) (dcols a) (drows s) (dcols s))) with
  | Ok _ => mbind (arr_assign_arr c (dat s) (dat a)) (fun d => MOk (mkarr2 (drows a) (dcols a) d))
                  (fun d => mkarr2 (drows a) (dcols a) d)
  | Fail f => MFail f a
  | UB => MUB
  end.
(** array_base2D.hpp 229-234: operator=(TwoDimBaseType const&); [rd] is the source's un(i, j), which may read this array. *)
Definition arr2_assign_rd c (m n : Z) (rd : list V -> Z -> Z -> outcome V) a : mut (arr2 V) :=
  match check_debug c (Ok (same_size2 (drows a) (dcols a) m n)) with
  | Ok _ => mbind (mfor 0 m (fun i b => mfor 0 n (fun j b => commit b (v <- rd b i j ;; set2 (dcols a) b i j v)) b)
                     (buf (dat a)))
                  (fun b => MOk (mkarr2 (drows a) (dcols a) (mkarr b (an (dat a)))))
                  (fun b => mkarr2 (drows a) (dcols a) (mkarr b (an (dat a))))
  | Fail f => MFail f a
  | UB => MUB
  end.
Definition arr2_assign c A a : mut (arr2 V) := arr2_assign_rd c (s2rows A) (s2cols A) (fun _ => s2un A) a.

(** array_base2D.hpp 250-283: resize(m, n, preserve). *)
Definition arr2_resize c (m n : Z) (preserve : bool) a : outcome (arr2 V) :=
  check_debug c (Ok (0 <=? m)) ;;; check_debug c (Ok (0 <=? n)) ;;; check_debug c (Ok (semi_valid m n)) ;;;
  if preserve then
    if (m =? drows a) && (n =? dcols a) then Ok a
    else tmp <- arr2_new c m n ;;
         b <- for_ 0 (mins (drows a) m) (fun i b =>
                for_ 0 (mins (dcols a) n) (fun j b => v <- un2 a i j ;; set2 n b i j v) b) (buf (dat tmp)) ;;
         Ok (mkarr2 m n (mkarr b (an (dat tmp))))
  else
    if (m =? drows a) && (n =? dcols a) then Ok a
    else p <- lmul m n ;; q <- lmul (drows a) (dcols a) ;;
         if p =? q then Ok (mkarr2 m n (dat a)) else arr2_new c m n.

(** array_base2D.hpp 286-291 with an owning array / with an expression. *)
Definition arr2_resize_and_assign_arr c s : outcome (arr2 V) := arr2_of_arr c s.
Definition arr2_resize_and_assign c A : outcome (arr2 V) := arr2_of_src c A.
(** array_base2D.hpp 294-299: resize_and_assign(&&), from another array and from itself. *)
Definition arr2_resize_and_assign_move a s : arr2 V * arr2 V := (s, arr2_empty).
Definition arr2_resize_and_assign_move_self a : arr2 V := arr2_empty.

(** ArrayCommon/algorithm.hpp 105-146: copy_rows and copy_cols into a buffer of rows of n2 elements. *)
Definition copy_rows A (n2 : Z) (n : Z) b : outcome (list V) :=
  for_ 0 n (fun i b => for_ 0 (s2cols A) (fun j b => v <- s2un A i j ;; set2 n2 b i j v) b) b.
Definition copy_rows3 A (n2 start1 start2 n : Z) b : outcome (list V) :=
  for_ 0 n (fun i b => for_ 0 (s2cols A) (fun j b =>
    i1 <- ladd i start1 ;; v <- s2un A i1 j ;; i2 <- ladd i start2 ;; set2 n2 b i2 j v) b) b.
Definition copy_cols A (n2 : Z) (n : Z) b : outcome (list V) :=
  for_ 0 (s2rows A) (fun i b => for_ 0 n (fun j b => v <- s2un A i j ;; set2 n2 b i j v) b) b.
Definition copy_cols3 A (n2 start1 start2 n : Z) b : outcome (list V) :=
  for_ 0 (s2rows A) (fun i b => for_ 0 n (fun j b =>
    j1 <- ladd j start1 ;; v <- s2un A i j1 ;; j2 <- ladd j start2 ;; set2 n2 b i j2 v) b) b.

(** array_base2D.hpp 303-319: remove_rows(pos, count). *)
Definition arr2_remove_rows c (pos count : Z) a : outcome (arr2 V) :=
  check_debug c (Ok (0 <? count)) ;;;
  check_debug c (Ok (valid_row (drows a) pos)) ;;;
  check_debug c (s <- ladd pos count ;; e <- lsub s 1 ;; Ok (valid_row (drows a) e)) ;;;
  nr <- lsub (drows a) count ;;
  tmp <- arr2_new c nr (if nr =? 0 then 0 else dcols a) ;;
  b1 <- copy_rows (src_of_arr2 a) (dcols tmp) pos (buf (dat tmp)) ;;
  s <- ladd pos count ;; d <- lsub (drows a) pos ;; k <- lsub d count ;;
  b2 <- copy_rows3 (src_of_arr2 a) (dcols tmp) s pos k b1 ;;
  Ok (mkarr2 (drows tmp) (dcols tmp) (mkarr b2 (an (dat tmp)))).
(** array_base2D.hpp 328-344: remove_cols(pos, count). *)
Definition arr2_remove_cols c (pos count : Z) a : outcome (arr2 V) :=
  check_debug c (Ok (0 <? count)) ;;;
  check_debug c (Ok (valid_col (dcols a) pos)) ;;;
  check_debug c (s <- ladd pos count ;; e <- lsub s 1 ;; Ok (valid_col (dcols a) e)) ;;;
  nc <- lsub (dcols a) count ;;
  tmp <- arr2_new c (if nc =? 0 then 0 else drows a) nc ;;
  b1 <- copy_cols (src_of_arr2 a) (dcols tmp) pos (buf (dat tmp)) ;;
  s <- ladd pos count ;; d <- lsub (dcols a) pos ;; k <- lsub d count ;;
  b2 <- copy_cols3 (src_of_arr2 a) (dcols tmp) s pos k b1 ;;
  Ok (mkarr2 (drows tmp) (dcols tmp) (mkarr b2 (an (dat tmp)))).
(** array_base2D.hpp 353-356, 371-374. *)
Definition arr2_remove_row c (pos : Z) a : outcome (arr2 V) := arr2_remove_rows c pos 1 a.
Definition arr2_remove_col c (pos : Z) a : outcome (arr2 V) := arr2_remove_cols c pos 1 a.
(** array_base2D.hpp 365-368, 383-386: remove_row(Last), remove_col(Last): the offset k of [last - k] is not used. *)
Definition arr2_remove_row_last c (k : Z) a : outcome (arr2 V) := p <- lsub (drows a) 1 ;; arr2_remove_row c p a.
Definition arr2_remove_col_last c (k : Z) a : outcome (arr2 V) := p <- lsub (dcols a) 1 ;; arr2_remove_col c p a.
(** array_base2D.hpp 389-404, 413-428. *)
Definition arr2_remove_rows_front c (count : Z) a : outcome (arr2 V) := arr2_remove_rows c 0 count a.
Definition arr2_remove_rows_back c (count : Z) a : outcome (arr2 V) :=
  p <- lsub (drows a) count ;; arr2_remove_rows c p count a.
Definition arr2_remove_cols_front c (count : Z) a : outcome (arr2 V) := arr2_remove_cols c 0 count a.
Definition arr2_remove_cols_back c (count : Z) a : outcome (arr2 V) :=
  p <- lsub (dcols a) count ;; arr2_remove_cols c p count a.
(** array_base2D.hpp 437-454: remove_rows(indexes). *)
Definition arr2_remove_rows_idx c (v : list Z) a : outcome (arr2 V) :=
  match v with
  | [] => Ok a
  | _ => ci <- complement_index_vector c (drows a) v ;;
         tmp <- arr2_new c (zlen ci) (if zlen ci =? 0 then 0 else dcols a) ;;
         b <- for_ 0 (drows tmp) (fun i b => for_ 0 (dcols tmp) (fun j b =>
                p <- oget ci i ;; v <- un2 a p j ;; set2 (dcols tmp) b i j v) b) (buf (dat tmp)) ;;
         Ok (mkarr2 (drows tmp) (dcols tmp) (mkarr b (an (dat tmp))))
  end.
(** array_base2D.hpp 457-474: remove_cols(indexes). *)
Definition arr2_remove_cols_idx c (v : list Z) a : outcome (arr2 V) :=
  match v with
  | [] => Ok a
  | _ => ci <- complement_index_vector c (dcols a) v ;;
         tmp <- arr2_new c (if zlen ci =? 0 then 0 else drows a) (zlen ci) ;;
         b <- for_ 0 (drows tmp) (fun i b => for_ 0 (dcols tmp) (fun j b =>
                p <- oget ci j ;; v <- un2 a i p ;; set2 (dcols tmp) b i j v) b) (buf (dat tmp)) ;;
         Ok (mkarr2 (drows tmp) (dcols tmp) (mkarr b (an (dat tmp))))
  end.

(** array_base2D.hpp 478-494: insert_rows(pos, A); [fresh] is resize_and_assign(A) for the kind of A at hand. *)
Definition arr2_insert_rows_gen c (fresh : outcome (arr2 V)) (pos : Z) A a : outcome (arr2 V) :=
  check_debug c (Ok ((0 <=? pos) && (pos <=? drows a))) ;;;
  if (drows a =? 0) && (dcols a =? 0) then fresh
  else
    check_debug c (Ok (s2cols A =? dcols a)) ;;;
    nr <- ladd (drows a) (s2rows A) ;;
    tmp <- arr2_new c nr (dcols a) ;;
    b1 <- copy_rows (src_of_arr2 a) (dcols tmp) pos (buf (dat tmp)) ;;
    b2 <- copy_rows3 A (dcols tmp) 0 pos (s2rows A) b1 ;;
    p <- ladd pos (s2rows A) ;; k <- lsub (drows a) pos ;;
    b3 <- copy_rows3 (src_of_arr2 a) (dcols tmp) pos p k b2 ;;
    Ok (mkarr2 (drows tmp) (dcols tmp) (mkarr b3 (an (dat tmp)))).
(** array_base2D.hpp 515-531: insert_cols(pos, A). *)
Definition arr2_insert_cols_gen c (fresh : outcome (arr2 V)) (pos : Z) A a : outcome (arr2 V) :=
  check_debug c (Ok ((0 <=? pos) && (pos <=? dcols a))) ;;;
  if (drows a =? 0) && (dcols a =? 0) then fresh
  else
    check_debug c (Ok (s2rows A =? drows a)) ;;;
    nc <- ladd (dcols a) (s2cols A) ;;
    tmp <- arr2_new c (drows a) nc ;;
    b1 <- copy_cols (src_of_arr2 a) (dcols tmp) pos (buf (dat tmp)) ;;
    b2 <- copy_cols3 A (dcols tmp) 0 pos (s2cols A) b1 ;;
    p <- ladd pos (s2cols A) ;; k <- lsub (dcols a) pos ;;
    b3 <- copy_cols3 (src_of_arr2 a) (dcols tmp) pos p k b2 ;;
    Ok (mkarr2 (drows tmp) (dcols tmp) (mkarr b3 (an (dat tmp)))).
Definition arr2_insert_rows c pos A a := arr2_insert_rows_gen c (arr2_resize_and_assign c A) pos A a.
Definition arr2_insert_cols c pos A a := arr2_insert_cols_gen c (arr2_resize_and_assign c A) pos A a.
Definition arr2_insert_rows_arr c pos s a := arr2_insert_rows_gen c (arr2_resize_and_assign_arr c s) pos (src_of_arr2 s) a.
Definition arr2_insert_cols_arr c pos s a := arr2_insert_cols_gen c (arr2_resize_and_assign_arr c s) pos (src_of_arr2 s) a.

(** array_base2D.hpp 552-581: insert_row(pos, A). *)
Definition arr2_insert_row c (pos : Z) (A : src1 V) a : outcome (arr2 V) :=
  check_debug c (Ok ((0 <=? pos) && (pos <=? drows a))) ;;;
  if (drows a =? 0) && (dcols a =? 0) && negb (ssize A =? 0) then
    t <- arr2_resize c 1 (ssize A) true a ;;
    b <- copyn A (buf (dat t)) (ssize A) ;; Ok (mkarr2 (drows t) (dcols t) (mkarr b (an (dat t))))
  else
    check_debug c (Ok (ssize A =? dcols a)) ;;;
    nr <- ladd (drows a) 1 ;;
    tmp <- arr2_new c nr (dcols a) ;;
    s <- for_ 0 (drows tmp) (fun i s =>
           if i =? pos
           then b <- for_ 0 (ssize A) (fun j b => v <- sun A j ;; set2 (dcols tmp) b i j v) (fst s) ;; Ok (b, snd s)
           else b <- for_ 0 (ssize A) (fun j b => v <- un2 a (snd s) j ;; set2 (dcols tmp) b i j v) (fst s) ;;
                k <- ladd (snd s) 1 ;; Ok (b, k)) (buf (dat tmp), 0) ;;
    Ok (mkarr2 (drows tmp) (dcols tmp) (mkarr (fst s) (an (dat tmp)))).
(** array_base2D.hpp 602-628: insert_col(pos, A). *)
Definition arr2_insert_col c (pos : Z) (A : src1 V) a : outcome (arr2 V) :=
  check_debug c (Ok ((0 <=? pos) && (pos <=? dcols a))) ;;;
  if (drows a =? 0) && (dcols a =? 0) && negb (ssize A =? 0) then
    t <- arr2_resize c (ssize A) 1 true a ;;
    b <- copyn A (buf (dat t)) (ssize A) ;; Ok (mkarr2 (drows t) (dcols t) (mkarr b (an (dat t))))
  else
    check_debug c (Ok (ssize A =? drows a)) ;;;
    nc <- ladd (dcols a) 1 ;;
    tmp <- arr2_new c (drows a) nc ;;
    b <- for_ 0 (ssize A) (fun i b =>
           s <- for_ 0 (dcols tmp) (fun j s =>
                  if j =? pos
                  then v <- sun A i ;; b <- set2 (dcols tmp) (fst s) i j v ;; Ok (b, snd s)
                  else v <- un2 a i (snd s) ;; b <- set2 (dcols tmp) (fst s) i j v ;; k <- ladd (snd s) 1 ;; Ok (b, k)) (b, 0) ;;
           Ok (fst s)) (buf (dat tmp)) ;;
    Ok (mkarr2 (drows tmp) (dcols tmp) (mkarr b (an (dat tmp)))).

(** derived2D.hpp 61-75 operator()(i, j): indexes may be relative to [last]; reading and writing. *)
Definition sub2 c A (ix jx : idx) : outcome V :=
  i <- idx_get (s2rows A) ix ;; j <- idx_get (s2cols A) jx ;;
  check_debug c (Ok (valid_index2 (s2rows A) (s2cols A) i j)) ;;; s2un A i j.
(** derived2D.hpp 97-111 at(i, j). *)
Definition at2 c A (ix jx : idx) : outcome V :=
  i <- idx_get (s2rows A) ix ;; j <- idx_get (s2cols A) jx ;;
  check_always c (valid_index2 (s2rows A) (s2cols A) i j) ;;; s2un A i j.
Definition arr2_write c (ix jx : idx) (x : V) a : outcome (arr2 V) :=
  i <- idx_get (drows a) ix ;; j <- idx_get (dcols a) jx ;;
  check_debug c (Ok (valid_index2 (drows a) (dcols a) i j)) ;;;
  b <- set2 (dcols a) (buf (dat a)) i j x ;; Ok (mkarr2 (drows a) (dcols a) (mkarr b (an (dat a)))).
End Array2D.
