(** Views of one- and two-dimensional arrays, nested to any depth: slicearray_base1D.hpp, slicearray_base2D.hpp, attach2D.hpp and
    the view functions of derived1D.hpp and derived2D.hpp.  A view is modelled by the position in the owning array's storage of
    each of its elements. *)
From Verif Require Import Base.Outcome Base.ZList Model.IntModel Model.ScalarOps Model.Index Model.Slice Model.Array1D Model.Array2D.

Inductive obj :=
| O1 (n : Z)                     (* owning one-dimensional array of n elements *)
| O2 (m n k : Z)                 (* owning two-dimensional array: dims_ m, n and k stored elements *)
| OS1 (o : obj) (r : rslice)     (* SliceArrayBase1D over a one- or two-dimensional object: slicearray_base1D.hpp 40-180 *)
| OS2 (o : obj) (r1 r2 : rslice) (* SliceArrayBase2D: slicearray_base2D.hpp 20-240 *)
| OC2 (o : obj) (m n : Z).       (* strict_convert_slice2D / const_strict_convert_slice2D: attach2D.hpp 112-212 *)

Definition obj_of_arr2 {V} (a : arr2 V) : obj := O2 (drows a) (dcols a) (an (dat a)).

(** rows() and cols(): array_base2D.hpp 650-659, slicearray_base2D.hpp 157-166, attach2D.hpp 152-158.  One-dimensional objects
    have neither; 0 is never used for them. *)
Definition o_rows (o : obj) : Z := match o with O2 m _ _ => m | OS2 _ r1 _ => rsize r1 | OC2 _ m _ => m | _ => 0 end.
Definition o_cols (o : obj) : Z := match o with O2 _ n _ => n | OS2 _ _ r2 => rsize r2 | OC2 _ _ n => n | _ => 0 end.
(** size(): array_base1D.hpp, array_base2D.hpp 662-665, slicearray_base1D.hpp 128-131, slicearray_base2D.hpp 169-172,
    attach2D.hpp 160-162. *)
Definition o_size (o : obj) : outcome Z :=
  match o with
  | O1 n => Ok n | O2 _ _ k => Ok k | OS1 _ r => Ok (rsize r) | OS2 _ r1 r2 => lmul (rsize r1) (rsize r2) | OC2 _ m n => lmul m n
  end.
Definition is_two (o : obj) : bool := match o with O1 _ | OS1 _ _ => false | _ => true end.

(** un(i, j): array_base2D.hpp 681-692, slicearray_base2D.hpp 123-136, attach2D.hpp 144-150.
    un(i): array_base1D.hpp, array_base2D.hpp 668-678, slicearray_base1D.hpp 96-107, slicearray_base2D.hpp 107-120,
    attach2D.hpp 136-142.  One-dimensional objects have no un(i, j): UB stands for a program that does not compile. *)
Fixpoint o_lin (c : cfg) (o : obj) (i : Z) : outcome Z :=
  match o with
  | O1 _ => Ok i
  | O2 _ _ _ => Ok i
  | OS1 o' r => j <- rmap r i ;; o_lin c o' j
  | OS2 o' r1 r2 => ' rc <- index_map_one_to_two c (rsize r2) i ;; p <- rmap r1 (fst rc) ;; q <- rmap r2 (snd rc) ;; o_at c o' p q
  | OC2 o' _ _ => o_lin c o' i
  end
with o_at (c : cfg) (o : obj) (i j : Z) : outcome Z :=
  match o with
  | O2 _ n _ => p <- lmul i n ;; ladd p j
  | OS2 o' r1 r2 => p <- rmap r1 i ;; q <- rmap r2 j ;; o_at c o' p q
  | OC2 o' _ n => p <- lmul i n ;; k <- ladd p j ;; o_lin c o' k
  | _ => UB
  end.

(** derived1D.hpp 177-193: operator()(slice) of a one-dimensional object. *)
Definition o_slice1 (c : cfg) (o : obj) (s : slice) : outcome obj :=
  n <- o_size o ;; r <- slice_resolve c n (n =? 0) s ;; check_debug c (rvalid n r) ;;; Ok (OS1 o r).
(** slice.hpp 633-642: default_wrapper. *)
Definition default_like (r : rslice) : rslice := match r with RSeq _ => RSeq (mkseqn 0 0 1) | RVec _ => RVec [] end.
(** slicearray_base2D.hpp 52-65: the constructor, which empties one slice when the other is empty. *)
Definition o_make2 (c : cfg) (o : obj) (r1 r2 : rslice) : outcome obj :=
  check_debug c (rvalid (o_rows o) r1) ;;; check_debug c (rvalid (o_cols o) r2) ;;;
  Ok (if rsize r1 =? 0 then OS2 o r1 (default_like r2)
      else if rsize r2 =? 0 then OS2 o (default_like r1) r2 else OS2 o r1 r2).
(** Checks made when the slice argument itself is constructed (slice.hpp 19-26, 82-92, 147-150, 166-168, 183-185): both
    arguments of a two-dimensional slice exist before either is resolved. *)
Definition slice_ctor (c : cfg) (s : slice) : outcome unit :=
  match s with
  | SeqN start size _ => check_debug c (Ok (-1 <? start)) ;;; check_debug c (Ok (-1 <? size))
  | Seq first last stride =>
      check_debug c (Ok (-1 <? first)) ;;; check_debug c (Ok (-1 <? last)) ;;; check_debug c (Ok (seq_cond first last stride))
  | SkipN k => check_debug c (Ok (0 <? k))
  | FirstN m | LastN m => check_debug c (Ok (-1 <? m))
  | _ => Ok tt
  end.
(** derived2D.hpp 364-395: operator()(slice, slice); slice_row_col_helper, slice.hpp 537-542; empty() is size() == 0. *)
Definition o_resolve2 (c : cfg) (o : obj) (s1 s2 : slice) : outcome (rslice * rslice) :=
  k <- o_size o ;;
  r1 <- slice_resolve c (o_rows o) (k =? 0) s1 ;; r2 <- slice_resolve c (o_cols o) (k =? 0) s2 ;; Ok (r1, r2).
Definition o_slice2 (c : cfg) (o : obj) (s1 s2 : slice) : outcome obj :=
  slice_ctor c s1 ;;; slice_ctor c s2 ;;;
  ' r <- o_resolve2 c o s1 s2 ;; o_make2 c o (fst r) (snd r).
(** A resolved slice is again a slice argument. *)
Definition as_slice (r : rslice) : slice := match r with RSeq q => SeqN (qstart q) (qsize q) (qstride q) | RVec v => Vec v end.
(** derived2D.hpp 397-417: rows(slice), cols(slice), which resolve and then call operator() with the resolved slices. *)
Definition o_rows_slice (c : cfg) (o : obj) (s : slice) : outcome obj :=
  slice_ctor c s ;;; ' r <- o_resolve2 c o s All ;; o_slice2 c o (as_slice (fst r)) (as_slice (snd r)).
Definition o_cols_slice (c : cfg) (o : obj) (s : slice) : outcome obj :=
  slice_ctor c s ;;; ' r <- o_resolve2 c o All s ;; o_slice2 c o (as_slice (fst r)) (as_slice (snd r)).

(** derived2D.hpp 241-252: view1D(). *)
Definition o_view1 (c : cfg) (o : obj) : outcome obj :=
  k <- o_size o ;; q <- make_seqn c 0 k 1 ;; check_debug c (seqn_valid k q) ;;; Ok (OS1 o (RSeq q)).
(** derived2D.hpp 214-221: row(i). *)
Definition o_row (c : cfg) (o : obj) (ix : idx) : outcome obj :=
  i <- idx_get (o_rows o) ix ;; check_debug c (Ok (valid_row (o_rows o) i)) ;;;
  f <- lmul i (o_cols o) ;; v <- o_view1 c o ;; t <- ladd f (o_cols o) ;; l <- lsub t 1 ;; o_slice1 c v (Seq f l 1).
(** derived2D.hpp 223-231: col(j). *)
Definition o_col (c : cfg) (o : obj) (jx : idx) : outcome obj :=
  j <- idx_get (o_cols o) jx ;; check_debug c (Ok (valid_col (o_cols o) j)) ;;;
  r <- lsub (o_rows o) 1 ;; d <- lmul r (o_cols o) ;; l <- ladd j d ;; v <- o_view1 c o ;; o_slice1 c v (Seq j l (o_cols o)).
(** derived2D.hpp 233-235: diag(). *)
Definition o_diag0 (c : cfg) (o : obj) : outcome obj :=
  v <- o_view1 c o ;; s <- ladd (o_cols o) 1 ;; o_slice1 c v (SeqN 0 (mins (o_rows o) (o_cols o)) s).
(** derived2D.hpp 237-239, 634-644: diag(i); abss(i) of LONG_MIN overflows. *)
Definition labs (i : Z) : outcome Z := if i <? 0 then lret (- i) else Ok i.
Definition o_diag (c : cfg) (o : obj) (i : Z) : outcome obj :=
  v <- o_view1 c o ;;
  if 0 <=? i then
    check_debug c (Ok (i <? o_cols o)) ;;;
    d <- lsub (o_cols o) i ;; s <- ladd (o_cols o) 1 ;; o_slice1 c v (SeqN i (mins (o_rows o) d) s)
  else
    check_debug c (a <- labs i ;; Ok (a <? o_rows o)) ;;;
    a <- labs i ;; f <- lmul a (o_cols o) ;; d <- lsub (o_rows o) a ;; s <- ladd (o_cols o) 1 ;;
    o_slice1 c v (SeqN f (mins d (o_cols o)) s).
(** derived2D.hpp 419-425: block(first_row, first_col, last_row, last_col). *)
Definition o_block (c : cfg) (o : obj) (ix1 jx1 ix2 jx2 : idx) : outcome obj :=
  i1 <- idx_get (o_rows o) ix1 ;; j1 <- idx_get (o_cols o) jx1 ;;
  i2 <- idx_get (o_rows o) ix2 ;; j2 <- idx_get (o_cols o) jx2 ;; o_slice2 c o (Seq i1 i2 1) (Seq j1 j2 1).
(** derived2D.hpp 427-432: blockN(first_row, first_col, nrows, ncols). *)
Definition o_blockN (c : cfg) (o : obj) (ix jx : idx) (nr nc : Z) : outcome obj :=
  i <- idx_get (o_rows o) ix ;; j <- idx_get (o_cols o) jx ;; o_slice2 c o (SeqN i nr 1) (SeqN j nc 1).
(** attach2D.hpp 215-289: view2D(m, n) of a one- or two-dimensional object, through convert2D. *)
Definition o_view2 (c : cfg) (o : obj) (m n : Z) : outcome obj :=
  k <- o_size o ;; p <- lmul m n ;; check_always c (p =? k) ;;;
  q1 <- make_seqn c 0 m 1 ;; q2 <- make_seqn c 0 n 1 ;; o_make2 c (OC2 o m n) (RSeq q1) (RSeq q2).

(** The view functions as operations, to be chained: A.row(i)(slice).view2D(m, n)... *)
Inductive vop :=
| VwSlice (s : slice) | VwSlice2 (s1 s2 : slice) | VwRows (s : slice) | VwCols (s : slice) | VwRow (ix : idx) | VwCol (jx : idx)
| VwDiag0 | VwDiag (i : Z) | VwBlock (ix1 jx1 ix2 jx2 : idx) | VwBlockN (ix jx : idx) (nr nc : Z) | VwView1 | VwView2 (m n : Z).
(** Which of them exist on an object is a matter of typing: UB stands for a program that does not compile. *)
Definition o_apply (c : cfg) (o : obj) (w : vop) : outcome obj :=
  match w, is_two o with
  | VwView2 m n, _ => o_view2 c o m n
  | VwSlice s, false => o_slice1 c o s
  | VwView1, false => o_slice1 c o All                     (* derived1D.hpp 195: view1D() *)
  | VwSlice2 s1 s2, true => o_slice2 c o s1 s2
  | VwRows s, true => o_rows_slice c o s
  | VwCols s, true => o_cols_slice c o s
  | VwRow ix, true => o_row c o ix
  | VwCol jx, true => o_col c o jx
  | VwDiag0, true => o_diag0 c o
  | VwDiag i, true => o_diag c o i
  | VwBlock i1 j1 i2 j2, true => o_block c o i1 j1 i2 j2
  | VwBlockN i j nr nc, true => o_blockN c o i j nr nc
  | VwView1, true => o_view1 c o
  | _, _ => UB
  end.
Fixpoint o_chain (c : cfg) (o : obj) (ws : list vop) : outcome obj :=
  match ws with
  | [] => Ok o
  | w :: ws' => o' <- o_apply c o w ;; o_chain c o' ws'
  end.

(** Reading and writing element (i, j) or i of a view of the storage b, with and without the debug check
    (derived1D.hpp 56-92, derived2D.hpp 61-111). *)
Definition o_get {V} (c : cfg) (o : obj) (b : list V) (i : Z) : outcome V := p <- o_lin c o i ;; oget b p.
Definition o_get2 {V} (c : cfg) (o : obj) (b : list V) (i j : Z) : outcome V := p <- o_at c o i j ;; oget b p.
Definition o_set {V} (c : cfg) (o : obj) (b : list V) (i : Z) (x : V) : outcome (list V) := p <- o_lin c o i ;; oset b p x.
Definition o_set2 {V} (c : cfg) (o : obj) (b : list V) (i j : Z) (x : V) : outcome (list V) := p <- o_at c o i j ;; oset b p x.
Definition o_sub1 {V} (c : cfg) (o : obj) (b : list V) (ix : idx) : outcome V :=
  n <- o_size o ;; i <- idx_get n ix ;; check_debug c (Ok (valid_index n i)) ;;; o_get c o b i.
Definition o_sub2 {V} (c : cfg) (o : obj) (b : list V) (ix jx : idx) : outcome V :=
  i <- idx_get (o_rows o) ix ;; j <- idx_get (o_cols o) jx ;;
  check_debug c (Ok (Array2D.valid_index2 (o_rows o) (o_cols o) i j)) ;;; o_get2 c o b i j.
(** The element that operator[], operator() and at() refer to, as a storage position; reading or writing through the
    reference touches that position (derived1D.hpp 56-92, derived2D.hpp 61-111).  Simplified: a C++ reference is a
    position of the storage of the root array. *)
Definition o_ref1 (c : cfg) (o : obj) (ix : idx) : outcome Z :=
  n <- o_size o ;; i <- idx_get n ix ;; check_debug c (Ok (valid_index n i)) ;;; o_lin c o i.
Definition o_at1 (c : cfg) (o : obj) (ix : idx) : outcome Z :=
  n <- o_size o ;; i <- idx_get n ix ;; check_always c (valid_index n i) ;;; o_lin c o i.
Definition o_ref2 (c : cfg) (o : obj) (ix jx : idx) : outcome Z :=
  i <- idx_get (o_rows o) ix ;; j <- idx_get (o_cols o) jx ;;
  check_debug c (Ok (Array2D.valid_index2 (o_rows o) (o_cols o) i j)) ;;; o_at c o i j.
Definition o_at2 (c : cfg) (o : obj) (ix jx : idx) : outcome Z :=
  i <- idx_get (o_rows o) ix ;; j <- idx_get (o_cols o) jx ;;
  check_always c (Array2D.valid_index2 (o_rows o) (o_cols o) i j) ;;; o_at c o i j.
(** A view as a source for expressions and assignments. *)
Definition o_src1 {V} (c : cfg) (o : obj) (b : list V) : outcome (src1 V) := n <- o_size o ;; Ok (mksrc1 n (o_get c o b)).
Definition o_src2 {V} (c : cfg) (o : obj) (b : list V) : outcome (src2 V) :=
  n <- o_size o ;; Ok (mksrc2 (o_rows o) (o_cols o) n (o_get2 c o b) (o_get c o b)).
