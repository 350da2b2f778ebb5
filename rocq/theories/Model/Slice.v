(** Slices: slice.hpp, and one-dimensional slice arrays: slicearray_base1D.hpp. *)
From Verif Require Import Base.Outcome Base.ZList Model.Index.

(** Slice arguments as written by the user; [stride] defaults to 1 in the code. *)
Inductive slice :=
| SeqN (start size stride : Z)      (* seqN{start, size, stride}: slice.hpp 15-76 *)
| Seq (first last stride : Z)       (* seq{first, last, stride}: 80-139 *)
| All | Even | Odd | Reverse        (* place::all, even, odd, reverse *)
| SkipN (stride : Z)                (* place::skipN: 145-161 *)
| FirstN (n : Z) | LastN (n : Z)    (* place::firstN, lastN: 164-197 *)
| Vec (v : list Z)                  (* std::vector<ImplicitInt> or an index list *)
| Compl (v : list Z).               (* place::complement: 200-216 *)

(** slice.hpp 19-26: constructor of seqN with its two checks. *)
Record seqn := mkseqn { qstart : Z; qsize : Z; qstride : Z }.
Definition make_seqn (c : cfg) (start size stride : Z) : outcome seqn :=
  check_debug c (Ok (-1 <? start)) ;;; check_debug c (Ok (-1 <? size)) ;;; Ok (mkseqn start size stride).

(** slice.hpp 45-70: seqN::valid / valid_first / valid_second against a size. *)
Definition seqn_valid (n : Z) (s : seqn) : outcome bool :=
  if qsize s =? 0 then Ok true
  else oand (Ok (valid_index n (qstart s)))
            (k <- lsub (qsize s) 1 ;; d <- lmul (qstride s) k ;; e <- ladd (qstart s) d ;; Ok (valid_index n e)).

(** slice.hpp 82-92: the seq constructor's condition on stride, first and last. *)
Definition seq_cond (first last stride : Z) : bool :=
  ((0 <? stride) && (first <=? last)) || ((stride <? 0) && (last <=? first)) || ((stride =? 0) && (first =? last)).
(** slice.hpp 120-133: seq::valid / valid_first / valid_second. *)
Definition seq_valid (n first last : Z) : bool := valid_index n first && valid_index n last.
(** slice.hpp 98-105: seq::to_slice. *)
Definition seq_to_slice (c : cfg) (first last stride : Z) : outcome seqn :=
  if stride =? 0 then make_seqn c first 1 0
  else d <- lsub last first ;; q <- ldiv c d stride ;; k <- ladd q 1 ;; make_seqn c first k stride.

(** Resolved slices: what SliceWrapper::get returns (slice.hpp 244-520). *)
Inductive rslice := RSeq (s : seqn) | RVec (v : list Z).

(** Constructor checks of the slice objects (slice.hpp 19-26, 82-92, 147-150, 166-168, 183-185) followed by
    SliceWrapper<...>::get / get_row / get_col (244-520); [n] is size(), rows() or cols() and [empty] is A.empty(). *)
Definition slice_resolve (c : cfg) (n : Z) (empty : bool) (s : slice) : outcome rslice :=
  match s with
  | SeqN start size stride =>
      q <- make_seqn c start size stride ;;
      check_debug c (seqn_valid n q) ;;; Ok (RSeq q)
  | Seq first last stride =>
      check_debug c (Ok (-1 <? first)) ;;; check_debug c (Ok (-1 <? last)) ;;;
      check_debug c (Ok (seq_cond first last stride)) ;;;
      check_debug c (Ok (negb empty)) ;;; check_debug c (Ok (seq_valid n first last)) ;;;
      q <- seq_to_slice c first last stride ;; Ok (RSeq q)
  | All => q <- make_seqn c 0 n 1 ;; Ok (RSeq q)
  | Even => s <- ladd n 1 ;; k <- ldiv c s 2 ;; q <- make_seqn c 0 k 2 ;; Ok (RSeq q)
  | Odd => k <- ldiv c n 2 ;; q <- make_seqn c 1 k 2 ;; Ok (RSeq q)
  | Reverse =>
      st <- (if empty then Ok 0 else lsub n 1) ;;
      q <- make_seqn c st n (-1) ;; Ok (RSeq q)
  | SkipN stride =>
      check_debug c (Ok (0 <? stride)) ;;;
      s <- ladd n stride ;; t <- lsub s 1 ;; k <- ldiv c t stride ;; q <- make_seqn c 0 k stride ;; Ok (RSeq q)
  | FirstN m =>
      check_debug c (Ok (-1 <? m)) ;;; check_debug c (Ok (m <=? n)) ;;;
      q <- make_seqn c 0 m 1 ;; Ok (RSeq q)
  | LastN m =>
      check_debug c (Ok (-1 <? m)) ;;; check_debug c (Ok (m <=? n)) ;;;
      st <- lsub n m ;; q <- make_seqn c st m 1 ;; Ok (RSeq q)
  | Vec v => Ok (RVec v)
  | Compl v => ci <- complement_index_vector c n v ;; Ok (RVec ci)
  end.

(** SliceArrayWrapper: slice.hpp 552-588 (seqN) and 591-630 (vector): size, valid, map. *)
Definition rsize (r : rslice) : Z := match r with RSeq s => qsize s | RVec v => zlen v end.
Definition rvalid (n : Z) (r : rslice) : outcome bool :=
  match r with RSeq s => seqn_valid n s | RVec v => Ok (valid_slice_vector n v) end.
Definition rmap (r : rslice) (i : Z) : outcome Z :=
  match r with
  | RSeq s => d <- lmul i (qstride s) ;; ladd (qstart s) d
  | RVec v => oget v i
  end.

(** A one-dimensional object whose elements live in a base array of [n0] elements: the array itself, or a slice of
    such an object (SliceArrayBase1D / ConstSliceArrayBase1D, slicearray_base1D.hpp 40-180), to any nesting depth. *)
Inductive view := VBase (n0 : Z) | VSlice (v : view) (r : rslice).

(** slicearray_base1D.hpp 128-131: size(). *)
Definition view_size (v : view) : Z := match v with VBase n0 => n0 | VSlice _ r => rsize r end.
(** slicearray_base1D.hpp 96-107, 170-174: un(i) = A_.un(slw_.map(i)); here the position in the base array. *)
Fixpoint view_map (v : view) (i : Z) : outcome Z :=
  match v with
  | VBase _ => Ok i
  | VSlice v' r => j <- rmap r i ;; view_map v' j
  end.

(** derived1D.hpp 177-193 operator()(slice): slice_helper, then the constructor of the slice array, which checks
    validity again (slicearray_base1D.hpp 54-59, 161-167).  empty() is size() == 0 (derived1D.hpp 94-96). *)
Definition view_slice (c : cfg) (v : view) (s : slice) : outcome view :=
  let n := view_size v in
  r <- slice_resolve c n (n =? 0) s ;;
  check_debug c (rvalid n r) ;;;
  Ok (VSlice v r).

(** Applying slices one after another: A(s1)(s2)... *)
Fixpoint view_slices (c : cfg) (v : view) (ss : list slice) : outcome view :=
  match ss with
  | [] => Ok v
  | s :: ss' => v' <- view_slice c v s ;; view_slices c v' ss'
  end.

(** Element access through a view on storage [b]. *)
Definition view_un {V} (v : view) (b : list V) (i : Z) : outcome V := j <- view_map v i ;; oget b j.
Definition view_set {V} (v : view) (b : list V) (i : Z) (x : V) : outcome (list V) :=
  j <- view_map v i ;; oset b j x.
(** derived1D.hpp 56-92 on a slice: checked read and checked write. *)
Definition view_sub {V} (c : cfg) (v : view) (b : list V) (ix : idx) : outcome V :=
  i <- idx_get (view_size v) ix ;; check_debug c (Ok (valid_index (view_size v) i)) ;;; view_un v b i.
Definition view_write {V} (c : cfg) (v : view) (b : list V) (ix : idx) (x : V) : outcome (list V) :=
  i <- idx_get (view_size v) ix ;; check_debug c (Ok (valid_index (view_size v) i)) ;;; view_set v b i x.

(** slicearray_base1D.hpp 62-66: assignment of a value to every element of the slice. *)
Definition view_fill {V} (v : view) (x : V) (b : list V) : mut (list V) :=
  mfor 0 (view_size v) (fun i b => commit b (view_set v b i x)) b.
(** slicearray_base1D.hpp 78-93: assignment from another object of size [n]; [rd] may read the same storage. *)
Definition view_assign_rd {V} (c : cfg) (v : view) (n : Z) (rd : list V -> Z -> outcome V) (b : list V) : mut (list V) :=
  match check_debug c (Ok (view_size v =? n)) with
  | Ok _ => mfor 0 n (fun i b => commit b (x <- rd b i ;; view_set v b i x)) b
  | Fail f => MFail f b
  | UB => MUB
  end.
(** Assignment from a slice of the same array. *)
Definition view_assign_view {V} (c : cfg) (dst srcv : view) (b : list V) : mut (list V) :=
  view_assign_rd c dst (view_size srcv) (fun b i => view_un srcv b i) b.
