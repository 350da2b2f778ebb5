(** Index arguments, validity checks and read-only sources.
    StrictCommon/auxiliary_types.hpp, ArrayCommon/valid.hpp, ArrayCommon/index_helper.hpp. *)
From Verif Require Import Base.Outcome Base.ZList.

(** Index arguments: a plain integer (IndexWrapper for integers, index_helper.hpp 29-50) or a [Last] object
    (auxiliary_types.hpp 183-194) holding the distance from the last element. *)
Inductive idx := Plain (i : Z) | FromLast (k : Z).

(** auxiliary_types.hpp 202, the constant [last]. *)
Definition place_last : idx := FromLast 0.
(** auxiliary_types.hpp 210-217, [last + i] (both operand orders). Only defined on Last objects. *)
Definition last_plus (l : idx) (i : Z) : outcome idx :=
  match l with FromLast k => k' <- lsub k i ;; Ok (FromLast k') | Plain _ => UB end.
(** auxiliary_types.hpp 220-222, [last - i]. *)
Definition last_minus (l : idx) (i : Z) : outcome idx :=
  match l with FromLast k => k' <- ladd k i ;; Ok (FromLast k') | Plain _ => UB end.

(** index_helper.hpp 29-88: resolve an index argument against a size (number of elements, rows or columns). *)
Definition idx_get (size : Z) (ix : idx) : outcome Z :=
  match ix with
  | Plain i => Ok i
  | FromLast k => d <- lsub size k ;; lsub d 1
  end.

(** valid.hpp 24-36: valid_index / valid_row / valid_col, all of the form i > -1 && i < size. *)
Definition valid_index (size i : Z) : bool := (-1 <? i) && (i <? size).
(** valid.hpp 39-41. *)
Definition valid_index2 (m n i j : Z) : bool := valid_index m i && valid_index n j.
(** valid.hpp 44-46. *)
Definition semi_valid (m n : Z) : bool := negb (xorb (m =? 0) (n =? 0)).

(** auxiliary_types.hpp 37-64: constructors of First, Endmost, Size, Count, Pos, Index, Rows, Cols, ImplicitNonNegInt. *)
Definition nonneg_arg (c : cfg) (x : Z) : outcome Z := check_debug c (Ok (-1 <? x)) ;;; Ok x.

(** valid.hpp 92-110: valid_slice_vector and its row/column versions, for a size. *)
Definition valid_slice_vector (size : Z) (v : list Z) : bool := forallb (valid_index size) v.

(** std::ranges::is_sorted with the comparator [<=]: no element is <= its predecessor.
    ([<=] is not a strict weak ordering, which the standard requires; the model takes the usual adjacent test.) *)
Fixpoint is_sorted_le (v : list Z) : bool :=
  match v with
  | [] => true
  | x :: v' => match v' with [] => true | y :: _ => negb (y <=? x) && is_sorted_le v' end
  end.
(** valid.hpp 113-125. *)
Definition valid_complement (size : Z) (v : list Z) : bool :=
  match v with
  | [] => true
  | x :: _ => if negb (valid_index size x) || negb (valid_index size (List.last v 0)) then false else is_sorted_le v
  end.

(** valid.hpp 128-145: complement_index_vector, loop over i = 0..n-1 with the index cnt into [indexes] represented by
    the not yet consumed suffix. *)
Fixpoint complement_loop (k : nat) (i : Z) (rest : list Z) : list Z :=
  match k with
  | O => []
  | S k' =>
      match rest with
      | x :: rest' => if i =? x then complement_loop k' (i + 1) rest' else i :: complement_loop k' (i + 1) rest
      | [] => i :: complement_loop k' (i + 1) rest
      end
  end.
(** The reserve call throws std::length_error (modelled as BadAlloc) when there are more indexes than elements. *)
Definition complement_index_vector (c : cfg) (n : Z) (v : list Z) : outcome (list Z) :=
  check_debug c (Ok (valid_complement n v)) ;;;
  if n <? zlen v then Fail BadAlloc
  else Ok (complement_loop (Z.to_nat n) 0 v).

(** index_helper.hpp 97-102: index_map_one_to_two_dim. *)
Definition index_map_one_to_two (c : cfg) (cols i : Z) : outcome (Z * Z) :=
  r <- ldiv c i cols ;; k <- lmod c i cols ;; Ok (r, k).

(** index_helper.hpp 111-120: implicit_vector_sequence. *)
Definition implicit_vector_sequence (c : cfg) (size start incr : Z) : outcome (list Z) :=
  check_debug c (Ok (-1 <? size)) ;;;
  if size <? 0 then Fail BadAlloc else
  for_ 0 size (fun i v => d <- lmul i incr ;; e <- ladd start d ;; Ok (v ++ [e])) [].

(** Read-only one-dimensional sources (arrays, slices, expressions): a size and an unchecked element function. *)
Record src1 (V : Type) := mksrc1 { ssize : Z; sun : Z -> outcome V }.
Arguments mksrc1 {V} _ _.
Arguments ssize {V} _.
Arguments sun {V} _ _.

(** derived1D.hpp 56-68 operator[], 80-92 at(): checked access on any one-dimensional object. *)
Definition sub1 {V} (c : cfg) (A : src1 V) (ix : idx) : outcome V :=
  i <- idx_get (ssize A) ix ;; check_debug c (Ok (valid_index (ssize A) i)) ;;; sun A i.
Definition at1 {V} (c : cfg) (A : src1 V) (ix : idx) : outcome V :=
  i <- idx_get (ssize A) ix ;; check_always c (valid_index (ssize A) i) ;;; sun A i.
(** derived1D.hpp 70-78 un(): unchecked. *)
Definition un1 {V} (A : src1 V) (ix : idx) : outcome V :=
  i <- idx_get (ssize A) ix ;; sun A i.
