(** Views of memory the library does not own: attach1D (attach1D.hpp 29-100) and attach2D (attach2D.hpp 29-107, 293-312).
    The memory is a list of elements and a pointer is a position in it; reinterpret_cast<Strict<T>*> keeps positions
    (Strict<T> has the single member T).  The const versions differ only in the types. *)
From Verif Require Import Base.Outcome Base.ZList Model.IntModel Model.ScalarOps Model.Index Model.Slice Model.Array1D Model.Array2D Model.View2D.

(** attach1D.hpp 80-87: strict_attach_ptr1D (29-50) knows only n; the slice seqN{0, n} is checked against it. *)
Definition attach1 (c : cfg) (n : Z) : outcome obj :=
  q <- make_seqn c 0 n 1 ;; check_debug c (seqn_valid n q) ;;; Ok (OS1 (O1 n) (RSeq q)).
(** attach2D.hpp 293-301 through slicearray_base2D.hpp 52-65; strict_attach_ptr2D (29-72) maps (i, j) to i * n + j like an
    owning array.  Its own size() is never called: the third argument of O2 is not used. *)
Definition attach2 (c : cfg) (m n : Z) : outcome obj :=
  q1 <- make_seqn c 0 m 1 ;; q2 <- make_seqn c 0 n 1 ;; o_make2 c (O2 m n (m * n)) (RSeq q1) (RSeq q2).

Section Mem.
Context {V : Type}.
Implicit Types (mem : list V) (base : Z).
(** data_[i]: the element at position base + i of the memory (attach1D.hpp 38-44, attach2D.hpp 38-52). *)
Definition ptr_get mem base (p : Z) : outcome V := oget mem (base + p).
Definition ptr_set mem base (p : Z) (x : V) : outcome (list V) := oset mem (base + p) x.
(** operator[], operator() of a view of the attached memory: reading, and assigning to the reference. *)
Definition ptr_read1 c mem base v ix : outcome V := p <- o_ref1 c v ix ;; ptr_get mem base p.
Definition ptr_write1 c mem base v ix x : outcome (list V) := p <- o_ref1 c v ix ;; ptr_set mem base p x.
Definition ptr_read2 c mem base v ix jx : outcome V := p <- o_ref2 c v ix jx ;; ptr_get mem base p.
Definition ptr_write2 c mem base v ix jx x : outcome (list V) := p <- o_ref2 c v ix jx ;; ptr_set mem base p x.
End Mem.
