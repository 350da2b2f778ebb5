(** Property C60: attach1D and attach2D, views of memory the library does not own. *)
From Verif Require Import Base.Outcome Base.ZList Model.Index Model.Slice Model.Array1D Model.Array2D Model.View2D Model.Attach.
From Verif Require Import Spec.ArraySpec Spec.SliceSpec Spec.View2DSpec Spec.ConfigSpec Spec.Configs.
From Verif Require Import Proofs.AttachProofs.

(** attach1D(p, n) is a view of n elements, element i at p + i; everything proved about views applies.  Negative n is reported. *)
Theorem C60_attach1D : forall c n, is_long n ->
  (0 <= n -> exists v, attach1 c n = Ok v /\ is_view c n v /\ is_two v = false /\ o_size v = Ok n /\ forall i, 0 <= i < n -> o_lin c v i = Ok i) /\
  (n < 0 -> checked c = true -> attach1 c n = Fail (report c)).
Proof. exact attach1_thm. Qed.
Print Assumptions C60_attach1D.
(** attach2D(p, m, n): element (i, j) at p + i * n + j; with no rows or no columns the view is 0 x 0. *)
Theorem C60_attach2D : forall c m n, is_long m -> is_long n ->
  (0 <= m -> 0 <= n -> m * n <= LONG_MAX -> exists v, attach2 c m n = Ok v /\ is_two v = true /\ o_rows v = clip m n /\ o_cols v = clip n m /\ o_size v = Ok (m * n) /\
     ((m = 0 <-> n = 0) -> is_view c (m * n) v) /\
     (forall i j, 0 <= i < m -> 0 <= j < n -> o_at c v i j = Ok (i * n + j)) /\ (forall k, 0 <= k < m * n -> o_lin c v k = Ok k)) /\
  (m < 0 \/ n < 0 -> checked c = true -> attach2 c m n = Fail (report c)).
Proof. exact attach2_thm. Qed.
Print Assumptions C60_attach2D.
Example C60_attach_case : exists v w e, attach1 c_dbg 4 = Ok v /\ o_lin c_dbg v 3 = Ok 3 /\ attach2 c_off 2 3 = Ok w /\ o_at c_off w 1 2 = Ok 5 /\
  attach2 c_dbg 5 0 = Ok e /\ o_rows e = 0 /\ o_cols e = 0 /\ attach1 c_abort (-1) = Fail Abort /\ attach2 c_dbg 2 (-1) = Fail Throw.
Proof. do 3 eexists. repeat split; vm_compute; reflexivity. Qed.

(** Reading and writing element i of any view v of an attached array of N elements at position base of the memory: one element
    of the memory, inside the window; nothing else changes; outside indexes are reported. *)
Theorem C60_element : forall (c : cfg) (V : Type) N v n ix (mem : list V) base, is_view c N v -> o_size v = Ok n -> idx_fits n ix -> 0 <= base -> base + N <= zlen mem ->
  let i := denotes n ix in
  (0 <= i < n -> exists p x, o_lin c v i = Ok p /\ 0 <= p < N /\ znth mem (base + p) = Some x /\ ptr_read1 c mem base v ix = Ok x /\
     forall y, exists mem', ptr_write1 c mem base v ix y = Ok mem' /\ zlen mem' = zlen mem /\
       forall q, znth mem' q = if q =? base + p then Some y else znth mem q) /\
  (~ 0 <= i < n -> checked c = true -> ptr_read1 c mem base v ix = Fail (report c) /\ forall y, ptr_write1 c mem base v ix y = Fail (report c)).
Proof. exact @ptr1_thm. Qed.
Print Assumptions C60_element.
Theorem C60_element_2d : forall (c : cfg) (V : Type) N v ix jx (mem : list V) base, is_view c N v -> is_two v = true ->
  idx_fits (o_rows v) ix -> idx_fits (o_cols v) jx -> 0 <= base -> base + N <= zlen mem ->
  let i := denotes (o_rows v) ix in let j := denotes (o_cols v) jx in let inside := 0 <= i < o_rows v /\ 0 <= j < o_cols v in
  (inside -> exists p x, o_at c v i j = Ok p /\ 0 <= p < N /\ znth mem (base + p) = Some x /\ ptr_read2 c mem base v ix jx = Ok x /\
     forall y, exists mem', ptr_write2 c mem base v ix jx y = Ok mem' /\ zlen mem' = zlen mem /\
       forall q, znth mem' q = if q =? base + p then Some y else znth mem q) /\
  (~ inside -> checked c = true -> ptr_read2 c mem base v ix jx = Fail (report c) /\ forall y, ptr_write2 c mem base v ix jx y = Fail (report c)).
Proof. exact @ptr2_thm. Qed.
Print Assumptions C60_element_2d.
(** In a checking build no sequence of view operations reaches outside the window. *)
Theorem C60_safe : forall (V : Type) c n ws (mem : list V) base v, checked c = true -> 0 <= n <= LONG_MAX -> attach1 c n = Ok v ->
  (forall d, o_denotes c v d -> chain_fits d ws) -> 0 <= base -> base + n <= zlen mem ->
  o_chain c v ws = Fail (report c) \/
  exists w, o_chain c v ws = Ok w /\
    (forall ix k, o_size w = Ok k -> idx_fits k ix ->
       ptr_read1 c mem base w ix = Fail (report c) \/ exists p, 0 <= p < n /\ ptr_read1 c mem base w ix = oget mem (base + p) /\ oget mem (base + p) <> UB) /\
    (forall ix jx, is_two w = true -> idx_fits (o_rows w) ix -> idx_fits (o_cols w) jx ->
       ptr_read2 c mem base w ix jx = Fail (report c) \/ exists p, 0 <= p < n /\ ptr_read2 c mem base w ix jx = oget mem (base + p) /\ oget mem (base + p) <> UB).
Proof. exact @attach_safe_thm. Qed.
Print Assumptions C60_safe.
(** Two attached arrays over overlapping memory see each other's writes, and only where they overlap. *)
Theorem C60_alias : forall (c : cfg) (V : Type) n1 n2 v1 v2 i j (mem : list V) b1 b2 y, 0 <= n1 <= LONG_MAX -> 0 <= n2 <= LONG_MAX ->
  attach1 c n1 = Ok v1 -> attach1 c n2 = Ok v2 ->
  0 <= b1 -> b1 + n1 <= zlen mem -> 0 <= b2 -> b2 + n2 <= zlen mem -> 0 <= i < n1 -> 0 <= j < n2 ->
  exists mem', ptr_write1 c mem b1 v1 (Plain i) y = Ok mem' /\
    ptr_read1 c mem' b2 v2 (Plain j) = if b1 + i =? b2 + j then Ok y else ptr_read1 c mem b2 v2 (Plain j).
Proof. exact @alias_thm. Qed.
Print Assumptions C60_alias.
Example C60_memory_case : exists v w u, attach1 c_dbg 3 = Ok v /\ o_chain c_dbg v [VwSlice Reverse] = Ok w /\
  ptr_read1 c_dbg [9; 10; 20; 30; 8] 1 w (Plain 0) = Ok 30 /\ ptr_write1 c_dbg [9; 10; 20; 30; 8] 1 w (FromLast 0) 7 = Ok [9; 7; 20; 30; 8] /\
  ptr_read1 c_dbg [9; 10; 20; 30; 8] 1 w (Plain 3) = Fail Throw /\
  attach2 c_dbg 2 2 = Ok u /\ ptr_read2 c_dbg [9; 10; 20; 30; 8] 1 u (Plain 1) (Plain 0) = Ok 30 /\ ptr_write2 c_dbg [9; 10; 20; 30; 8] 1 u (FromLast 0) (FromLast 0) 0 = Ok [9; 10; 20; 30; 0].
Proof. do 3 eexists. repeat split; vm_compute; reflexivity. Qed.
(** The library cannot know the length of the memory: attaching more than there is passes every check of the strictest build, and access is undefined. *)
Theorem C60_length_refuted : exists c v (mem : list Z) n i, checked c = true /\ attach1 c n = Ok v /\ o_size v = Ok n /\ 0 <= i < n /\ ptr_read1 c mem 0 v (Plain i) = UB.
Proof. exists c_dbg. eexists. exists [1; 2], 3, 2. split; [reflexivity|]. split; [vm_compute; reflexivity|]. split; [reflexivity|]. split; [lia|]. vm_compute. reflexivity. Qed.
Print Assumptions C60_length_refuted.
