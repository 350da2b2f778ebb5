(** Properties C33-C34: rows, columns, diagonals, blocks, slices and reshapings of two-dimensional objects, nested to any depth.
    A view is identified by the storage positions of its elements, so that reads and writes through it are accesses to those elements. *)
From Verif Require Import Base.Outcome Base.ZList Model.Index Model.Slice Model.Array1D Model.Array2D Model.View2D.
From Verif Require Import Spec.ArraySpec Spec.SliceSpec Spec.MatrixSpec Spec.Matrix2Spec Spec.View2DSpec Spec.Configs.
From Verif Require Import Proofs.View2DProofs Proofs.View2DOps Proofs.View2DThms.

(** A 3 x 4 array, and its columns 3, 1 and rows 2, 0 as a slice. *)
Definition ex34 : obj := O2 3 4 12.
Lemma ex34_view c : is_view c 12 ex34.
Proof.
  exists ex34, (whole2 3 4), []. split; [right; exists 3, 4; unfold LONG_MAX; repeat split; try lia|]. split; [exact I|reflexivity].
Qed.
Definition vals := [0; 10; 20; 30; 40; 50; 60; 70; 80; 90; 100; 110].

(** ** C33 *)

(** row(i) of any view: element j is element (i, j); an index outside is reported. *)
Theorem C33_row : forall c N o ix,
  is_view c N o -> is_two o = true -> idx_fits (o_rows o) ix -> let i := denotes (o_rows o) ix in
  (0 <= i < o_rows o -> exists v, o_row c o ix = Ok v /\ line_of c N o v (o_cols o) (fun j => (i, j))) /\
  (~ 0 <= i < o_rows o -> checked c = true -> o_row c o ix = Fail (report c)).
Proof. exact @row_thm. Qed.
Print Assumptions C33_row.

(** col(j): element i is element (i, j). *)
Theorem C33_col : forall c N o jx,
  is_view c N o -> is_two o = true -> idx_fits (o_cols o) jx -> let j := denotes (o_cols o) jx in
  (0 <= j < o_cols o -> exists v, o_col c o jx = Ok v /\ line_of c N o v (o_rows o) (fun i => (i, j))) /\
  (~ 0 <= j < o_cols o -> checked c = true -> o_col c o jx = Fail (report c)).
Proof. exact @col_thm. Qed.
Print Assumptions C33_col.

(** diag(k): elements (t, t+k) for k >= 0 and (t-k, t) for k < 0; a diagonal outside the matrix is reported. *)
Theorem C33_diag : forall c N o k,
  is_view c N o -> is_two o = true -> o_cols o < LONG_MAX -> is_long k -> k <> LONG_MIN ->
  (- o_rows o < k < o_cols o -> exists v, o_diag c o k = Ok v /\
     line_of c N o v (Z.min (o_rows o - Z.max 0 (- k)) (o_cols o - Z.max 0 k)) (fun t => (t + Z.max 0 (- k), t + Z.max 0 k))) /\
  (~ - o_rows o < k < o_cols o -> checked c = true -> o_diag c o k = Fail (report c)).
Proof. exact @diag_thm. Qed.
Print Assumptions C33_diag.

(** diag(). *)
Theorem C33_main_diagonal : forall c N o,
  is_view c N o -> is_two o = true -> o_cols o < LONG_MAX ->
  exists v, o_diag0 c o = Ok v /\ line_of c N o v (Z.min (o_rows o) (o_cols o)) (fun t => (t, t)).
Proof. exact @diag0_thm. Qed.
Print Assumptions C33_main_diagonal.

Example C33_lines_case : exists r cl d, o_row c_dbg ex34 (FromLast 0) = Ok r /\ o_col c_dbg ex34 (Plain 1) = Ok cl /\ o_diag c_dbg ex34 (-1) = Ok d /\
  o_sub1 c_dbg r vals (Plain 2) = Ok 100 /\ o_sub1 c_dbg cl vals (FromLast 0) = Ok 90 /\ o_size d = Ok 2 /\ o_sub1 c_dbg d vals (Plain 1) = Ok 90 /\
  o_row c_dbg ex34 (Plain 3) = Fail Throw /\ o_diag c_abort ex34 4 = Fail Abort.
Proof. do 3 eexists. repeat split; vm_compute; reflexivity. Qed.

(** block(r1, c1, r2, c2), corners included. *)
Theorem C33_block : forall c N o ix1 jx1 ix2 jx2,
  is_view c N o -> is_two o = true ->
  idx_fits (o_rows o) ix1 -> idx_fits (o_rows o) ix2 -> idx_fits (o_cols o) jx1 -> idx_fits (o_cols o) jx2 ->
  let i1 := denotes (o_rows o) ix1 in let i2 := denotes (o_rows o) ix2 in let j1 := denotes (o_cols o) jx1 in let j2 := denotes (o_cols o) jx2 in
  (0 <= i1 <= i2 /\ i2 < o_rows o /\ 0 <= j1 <= j2 /\ j2 < o_cols o ->
     exists v, o_block c o ix1 jx1 ix2 jx2 = Ok v /\ rect_of c N o v (i2 - i1 + 1) (j2 - j1 + 1) (fun i => i1 + i) (fun j => j1 + j)) /\
  (~ (0 <= i1 <= i2 /\ i2 < o_rows o /\ 0 <= j1 <= j2 /\ j2 < o_cols o) -> checked c = true -> o_block c o ix1 jx1 ix2 jx2 = Fail (report c)).
Proof. exact @block_thm. Qed.
Print Assumptions C33_block.

(** blockN(r, c, nr, nc); with no rows or no columns the result is 0 x 0. *)
Theorem C33_blockN : forall c N o ix jx nr nc,
  is_view c N o -> is_two o = true -> idx_fits (o_rows o) ix -> idx_fits (o_cols o) jx -> is_long nr -> is_long nc ->
  let i := denotes (o_rows o) ix in let j := denotes (o_cols o) jx in
  let good := 0 <= i /\ 0 <= nr /\ (0 < nr -> i + nr <= o_rows o) /\ 0 <= j /\ 0 <= nc /\ (0 < nc -> j + nc <= o_cols o) in
  i + nr <= LONG_MAX -> j + nc <= LONG_MAX ->
  (good -> exists v, o_blockN c o ix jx nr nc = Ok v /\ rect_of c N o v (clip nr nc) (clip nc nr) (fun t => i + t) (fun t => j + t)) /\
  (~ good -> checked c = true -> o_blockN c o ix jx nr nc = Fail (report c)).
Proof. exact @blockN_thm. Qed.
Print Assumptions C33_blockN.

Example C33_blocks_case : exists b b2, o_block c_dbg ex34 (Plain 1) (Plain 1) (FromLast 0) (FromLast 1) = Ok b /\ o_rows b = 2 /\ o_cols b = 2 /\ o_sub2 c_dbg b vals (Plain 1) (Plain 1) = Ok 100 /\
  o_blockN c_dbg b (Plain 0) (Plain 1) 2 1 = Ok b2 /\ o_sub2 c_dbg b2 vals (Plain 1) (Plain 0) = Ok 100 /\ o_block c_dbg ex34 (Plain 2) (Plain 0) (Plain 1) (Plain 0) = Fail Throw.
Proof. do 2 eexists. repeat split; vm_compute; reflexivity. Qed.

(** A(s1, s2): element (i, j) is the element at position number i of the first slice and number j of the second; empty selections are 0 x 0. *)
Theorem C33_slices : forall c N o s1 s2,
  is_view c N o -> is_two o = true -> args_long s1 -> no_overflow (o_rows o) s1 -> args_long s2 -> no_overflow (o_cols o) s2 ->
  let xs := positions (o_rows o) s1 in let ys := positions (o_cols o) s2 in zlen xs * zlen ys <= LONG_MAX ->
  (acceptable (o_rows o) s1 /\ acceptable (o_cols o) s2 ->
     exists v, o_slice2 c o s1 s2 = Ok v /\ rect_of c N o v (clip (zlen xs) (zlen ys)) (clip (zlen ys) (zlen xs)) (nth_pos xs) (nth_pos ys)) /\
  (~ (acceptable (o_rows o) s1 /\ acceptable (o_cols o) s2) -> checked c = true -> o_slice2 c o s1 s2 = Fail (report c)).
Proof. exact @slices_thm. Qed.
Print Assumptions C33_slices.

(** rows(s). *)
Theorem C33_rows : forall c N o s,
  is_view c N o -> is_two o = true -> args_long s -> no_overflow (o_rows o) s ->
  let xs := positions (o_rows o) s in zlen xs * o_cols o <= LONG_MAX ->
  (acceptable (o_rows o) s -> exists v, o_rows_slice c o s = Ok v /\ rect_of c N o v (zlen xs) (clip (o_cols o) (zlen xs)) (nth_pos xs) (fun j => j)) /\
  (~ acceptable (o_rows o) s -> checked c = true -> o_rows_slice c o s = Fail (report c)).
Proof. exact @rows_thm. Qed.
Print Assumptions C33_rows.

(** cols(s). *)
Theorem C33_cols : forall c N o s,
  is_view c N o -> is_two o = true -> args_long s -> no_overflow (o_cols o) s ->
  let ys := positions (o_cols o) s in o_rows o * zlen ys <= LONG_MAX ->
  (acceptable (o_cols o) s -> exists v, o_cols_slice c o s = Ok v /\ rect_of c N o v (clip (o_rows o) (zlen ys)) (zlen ys) (fun i => i) (nth_pos ys)) /\
  (~ acceptable (o_cols o) s -> checked c = true -> o_cols_slice c o s = Fail (report c)).
Proof. exact @cols_thm. Qed.
Print Assumptions C33_cols.

Example C33_slices_case : exists s r e, o_slice2 c_dbg ex34 (Vec [2; 0]) (Seq 3 1 (-2)) = Ok s /\ o_rows s = 2 /\ o_cols s = 2 /\ o_sub2 c_dbg s vals (Plain 0) (Plain 1) = Ok 90 /\
  o_row c_dbg s (Plain 1) = Ok r /\ o_sub1 c_dbg r vals (Plain 0) = Ok 30 /\ o_set c_dbg r vals 0 7 = Ok [0; 10; 20; 7; 40; 50; 60; 70; 80; 90; 100; 110] /\
  o_rows_slice c_dbg ex34 (FirstN 0) = Ok e /\ o_rows e = 0 /\ o_cols e = 0 /\ o_cols_slice c_dbg ex34 (FirstN 5) = Fail Throw.
Proof. do 3 eexists. repeat split; vm_compute; reflexivity. Qed.

(** Every two-dimensional view has as many elements as rows times columns, and no empty rows or columns. *)
Theorem C33_shape : forall c N o,
  is_view c N o -> is_two o = true -> 0 <= o_rows o <= LONG_MAX /\ 0 <= o_cols o <= LONG_MAX /\ (o_rows o = 0 <-> o_cols o = 0) /\ o_size o = Ok (o_rows o * o_cols o) /\ o_rows o * o_cols o <= LONG_MAX.
Proof. exact @view_dims. Qed.
Print Assumptions C33_shape.

(** Linear index i*cols+j of any two-dimensional view is element (i, j). *)
Theorem C33_linear : forall c N o i j,
  is_view c N o -> is_two o = true -> 0 <= i < o_rows o -> 0 <= j < o_cols o ->
  exists p, 0 <= p < N /\ o_at c o i j = Ok p /\ o_lin c o (i * o_cols o + j) = Ok p.
Proof. exact @linear_view_thm. Qed.
Print Assumptions C33_linear.

(** Reading and writing element (i, j) of any view reads and writes one element of the storage; outside access is reported. *)
Theorem C33_element : forall (c : cfg) (N : Z) (V : Type) o (b : list V) ix jx,
  is_view c N o -> is_two o = true -> zlen b = N -> idx_fits (o_rows o) ix -> idx_fits (o_cols o) jx ->
  let i := denotes (o_rows o) ix in let j := denotes (o_cols o) jx in let inside := 0 <= i < o_rows o /\ 0 <= j < o_cols o in
  (inside -> exists p v, o_at c o i j = Ok p /\ znth b p = Some v /\ o_sub2 c o b ix jx = Ok v /\
     forall x, exists b', o_set2 c o b i j x = Ok b' /\ zlen b' = N /\ forall q, znth b' q = if q =? p then Some x else znth b q) /\
  (~ inside -> checked c = true -> o_sub2 c o b ix jx = Fail (report c)).
Proof. exact (fun c N V => @value2_thm c N V). Qed.
Print Assumptions C33_element.

(** The same for one-dimensional views. *)
Theorem C33_element_1d : forall (c : cfg) (N : Z) (V : Type) o (b : list V) ix n,
  is_view c N o -> zlen b = N -> o_size o = Ok n -> idx_fits n ix ->
  let i := denotes n ix in
  (0 <= i < n -> exists p v, o_lin c o i = Ok p /\ znth b p = Some v /\ o_sub1 c o b ix = Ok v /\
     forall x, exists b', o_set c o b i x = Ok b' /\ zlen b' = N /\ forall q, znth b' q = if q =? p then Some x else znth b q) /\
  (~ 0 <= i < n -> checked c = true -> o_sub1 c o b ix = Fail (report c)).
Proof. exact (fun c N V => @value1_thm c N V). Qed.
Print Assumptions C33_element_1d.

(** A chain of valid view operations of any length succeeds. *)
Theorem C33_chain : forall c N ws o,
  is_view c N o -> (forall d, o_denotes c o d -> chain_ok d ws) -> exists v, o_chain c o ws = Ok v /\ is_view c N v.
Proof. exact @chain_thm. Qed.
Print Assumptions C33_chain.

(** The first invalid operation of a chain is reported. *)
Theorem C33_chain_invalid : forall c ws w ws',
  forall o d, o_denotes c o d -> chain_ok d ws ->
  checked c = true -> (forall d', den_chain d ws = Some d' -> vop_typed d' w = true /\ vop_fits d' w /\ ~ vop_ok d' w) ->
  o_chain c o (ws ++ w :: ws') = Fail (report c).
Proof. exact (fun c => @chain_bad c Ok). Qed.
Print Assumptions C33_chain_invalid.

Example C33_chain_case : chain_ok (whole2 3 4) [VwSlice2 (Vec [2; 0]) Reverse; VwCol (Plain 1); VwSlice Reverse; VwView2 2 1] /\
  exists v, o_chain c_dbg ex34 [VwSlice2 (Vec [2; 0]) Reverse; VwCol (Plain 1); VwSlice Reverse; VwView2 2 1] = Ok v /\ o_sub2 c_dbg v vals (Plain 0) (Plain 0) = Ok 20 /\
    o_sub2 c_dbg v vals (Plain 1) (Plain 0) = Ok 100.
Proof.
  split.
  - cbn. unfold is_long, LONG_MIN, LONG_MAX. repeat split; repeat constructor; try (vm_compute; discriminate); cbn; try lia.
  - eexists. repeat split; vm_compute; reflexivity.
Qed.

(** ** C34 *)

(** view1D() of a two-dimensional object: element t is element (t / cols, t mod cols). *)
Theorem C34_view1D : forall c N o,
  is_view c N o -> is_two o = true ->
  exists v, o_view1 c o = Ok v /\ line_of c N o v (o_rows o * o_cols o) (fun t => (t / o_cols o, t mod o_cols o)).
Proof. exact @view1_thm. Qed.
Print Assumptions C34_view1D.

(** view1D() of a one-dimensional object: the same elements. *)
Theorem C34_view1D_line : forall c N o,
  is_view c N o -> is_two o = false -> exists v, o_apply c o VwView1 = Ok v /\ is_view c N v /\ o_size v = o_size o /\
  forall n t, o_size o = Ok n -> 0 <= t < n -> exists p, 0 <= p < N /\ o_lin c o t = Ok p /\ o_lin c v t = Ok p.
Proof. exact @view1_line_thm. Qed.
Print Assumptions C34_view1D_line.

(** view2D(m, n) exposes element i*n+j as (i, j), and viewing the result linearly gives back every element; a wrong size is reported in every build that reports anything; negative dimensions are reported by a checking build. *)
Theorem C34_view2D : forall c N o k m n,
  is_view c N o -> o_size o = Ok k -> is_long m -> is_long n -> is_long (m * n) ->
  (0 <= m -> 0 <= n -> m * n = k -> exists v, o_view2 c o m n = Ok v /\ is_view c N v /\ is_two v = true /\
     o_rows v = clip m n /\ o_cols v = clip n m /\ o_size v = Ok k /\
     (forall i j, 0 <= i < m -> 0 <= j < n -> exists p, 0 <= p < N /\ o_lin c o (i * n + j) = Ok p /\ o_at c v i j = Ok p) /\
     (forall t, 0 <= t < k -> exists p, 0 <= p < N /\ o_lin c o t = Ok p /\ o_lin c v t = Ok p)) /\
  (m * n <> k -> exc c = true \/ ndbg c = false -> o_view2 c o m n = Fail (report c)) /\
  (m < 0 \/ n < 0 -> checked c = true -> o_view2 c o m n = Fail (report c)).
Proof. exact @view2_thm. Qed.
Print Assumptions C34_view2D.

(** In a build that does not check, view2D(-2, -3) of six elements is accepted and has a negative shape. *)
Theorem C34_negative_refuted : 
  exists c o v, is_view c 6 o /\ o_size o = Ok 6 /\ o_view2 c o (-2) (-3) = Ok v /\ o_rows v = -2 /\ o_cols v = -3.
Proof. exact @view2_negative_ok. Qed.
Print Assumptions C34_negative_refuted.

Example C34_case : exists v w, o_view2 c_off ex34 2 6 = Ok v /\ o_sub2 c_off v vals (Plain 1) (Plain 2) = Ok 80 /\ o_view1 c_off v = Ok w /\ o_sub1 c_off w vals (Plain 8) = Ok 80 /\
  o_view2 c_off ex34 5 2 = Fail Throw /\ o_view2 c_dbg ex34 (-2) (-6) = Fail Throw.
Proof. do 2 eexists. repeat split; vm_compute; reflexivity. Qed.
