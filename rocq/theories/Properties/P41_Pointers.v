(** Property C87: pointers to the elements of owning arrays, from data() and blas_data(). *)
From Verif Require Import Base.Outcome Base.ZList Model.Index Model.Slice Model.Array1D Model.Array2D Model.Store1D Model.Store2D Model.Heap Model.Heap2D Model.Handoff.
From Verif Require Import Spec.ArraySpec Spec.MatrixSpec Spec.Store1DSpec Spec.Store2DSpec Spec.Configs Spec.HeapSpec Spec.PointerSpec Proofs.PointerProofs Proofs.PointerMatrix.

(** ** C87 *)
(** A pointer taken after any program and kept during any other, in any configuration: it is the data() of the array that owns the elements then,
    following moves and swaps, or every use of it is undefined. *)
Theorem C87_follow : forall (V : Type) (zero : V) (al : Z) c ops1 ops2 h1 l1 h2 l2,
  fst (run (hstep1 zero al c) ([], []) ops1) = Next (h1, l1) Done -> fst (run (hstep1 zero al c) (h1, l1) ops2) = Next (h2, l2) Done ->
  forall k o p, znth l1 k = Some o -> h_data o = Some p ->
  match follow (hstep1 zero al c) (h1, l1) ops2 k with
  | Some k' => exists o', znth l2 k' = Some o' /\ h_data o' = Some p /\ on o' = on o
  | None => forall i v, raw_load p i h2 = HUB /\ raw_store p i v h2 = HUB
  end.
Proof. exact @follow_thm. Qed.
Print Assumptions C87_follow.

(** The same of matrices. *)
Theorem C87_follow_matrix : forall (V : Type) (zero : V) (al : Z) c ops1 ops2 h1 l1 h2 l2,
  fst (run (hstep2 zero al c) ([], []) ops1) = Next (h1, l1) Done -> fst (run (hstep2 zero al c) (h1, l1) ops2) = Next (h2, l2) Done ->
  forall k o p, znth l1 k = Some o -> h2_data o = Some p ->
  match follow2 (hstep2 zero al c) (h1, l1) ops2 k with
  | Some k' => exists o', znth l2 k' = Some o' /\ h2_data o' = Some p /\ on (odat o') = on (odat o)
  | None => forall i v, raw_load p i h2 = HUB /\ raw_store p i v h2 = HUB
  end.
Proof. exact @follow2_thm. Qed.
Print Assumptions C87_follow_matrix.
(** A finding: the assignment of a nested list, although it keeps the sizes, moves the elements; that of a list to a one-dimensional array does
    not (C87_follow). *)
Theorem C87_matrix_list_moves : forall (V : Type) (zero : V) (al : Z) c ops h l h' l' k L,
  fst (run (hstep2 zero al c) ([], []) ops) = Next (h, l) Done -> hstep2 zero al c (h, l) (AssignList2 k L) = Next (h', l') Done ->
  forall o p, znth l k = Some o -> h2_data o = Some p -> forall i v, raw_load p i h' = HUB /\ raw_store p i v h' = HUB.
Proof. exact @list2_moves_thm. Qed.
Print Assumptions C87_matrix_list_moves.

(** Different arrays never have the same pointer. *)
Theorem C87_apart : forall (V : Type) (zero : V) (al : Z) c ops h l i j o o' p, fst (run (hstep1 zero al c) ([], []) ops) = Next (h, l) Done ->
  znth l i = Some o -> znth l j = Some o' -> h_data o = Some p -> h_data o' = Some p -> i = j.
Proof. exact @apart_thm. Qed.
Print Assumptions C87_apart.
Theorem C87_apart_matrix : forall (V : Type) (zero : V) (al : Z) c ops h l i j o o' p, fst (run (hstep2 zero al c) ([], []) ops) = Next (h, l) Done ->
  znth l i = Some o -> znth l j = Some o' -> h2_data o = Some p -> h2_data o' = Some p -> i = j.
Proof. exact @apart2_thm. Qed.
Print Assumptions C87_apart_matrix.

(** data() is null exactly for an empty array; p[i] is element i, and outside the array it is undefined. *)
Theorem C87_reads : forall (V : Type) (zero : V) (al : Z) c ops w h l, cfg_ok c -> checked c = true -> Forall op_long ops ->
  fst (run (spec_step1 zero c) [] ops) = Next w Done -> fst (run (hstep1 zero al c) ([], []) ops) = Next (h, l) Done ->
  forall k o x, znth l k = Some o -> znth w k = Some x -> (h_data o = None <-> x = []) /\
  forall p, h_data o = Some p -> forall i, raw_load p i h = match znth x i with Some v => HOk v h | None => HUB end.
Proof. exact @reads_thm. Qed.
Print Assumptions C87_reads.

(** p[i] = v does what A[i] = v does and changes no other array; outside the array it is undefined. *)
Theorem C87_writes : forall (V : Type) (zero : V) (al : Z) c ops w h l, cfg_ok c -> checked c = true -> Forall op_long ops ->
  fst (run (spec_step1 zero c) [] ops) = Next w Done -> fst (run (hstep1 zero al c) ([], []) ops) = Next (h, l) Done ->
  forall k o x p, znth l k = Some o -> znth w k = Some x -> h_data o = Some p -> forall i v,
  if (0 <=? i) && (i <? zlen x)
  then exists h', raw_store p i v h = HOk tt h' /\ hstep1 zero al c (h, l) (Write k (Plain i) v) = Next (h', l) Done /\
    Forall2 (contents al h') l (zupd w k (zupd x i v))
  else raw_store p i v h = HUB.
Proof. exact @write_thm. Qed.
Print Assumptions C87_writes.

(** Matrices: row by row; null exactly when the matrix is empty. *)
Theorem C87_matrix : forall (V : Type) (zero : V) (al : Z) c ops w h l, cfg_ok c -> checked c = true -> Forall op2_long ops -> tame zero c [] ops ->
  fst (run (spec_step2 zero c) [] ops) = Next w Done -> fst (run (hstep2 zero al c) ([], []) ops) = Next (h, l) Done ->
  forall k o M, znth l k = Some o -> znth w k = Some M -> (h2_data o = None <-> M = []) /\
  forall p, h2_data o = Some p ->
    (forall i j, 0 <= i < zlen M -> 0 <= j < ncols M -> exists v, mget M i j = Some v /\ raw_load p (i * ncols M + j) h = HOk v h) /\
    (forall q, ~ 0 <= q < zlen M * ncols M -> raw_load p q h = HUB /\ forall v, raw_store p q v h = HUB).
Proof. exact @matrix_thm. Qed.
Print Assumptions C87_matrix.

(** Pointers to three arrays: the elements of the first are moved, swapped and moved again, a failed resize notwithstanding; those of the second are
    replaced by an insertion; those of the third stay although it is assigned to. *)
Example C87_case :
  let ops1 := [NewList [1; 2; 3]; NewList [7; 8]; NewFill 2 9] in
  let ops2 := [NewMove 0; New 3; Resize 3 (-1) true; Swap 3 4; InsertArr 1 1 2; Assign 2 2; ResizeAssignMove 0 4; Write 0 (Plain 1) 5] in
  let s1 := ([Some (64, [1; 2; 3]); Some (64, [7; 8]); Some (64, [9; 9])], [mkobj (Some 0) 3; mkobj (Some 1) 2; mkobj (Some 2) 2]) in
  fst (run (hstep1 0 64 c_dbg) ([], []) ops1) = Next s1 Done /\
  map (fun k => follow (hstep1 0 64 c_dbg) s1 ops2 k) [0; 1; 2] = [Some 0; None; Some 2] /\
  exists h2 l2, fst (run (hstep1 0 64 c_dbg) s1 ops2) = Next (h2, l2) Done /\ option_map h_data (znth l2 0) = Some (Some 0) /\ raw_load 1 0 h2 = HUB.
Proof. cbn zeta. split; [vm_compute; reflexivity|]. split; [vm_compute; reflexivity|]. do 2 eexists. split; [vm_compute; reflexivity|]. split; vm_compute; reflexivity. Qed.
Example C87_case_reads :
  let ops := [NewList [1; 2; 3]; New 0; InsertFront 0 9] in
  Forall op_long ops /\ fst (run (spec_step1 0 c_dbg) [] ops) = Next [[9; 1; 2; 3]; []] Done /\
  fst (run (hstep1 0 64 c_dbg) ([], []) ops) = Next ([None; Some (64, [9; 1; 2; 3])], [mkobj (Some 1) 4; mkobj None 0]) Done.
Proof. cbn zeta. split; [repeat constructor; unfold is_long, LONG_MIN, LONG_MAX; lia|]. split; vm_compute; reflexivity. Qed.
Example C87_case_matrix :
  let ops := [NewList2 [[1; 2]; [3; 4]]; InsertCols 0 1 0; New2 0 0] in
  Forall op2_long ops /\ tame 0 c_dbg [] ops /\ fst (run (spec_step2 0 c_dbg) [] ops) = Next [[[1; 1; 2; 2]; [3; 3; 4; 4]]; []] Done /\
  fst (run (hstep2 0 64 c_dbg) ([], []) ops) = Next ([None; Some (64, [1; 1; 2; 2; 3; 3; 4; 4])], [mkobj2 2 4 (mkobj (Some 1) 8); mkobj2 0 0 (mkobj None 0)]) Done.
Proof. cbn zeta. split; [repeat constructor; unfold is_long, LONG_MIN, LONG_MAX; lia|]. split; [vm_compute; tauto|]. split; vm_compute; reflexivity. Qed.
(** Pointers to three matrices: the first is reshaped, moved, and swapped; the second is assigned a list; the third is assigned to, and a
    failed resize leaves it. *)
Example C87_case_follow_matrix :
  let ops1 := [NewList2 [[1; 2; 3]; [4; 5; 6]]; NewList2 [[7; 8]]; NewFill2 1 2 9] in
  let ops2 := [Resize2 0 3 2 false; NewMove2 0; New2 1 1; Swap2 3 4; AssignList2 1 [[5; 6]]; Assign2 2 1; Resize2 2 (-1) 2 true; ResizeAssignMove2 0 4] in
  let s1 := ([Some (64, [1; 2; 3; 4; 5; 6]); Some (64, [7; 8]); Some (64, [9; 9])], [mkobj2 2 3 (mkobj (Some 0) 6); mkobj2 1 2 (mkobj (Some 1) 2); mkobj2 1 2 (mkobj (Some 2) 2)]) in
  fst (run (hstep2 0 64 c_dbg) ([], []) ops1) = Next s1 Done /\
  map (fun k => follow2 (hstep2 0 64 c_dbg) s1 ops2 k) [0; 1; 2] = [Some 0; None; Some 2] /\
  exists h2 l2, fst (run (hstep2 0 64 c_dbg) s1 ops2) = Next (h2, l2) Done /\ option_map h2_data (znth l2 0) = Some (Some 0) /\ raw_load 1 0 h2 = HUB /\ raw_load 2 0 h2 = HOk 5 h2.
Proof. cbn zeta. split; [vm_compute; reflexivity|]. split; [vm_compute; reflexivity|]. do 2 eexists. split; [vm_compute; reflexivity|]. split; [vm_compute; reflexivity|]. split; vm_compute; reflexivity. Qed.
Example C87_case_list_moves :
  exists h' l', fst (run (hstep2 0 64 c_dbg) ([], []) [NewList2 [[1; 2]]]) = Next ([Some (64, [1; 2])], [mkobj2 1 2 (mkobj (Some 0) 2)]) Done /\
  hstep2 0 64 c_dbg ([Some (64, [1; 2])], [mkobj2 1 2 (mkobj (Some 0) 2)]) (AssignList2 0 [[3; 4]]) = Next (h', l') Done /\ l' = [mkobj2 1 2 (mkobj (Some 1) 2)].
Proof. do 2 eexists. repeat split; vm_compute; reflexivity. Qed.
