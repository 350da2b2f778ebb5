(** Property C84: the memory of owning two-dimensional arrays. *)
From Verif Require Import Base.Outcome Base.ZList Model.Index Model.Slice Model.Array1D Model.Array2D Model.Store1D Model.Store2D Model.Heap Model.Heap2D.
From Verif Require Import Spec.ArraySpec Spec.MatrixSpec Spec.Store1DSpec Spec.Store2DSpec Spec.Configs Spec.HeapSpec Spec.Heap2DSpec Proofs.Store1DProofs Proofs.Heap2DProofs.

(** ** C84 *)
(** Any program in any configuration: with pointers and operator new[]/delete[] it does what the functions on values do; no read or write is
    outside a live block and no block is freed twice, unless the functions on values are undefined; a program that is not ended by a failure
    leaves every block to exactly one array, and its destructors free them all. *)
Theorem C84_values : forall (V : Type) (zero : V) (al : Z) c ops,
  snd (run (hstep2 zero al c) ([], []) ops) = snd (run (step2 zero c) [] ops) /\
  match fst (run (step2 zero c) [] ops) with
  | Next st ob => exists h l, fst (run (hstep2 zero al c) ([], []) ops) = Next (h, l) ob /\ holds_all2 al h l st /\
      (ob = Done -> unshared (map odat l) /\ no_leak h (map odat l) /\ exists h', h2_close al l h = HOk tt h' /\ all_free h')
  | Crash => fst (run (hstep2 zero al c) ([], []) ops) = Crash
  end.
Proof. exact @run2_start. Qed.
Print Assumptions C84_values.

(** With checks on: the program is that of the model of matrices, and when it ends the destructors free every block, once. *)
Theorem C84_history : forall (V : Type) (zero : V) (al : Z) c ops, cfg_ok c -> checked c = true -> Forall op2_long ops -> tame zero c [] ops ->
  snd (run (hstep2 zero al c) ([], []) ops) = snd (run (spec_step2 zero c) [] ops) /\
  match fst (run (spec_step2 zero c) [] ops) with
  | Next w ob => exists h l, fst (run (hstep2 zero al c) ([], []) ops) = Next (h, l) ob /\ Forall2 (contents2 al h) l w /\
      (ob = Done -> exists h', h2_close al l h = HOk tt h' /\ all_free h')
  | Crash => fst (run (hstep2 zero al c) ([], []) ops) = Crash
  end.
Proof. exact @run2_list. Qed.
Print Assumptions C84_history.

(** With checks off, for programs that only make valid calls. *)
Theorem C84_history_valid : forall (V : Type) (zero : V) (al : Z) c ops,
  cfg_ok c -> Forall op2_long ops -> tame zero c [] ops -> valid_run (spec_step2 zero c) [] ops ->
  snd (run (hstep2 zero al c) ([], []) ops) = snd (run (spec_step2 zero c) [] ops) /\
  exists w ob h l, fst (run (spec_step2 zero c) [] ops) = Next w ob /\ fst (run (hstep2 zero al c) ([], []) ops) = Next (h, l) ob /\
    Forall2 (contents2 al h) l w /\ (ob = Done -> exists h', h2_close al l h = HOk tt h' /\ all_free h').
Proof. exact @run2_valid. Qed.
Print Assumptions C84_history_valid.

(** The constructors from sizes, from a nested list and from any source: if a check fails after the block is allocated, the source throws at some
    element, or there is no memory, nothing new is live. *)
Theorem C84_construct : forall (V : Type) (zero : V) (al : Z) c m n L A r h, sees2 h r (s2un A) ->
  made2 al h (h2_new zero al c m n) (arr2_new zero c m n) /\ made2 al h (h2_of_list zero al c L) (arr2_of_list zero c L) /\
  made2 al h (h2_of_src zero al c (s2rows A) (s2cols A) r) (arr2_of_src zero c A).
Proof. intros V zero al c m n L A r h S. exact (conj (made2_new zero al c m n h) (conj (made2_list zero al c L h) (made2_src zero al c A r h S))). Qed.
Print Assumptions C84_construct.

(** resize, resize_and_assign and the insertions, from sources that can throw and can read the array itself: on success the old block and no other
    is freed, on an exception the memory is as before. *)
Theorem C84_resize : forall (V : Type) (zero : V) (al : Z) c m n pr h o (a : arr2 V), repr2 al h o a ->
  changes2 al h o (h2_resize zero al c m n pr o) (arr2_resize zero c m n pr a).
Proof. exact @resize2_sim. Qed.
Print Assumptions C84_resize.
Theorem C84_resize_and_assign : forall (V : Type) (zero : V) (al : Z) c A r h o (a : arr2 V), repr2 al h o a -> sees2 h r (s2un A) ->
  changes2 al h o (h2_resize_and_assign zero al c (s2rows A) (s2cols A) r o) (arr2_resize_and_assign zero c A).
Proof. exact @resize_and_assign2_sim. Qed.
Print Assumptions C84_resize_and_assign.
Theorem C84_insert : forall (V : Type) (zero : V) (al : Z) c pos A r h o (a : arr2 V), repr2 al h o a -> sees2 h r (s2un A) ->
  changes2 al h o (h2_insert_rows zero al c (h2_resize_and_assign zero al c (s2rows A) (s2cols A) r o) pos (s2rows A) (s2cols A) r o)
    (arr2_insert_rows zero c pos A a) /\
  changes2 al h o (h2_insert_cols zero al c (h2_resize_and_assign zero al c (s2rows A) (s2cols A) r o) pos (s2rows A) (s2cols A) r o)
    (arr2_insert_cols zero c pos A a).
Proof.
  intros V zero al c pos A r h o a R S. pose proof (resize_and_assign2_sim zero al c A r h o a R S) as F.
  exact (conj (insert_rows_sim zero al c pos A r h o a _ _ R S F) (insert_cols_sim zero al c pos A r h o a _ _ R S F)).
Qed.
Print Assumptions C84_insert.
Theorem C84_remove : forall (V : Type) (zero : V) (al : Z) c pos count v h o (a : arr2 V), repr2 al h o a ->
  changes2 al h o (h2_remove_rows zero al c pos count o) (arr2_remove_rows zero c pos count a) /\
  changes2 al h o (h2_remove_cols zero al c pos count o) (arr2_remove_cols zero c pos count a) /\
  changes2 al h o (h2_remove_rows_idx zero al c v o) (arr2_remove_rows_idx zero c v a) /\
  changes2 al h o (h2_remove_cols_idx zero al c v o) (arr2_remove_cols_idx zero c v a).
Proof.
  intros V zero al c pos count v h o a R.
  exact (conj (remove_rows_sim zero al c pos count h o a R) (conj (remove_cols_sim zero al c pos count h o a R)
    (conj (remove_rows_idx_sim zero al c v h o a R) (remove_cols_idx_sim zero al c v h o a R)))).
Qed.
Print Assumptions C84_remove.

(** An assignment that throws midway leaves the elements assigned so far, in the same block; memory is in order. *)
Theorem C84_assign : forall (V : Type) (al : Z) c A r h l st i o (a : arr2 V), memory_ok2 al h l st -> znth l i = Some o -> znth st i = Some a ->
  (forall h', only (optr (odat o)) h h' -> forall p q, r p q h' = lift (s2un A p q) h') ->
  match arr2_assign c A a with
  | MOk a' => exists h', h2_assign c (s2rows A) (s2cols A) r o h = HOk tt h' /\ memory_ok2 al h' l (zupd st i a')
  | MFail f a' => exists h', h2_assign c (s2rows A) (s2cols A) r o h = HFail f h' /\ memory_ok2 al h' l (zupd st i a')
  | MUB => h2_assign c (s2rows A) (s2cols A) r o h = HUB
  end.
Proof. exact @assign2_keeps. Qed.
Print Assumptions C84_assign.

(** Assignment of a nested list: a temporary array whose block this one takes over; the block of a list of another shape is freed. *)
Theorem C84_assign_list : forall (V : Type) (zero : V) (al : Z) c L h o (a : arr2 V), repr2 al h o a ->
  changes2 al h o (h2_assign_list zero al c L o) (arr2_assign_list zero c L a).
Proof. exact @assign_list_sim. Qed.
Print Assumptions C84_assign_list.

Example C84_case :
  let ops := [New2 2 3; NewList2 [[1; 2]; [3; 4]]; InsertRows 0 1 1; RemoveCols 1 0 1; Write2 0 (Plain 1) (FromLast 0) 5; InsertCols 0 3 0;
              RemoveRowsIdx 0 [1]; NewList2 [[1]; [2; 3]]; NewCopy2 0; RemoveCols 0 0 6; InsertRow 0 0 [4; 4]; Resize2 2 3 2 false;
              AssignList2 1 [[8; 8; 8]]; AssignList2 1 [[6]; [7]]; ResizeAssignMove2 0 1; Size2 2] in
  Forall op2_long ops /\ tame 0 c_dbg [] ops /\
  run (hstep2 0 64 c_dbg) ([], []) ops =
    (Next ([None; None; None; None; None; None; Some (64, [0; 0; 0; 0; 0; 0]); None; None; Some (64, [6; 7])],
           [mkobj2 2 1 (mkobj (Some 9) 2); mkobj2 0 0 (mkobj None 0); mkobj2 3 2 (mkobj (Some 6) 6)]) Done,
     [Done; Done; Failed Throw; Done; Done; Done; Done; Failed Throw; Done; Done; Done; Done; Failed Throw; Done; Done; Number 6]).
Proof. split; [repeat constructor; unfold is_long, LONG_MIN, LONG_MAX; lia|]. split; vm_compute; [tauto|reflexivity]. Qed.
(** Sizes that are rejected after the block is allocated; a source that throws at its third element. *)
Example C84_case_throw :
  let r : Z -> Z -> hm (V := Z) Z := fun i j => if i + j <? 2 then hret i else lift (Fail Throw) in
  let g i j := if i + j <? 2 then Ok i else Fail Throw in
  let h := [Some (0, [5; 6])] in let o := mkobj2 1 2 (mkobj (Some 0) 2) in
  sees2 h r g /\ repr2 0 h o (mkarr2 1 2 (mkarr [5; 6] 2)) /\
  h2_new 0 0 c_dbg (-2) (-3) h = HFail Throw [Some (0, [5; 6]); None] /\
  h2_new 0 0 c_off (-2) (-3) h = HOk (mkobj2 (-2) (-3) (mkobj (Some 1) 6)) [Some (0, [5; 6]); Some (0, [0; 0; 0; 0; 0; 0])] /\
  h2_resize_and_assign 0 0 c_dbg 2 2 r o h = HFail Throw [Some (0, [5; 6]); None] /\
  h2_insert_rows 0 0 c_dbg (h2_resize_and_assign 0 0 c_dbg 1 2 r o) 1 1 2 r o h =
    HOk (mkobj2 2 2 (mkobj (Some 1) 4)) [None; Some (0, [5; 6; 0; 0])] /\
  h2_assign c_dbg 1 2 r o h = HOk tt [Some (0, [0; 0])].
Proof.
  cbn zeta. split; [intros h' _ i j; now destruct (i + j <? 2)|]. split; [repeat split|]. split; [vm_compute; reflexivity|]. split; [vm_compute; reflexivity|].
  split; [vm_compute; reflexivity|]. split; vm_compute; reflexivity.
Qed.
