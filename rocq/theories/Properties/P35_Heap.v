(** Property C81: the memory of owning one-dimensional arrays. *)
From Verif Require Import Base.Outcome Base.ZList Model.Index Model.Slice Model.Array1D Model.Store1D Model.Heap.
From Verif Require Import Spec.ArraySpec Spec.Store1DSpec Spec.Configs Spec.HeapSpec Proofs.Store1DProofs Proofs.HeapProofs.

(** ** C81 *)
(** Any program in any configuration: with pointers and operator new[]/delete[] it does what the functions on values do; in particular no read or
    write is outside a live block, and no block is freed twice, unless the functions on values are undefined. *)
Theorem C81_values : forall (V : Type) (zero : V) (al : Z) c ops,
  snd (run (hstep1 zero al c) ([], []) ops) = snd (run (step1 zero c) [] ops) /\
  match fst (run (step1 zero c) [] ops) with
  | Next st ob => exists h l, fst (run (hstep1 zero al c) ([], []) ops) = Next (h, l) ob /\ holds_all al h l st /\
      (ob = Done -> unshared l /\ no_leak h l)
  | Crash => fst (run (hstep1 zero al c) ([], []) ops) = Crash
  end.
Proof. exact @run_start. Qed.
Print Assumptions C81_values.

(** With checks on: the program is that of the list model, and when it ends the destructors free every block, once. *)
Theorem C81_history : forall (V : Type) (zero : V) (al : Z) c ops, cfg_ok c -> checked c = true -> Forall op_long ops ->
  snd (run (hstep1 zero al c) ([], []) ops) = snd (run (spec_step1 zero c) [] ops) /\
  match fst (run (spec_step1 zero c) [] ops) with
  | Next w ob => exists h l, fst (run (hstep1 zero al c) ([], []) ops) = Next (h, l) ob /\ Forall2 (contents al h) l w /\
      (ob = Done -> exists h', h_close al l h = HOk tt h' /\ all_free h')
  | Crash => fst (run (hstep1 zero al c) ([], []) ops) = Crash
  end.
Proof. exact @run_list. Qed.
Print Assumptions C81_history.

(** With checks off, for programs that only make valid calls. *)
Theorem C81_history_valid : forall (V : Type) (zero : V) (al : Z) c ops, cfg_ok c -> Forall op_long ops -> valid_run (spec_step1 zero c) [] ops ->
  snd (run (hstep1 zero al c) ([], []) ops) = snd (run (spec_step1 zero c) [] ops) /\
  exists w ob h l, fst (run (spec_step1 zero c) [] ops) = Next w ob /\ fst (run (hstep1 zero al c) ([], []) ops) = Next (h, l) ob /\
    Forall2 (contents al h) l w /\ (ob = Done -> exists h', h_close al l h = HOk tt h' /\ all_free h').
Proof. exact @run_valid. Qed.
Print Assumptions C81_history_valid.

(** A constructor from any source: if the source throws at some element, or there is no memory, nothing new is live. *)
Theorem C81_construct : forall (V : Type) (zero : V) (al : Z) c A r h, sees h r (sun A) -> made al h (h_of_src zero al c (ssize A) r) (arr_of_src zero c A).
Proof. exact @made_src. Qed.
Print Assumptions C81_construct.

(** resize_and_assign, insert and resize of an array that is live, from sources that can throw and can read the array itself: on success the old
    block and no other is freed, on an exception the memory is as before. *)
Theorem C81_resize_and_assign : forall (V : Type) (zero : V) (al : Z) c A r h o a, repr al h o a -> sees h r (sun A) ->
  changes al h o (h_resize_and_assign zero al c (ssize A) r o) (arr_resize_and_assign zero c A).
Proof. exact @resize_and_assign_sim. Qed.
Print Assumptions C81_resize_and_assign.
Theorem C81_insert : forall (V : Type) (zero : V) (al : Z) c pos A r h o a, repr al h o a -> sees h r (sun A) ->
  changes al h o (h_insert_src zero al c pos (ssize A) r o) (arr_insert_arr zero c pos A a).
Proof. exact @insert_src_sim. Qed.
Print Assumptions C81_insert.
Theorem C81_resize : forall (V : Type) (zero : V) (al : Z) c n pr h o a, repr al h o a -> changes al h o (h_resize zero al c n pr o) (arr_resize zero c n pr a).
Proof. exact @resize_sim. Qed.
Print Assumptions C81_resize.
Theorem C81_remove : forall (V : Type) (zero : V) (al : Z) c pos count h o a, repr al h o a ->
  changes al h o (h_remove zero al c pos count o) (arr_remove zero c pos count a).
Proof. exact @remove_sim. Qed.
Print Assumptions C81_remove.

(** An assignment that throws midway leaves the elements assigned so far, in the same block; memory is in order. *)
Theorem C81_assign : forall (V : Type) (al : Z) c A r h l st i o (a : arr V), memory_ok al h l st -> znth l i = Some o -> znth st i = Some a ->
  (forall h', only (optr o) h h' -> forall k, r k h' = lift (sun A k) h') ->
  match arr_assign c A a with
  | MOk a' => exists h', h_assign c (ssize A) r o h = HOk tt h' /\ memory_ok al h' l (zupd st i a')
  | MFail f a' => exists h', h_assign c (ssize A) r o h = HFail f h' /\ memory_ok al h' l (zupd st i a')
  | MUB => h_assign c (ssize A) r o h = HUB
  end.
Proof. exact @assign_keeps. Qed.
Print Assumptions C81_assign.

(** What reads an array, a list or a slice. *)
Theorem C81_sources : forall (V : Type) (al : Z) (h : heap (V := V)) o a v l, repr al h o a ->
  sees h (h_load o) (sun (src_of_arr a)) /\ sees h (fun i => lift (oget l i)) (sun (src_of_list l)) /\
  sees h (fun i => hbind (lift (view_map v i)) (fun j => h_load o j)) (view_un v (buf a)).
Proof. intros V al h o a v l R. split; [exact (sees_load al h o a R)|]. split; [exact (sees_list h l)|exact (sees_slice al h o a v R)]. Qed.
Print Assumptions C81_sources.

Example C81_case :
  let ops := [New 3; NewList [7; 8; 9]; Assign 0 1; InsertArr 0 1 0; Remove 0 5 2; RemoveLast 0 0; Resize 0 (-4) true;
              NewSlice 0 Reverse; ResizeAssignMove 1 2; Swap 0 2; NewMove 1; NewFill 0 4; Read 3 (FromLast 0)] in
  Forall op_long ops /\
  run (hstep1 0 64 c_dbg) ([], []) ops =
    (Next ([None; None; None; Some (64, [7; 7; 8; 9; 8]); Some (64, [8; 9; 8; 7; 7])],
           [mkobj None 0; mkobj None 0; mkobj (Some 3) 5; mkobj (Some 4) 5; mkobj None 0]) Done,
     [Done; Done; Done; Done; Failed Throw; Done; Failed Throw; Done; Done; Done; Done; Done; Value 7]).
Proof. split; [repeat constructor; unfold is_long, LONG_MIN, LONG_MAX; lia|]. vm_compute. reflexivity. Qed.
(** A source that throws at its third element. *)
Example C81_case_throw :
  let r : Z -> hm (V := Z) Z := fun i => if i <? 2 then hret i else lift (Fail Throw) in
  let h := [Some (0, [5; 6])] in
  sees h r (fun i => if i <? 2 then Ok i else Fail Throw) /\ repr 0 h (mkobj (Some 0) 2) (mkarr [5; 6] 2) /\
  h_resize_and_assign 0 0 c_dbg 4 r (mkobj (Some 0) 2) h = HFail Throw [Some (0, [5; 6]); None] /\
  h_resize_and_assign 0 0 c_dbg 2 r (mkobj (Some 0) 2) h = HOk (mkobj (Some 1) 2) [None; Some (0, [0; 1])].
Proof. cbn zeta. split; [|split; [split; reflexivity|split; vm_compute; reflexivity]]. intros h' _ i. now destruct (i <? 2). Qed.
