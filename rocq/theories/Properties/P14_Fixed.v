(** Property C59: fixed-size arrays (FixedArray1D, FixedArray2D). *)
From Verif Require Import Base.Outcome Base.ZList Model.Index Model.Slice Model.Array1D Model.Array2D Model.Store1D Model.FixedArray.
From Verif Require Import Spec.ArraySpec Spec.Store1DSpec Spec.MatrixSpec Spec.Matrix2Spec Spec.FixedSpec Spec.Configs.
From Verif Require Import Proofs.FixedProofs Proofs.FixedThms.

(** ** One dimension *)
(** Every program of constructions, assignments, moves, swaps, reads and writes, in every build configuration. *)
Theorem C59_history : forall (V : Type) (zero : V) c ops w, sizes_long w -> fops_ok zero c w ops ->
  run (fstep zero c) (objects w) ops = (on_res (fst (run (spec_fstep zero c) w ops)), snd (run (spec_fstep zero c) w ops)).
Proof. exact @fixed_history_thm. Qed.
Print Assumptions C59_history.
(** No program changes the size of an existing array. *)
Theorem C59_sizes : forall (V : Type) (zero : V) c ops w w' (o : obs V), sizes_long w -> fops_ok zero c w ops ->
  fst (run (fstep zero c) (objects w) ops) = Next w' o -> exists u t, w' = objects u /\ map zlen u = map zlen w ++ t.
Proof. exact @fixed_sizes_thm. Qed.
Print Assumptions C59_sizes.
Example C59_history_case :
  let ops := [FNewList 3 [5; 6; 7]; FNewMove 0; FWrite 0 (FromLast 0) 9; FSwap 0 1; FAssignList 0 [1; 2]; FRead 1 (Plain 2); FMoveAssign 0 1; FNewIter 2 0 1 3] in
  sizes_long (@nil (list Z)) /\ fops_ok 0 c_dbg [] ops /\
  run (spec_fstep 0 c_dbg) [] ops = (Next [[0; 0; 9]; [0; 0; 0]; [0; 9]] Done, [Done; Done; Done; Done; Failed Throw; Value 9; Done; Done]) /\
  run (fstep 0 c_dbg) [] ops = (Next (objects [[0; 0; 9]; [0; 0; 0]; [0; 9]]) Done, [Done; Done; Done; Done; Failed Throw; Value 9; Done; Done]).
Proof.
  split; [constructor|]. split; [|vm_compute; repeat split].
  repeat (cbn [fops_ok]; lazymatch goal with |- True => exact I | |- _ /\ match ?x with _ => _ end => let r := eval vm_compute in x in change x with r; cbn iota;
    split; [cbn [fop_ok]; unfold is_long, LONG_MIN, LONG_MAX; try lia; try exact I|] end).
  split; [lia|]. intros m [= <-]. cbn. lia.
Qed.

(** Moving a fixed array copies it and sets the source to zeros: the source keeps its size. *)
Theorem C59_move : forall (V : Type) (zero : V) a l, rep a l -> exists a' s, fx_move zero a = Ok (a', s) /\ rep a' l /\ rep s (repeat zero (length l)).
Proof. exact @fx_move_thm. Qed.
Print Assumptions C59_move.
Theorem C59_move_assign : forall (V : Type) (zero : V) a l s m, rep a l -> rep s m -> zlen l = zlen m ->
  exists a' s', fx_move_assign zero a s = Ok (a', s') /\ rep a' m /\ rep s' (repeat zero (length m)).
Proof. exact @fx_move_assign_thm. Qed.
Print Assumptions C59_move_assign.
(** std::swap exchanges the contents although every move zeroes its source. *)
Theorem C59_swap : forall (V : Type) (zero : V) a l s m, rep a l -> rep s m -> zlen l = zlen m ->
  exists a' s', fx_swap zero a s = Ok (a', s') /\ rep a' m /\ rep s' l.
Proof. exact @fx_swap_thm. Qed.
Print Assumptions C59_swap.
Example C59_move_case : fx_move 0 (mkarr [4; 5] 2) = Ok (mkarr [4; 5] 2, mkarr [0; 0] 2) /\ rep (mkarr [4; 5] 2) [4; 5] /\
  fx_move_assign 0 (mkarr [4; 5] 2) (mkarr [6; 7] 2) = Ok (mkarr [6; 7] 2, mkarr [0; 0] 2) /\
  fx_swap 0 (mkarr [4; 5] 2) (mkarr [6; 7] 2) = Ok (mkarr [6; 7] 2, mkarr [4; 5] 2).
Proof. vm_compute. repeat split. Qed.

(** Assignment from an object of any size: equal sizes replace the contents; other sizes are reported and change nothing;
    without checks a shorter object silently replaces the beginning only and a longer one writes out of bounds. *)
Theorem C59_assign : forall (V : Type) c a l A (m : list V), rep a l -> produces A m -> (forall i, sun A i = oget m i) ->
  (zlen m = zlen l -> exists a', fx_assign c A a = MOk a' /\ rep a' m) /\
  (zlen m <> zlen l -> checked c = true -> fx_assign c A a = MFail (report c) a) /\
  (zlen m < zlen l -> checked c = false -> exists a', fx_assign c A a = MOk a' /\ rep a' (m ++ skipn (length m) l)) /\
  (zlen l < zlen m -> checked c = false -> fx_assign c A a = MUB).
Proof. exact @fx_assign_thm. Qed.
Print Assumptions C59_assign.
Example C59_assign_case : let A l := src_of_list l in let a := mkarr [4; 5] 2 in
  fx_assign c_dbg (A [1; 2]) a = MOk (mkarr [1; 2] 2) /\ fx_assign c_abort (A [1]) a = MFail Abort a /\
  fx_assign c_off (A [1]) a = MOk (mkarr [1; 5] 2) /\ fx_assign c_silent (A [1; 2; 3]) a = MUB.
Proof. vm_compute. repeat split. Qed.

(** ** Two dimensions *)
Theorem C59_matrix_new : forall (V : Type) (zero : V) m n, shape_ok m n = true -> rep2 (fx2_new zero m n) (const_mat m n zero).
Proof. exact @fx2_new_thm. Qed.
Print Assumptions C59_matrix_new.
Theorem C59_matrix_fill : forall (V : Type) a M (x : V), rep2 a M -> exists a', fx2_set_all x a = Ok a' /\ rep2 a' (const_mat (zlen M) (ncols M) x).
Proof. exact @fx2_set_all_thm. Qed.
Print Assumptions C59_matrix_fill.
(** From a nested list: ragged lists and lists of another shape are reported. *)
Theorem C59_matrix_list : forall (V : Type) (zero : V) c m n L, shape_ok m n = true -> m * n <= LONG_MAX ->
  let R := matrix_of L in
  (good_list L = true /\ zlen R = m /\ ncols R = n -> exists a, fx2_of_list zero c m n L = Ok a /\ rep2 a R) /\
  (~ (good_list L = true /\ zlen R = m /\ ncols R = n) -> checked c = true -> fx2_of_list zero c m n L = Fail (report c)).
Proof. exact @fx2_of_list_thm. Qed.
Print Assumptions C59_matrix_list.
Theorem C59_matrix_assign_list : forall (V : Type) (zero : V) c a M L, rep2 a M -> zlen M * ncols M <= LONG_MAX -> let R := matrix_of L in
  (good_list L = true /\ zlen R = zlen M /\ ncols R = ncols M -> exists a', fx2_assign_list zero c L a = MOk a' /\ rep2 a' R) /\
  (~ (good_list L = true /\ zlen R = zlen M /\ ncols R = ncols M) -> checked c = true -> fx2_assign_list zero c L a = MFail (report c) a).
Proof. exact @fx2_assign_list_thm. Qed.
Print Assumptions C59_matrix_assign_list.
(** From any two-dimensional object. *)
Theorem C59_matrix_from : forall (V : Type) (zero : V) c m n A N, shape_ok m n = true -> m * n <= LONG_MAX -> produces2 A N ->
  (zlen N = m -> ncols N = n -> exists a, fx2_of_src zero c m n A = Ok a /\ rep2 a N) /\
  (~ (zlen N = m /\ ncols N = n) -> checked c = true -> fx2_of_src zero c m n A = Fail (report c)).
Proof. exact @fx2_of_src_thm. Qed.
Print Assumptions C59_matrix_from.
Theorem C59_matrix_assign : forall (V : Type) (zero : V) c a M A (N : list (list V)), rep2 a M -> zlen M * ncols M <= LONG_MAX -> produces2 A N ->
  (zlen N = zlen M -> ncols N = ncols M -> exists a', fx2_assign c A a = MOk a' /\ rep2 a' N) /\
  (~ (zlen N = zlen M /\ ncols N = ncols M) -> checked c = true -> fx2_assign c A a = MFail (report c) a).
Proof. exact @fx2_assign_thm. Qed.
Print Assumptions C59_matrix_assign.
(** Copies are equal; moves leave zeros in the source and keep its shape. *)
Theorem C59_matrix_copy : forall (V : Type) (zero : V) a M, rep2 a M -> fx2_copy zero a = Ok a.
Proof. exact @fx2_copy_thm. Qed.
Print Assumptions C59_matrix_copy.
Theorem C59_matrix_copy_assign : forall (V : Type) a s M (N : list (list V)), rep2 a M -> rep2 s N -> zlen M = zlen N -> ncols M = ncols N -> fx2_assign_same s a = MOk s.
Proof. exact @fx2_assign_same_thm. Qed.
Print Assumptions C59_matrix_copy_assign.
Theorem C59_matrix_move : forall (V : Type) (zero : V) a M, rep2 a M -> exists s, fx2_move zero a = Ok (a, s) /\ rep2 s (const_mat (zlen M) (ncols M) zero).
Proof. exact @fx2_move_thm. Qed.
Print Assumptions C59_matrix_move.
Theorem C59_matrix_move_assign : forall (V : Type) (zero : V) a s M N, rep2 a M -> rep2 s N -> zlen M = zlen N -> ncols M = ncols N ->
  exists s', fx2_move_assign zero a s = Ok (s, s') /\ rep2 s' (const_mat (zlen N) (ncols N) zero).
Proof. exact @fx2_move_assign_thm. Qed.
Print Assumptions C59_matrix_move_assign.
Example C59_matrix_case : let a := mkarr2 2 3 (mkarr [1; 2; 3; 4; 5; 6] 6) in
  rep2 a [[1; 2; 3]; [4; 5; 6]] /\ shape_ok 2 3 = true /\ fx2_of_list 0 c_dbg 2 3 [[1; 2; 3]; [4; 5; 6]] = Ok a /\
  fx2_of_list 0 c_dbg 2 3 [[1; 2; 3]; [4; 5]] = Fail Throw /\ fx2_of_list 0 c_abort 2 3 [[1; 2]; [3; 4]; [5; 6]] = Fail Abort /\
  fx2_of_list 0 c_dbg 0 0 [[]] = Ok (mkarr2 0 0 (mkarr [] 0)) /\
  fx2_move 0 a = Ok (a, mkarr2 2 3 (mkarr [0; 0; 0; 0; 0; 0] 6)) /\
  fx2_assign c_dbg (src_of_arr2 a) (mkarr2 3 2 (mkarr [9; 9; 9; 9; 9; 9] 6)) = MFail Throw (mkarr2 3 2 (mkarr [9; 9; 9; 9; 9; 9] 6)) /\
  fx2_assign c_dbg (src_of_arr2 a) (mkarr2 2 3 (mkarr [9; 9; 9; 9; 9; 9] 6)) = MOk a.
Proof. split; [split; [split; [repeat constructor|intros _; reflexivity]|repeat split]|vm_compute; repeat split]. Qed.
