(** Properties C27-C32: owning two-dimensional arrays. *)
From Coq Require Import Sorting.Sorted.
From Verif Require Import Base.Outcome Base.ZList Model.Index Model.Slice Model.Array1D Model.Array2D Model.Store1D Model.Store2D.
From Verif Require Import Spec.ArraySpec Spec.SliceSpec Spec.Store1DSpec Spec.MatrixSpec Spec.Matrix2Spec Spec.Store2DSpec Spec.Shape2Spec Spec.Configs.
From Verif Require Import Proofs.Store1DProofs Proofs.Store2DProofs Proofs.Array2DThms.

(** A 2 x 3 array used in the examples. *)
Definition ex23 : arr2 Z := mkarr2 2 3 (mkarr [1; 2; 3; 4; 5; 6] 6).
Definition ex11 : arr2 Z := mkarr2 1 1 (mkarr [9] 1).
Definition ex13 : arr2 Z := mkarr2 1 3 (mkarr [7; 8; 9] 3).
Definition ex00 : arr2 Z := mkarr2 0 0 (mkarr [] 0).
Example ex_sound : sound2 ex23 /\ sound2 ex11 /\ sound2 ex13 /\ sound2 ex00 /\ fits2 c_dbg ex23.
Proof. unfold sound2, fits2; cbn; repeat split; lia. Qed.

(** ** C27 *)
(** The addresses i*n+j of an m x n array are a bijection with 0..m*n-1, inverted by division. *)
Theorem C27_bijection : forall m n,
  0 <= m -> 0 <= n ->
  (forall i j, 0 <= i < m -> 0 <= j < n -> 0 <= i * n + j < m * n) /\
  (forall i j i' j', 0 <= i < m -> 0 <= j < n -> 0 <= i' < m -> 0 <= j' < n -> i * n + j = i' * n + j' -> i = i' /\ j = j') /\
  (forall k, 0 <= k < m * n -> exists i j, 0 <= i < m /\ 0 <= j < n /\ k = i * n + j /\ i = k / n /\ j = k mod n).
Proof. exact @row_major_thm. Qed.
Print Assumptions C27_bijection.

(** Two-index, checked and linear access agree on every element. *)
Theorem C27_read : forall (V : Type) (zero : V) c (a : arr2 V) i j,
  cfg_ok c -> sound2 a -> fits2 c a -> inside a i j ->
  exists v, elem a i j = Some v /\ sub2 c (src_of_arr2 a) (Plain i) (Plain j) = Ok v /\ at2 c (src_of_arr2 a) (Plain i) (Plain j) = Ok v /\
            s2lin (src_of_arr2 a) (i * dcols a + j) = Ok v.
Proof. exact @sub2_elem. Qed.
Print Assumptions C27_read.

(** Linear position k is element (k / cols, k mod cols). *)
Theorem C27_linear : forall (V : Type) (zero : V) c (a : arr2 V) k,
  cfg_ok c -> sound2 a -> fits2 c a -> 0 <= k < an (dat a) ->
  inside a (k / dcols a) (k mod dcols a) /\
  exists v, s2lin (src_of_arr2 a) k = Ok v /\ sub2 c (src_of_arr2 a) (Plain (k / dcols a)) (Plain (k mod dcols a)) = Ok v.
Proof. exact @linear_thm. Qed.
Print Assumptions C27_linear.

(** Writing (i, j) changes (i, j) and nothing else. *)
Theorem C27_write : forall (V : Type) c (a : arr2 V) i j (x : V),
  cfg_ok c -> sound2 a -> fits2 c a -> inside a i j ->
  exists a', arr2_write c (Plain i) (Plain j) x a = Ok a' /\ sound2 a' /\ drows a' = drows a /\ dcols a' = dcols a /\
    forall i' j', inside a i' j' -> elem a' i' j' = if (i' =? i) && (j' =? j) then Some x else elem a i' j'.
Proof. exact @write2_thm. Qed.
Print Assumptions C27_write.

(** Outside access is reported: by operator() in a checking build, by at() whenever failures can be reported at all. *)
Theorem C27_outside : forall (V : Type) c (a : arr2 V) ix jx,
  cfg_ok c -> sound2 a -> fits2 c a -> idx_fits (drows a) ix -> idx_fits (dcols a) jx ->
  ~ inside a (denotes (drows a) ix) (denotes (dcols a) jx) ->
  (exc c = true \/ ndbg c = false -> at2 c (src_of_arr2 a) ix jx = Fail (report c)) /\
  (checked c = true -> sub2 c (src_of_arr2 a) ix jx = Fail (report c) /\ forall x, arr2_write c ix jx x a = Fail (report c)).
Proof. exact @outside2_thm. Qed.
Print Assumptions C27_outside.

Example C27_case : inside ex23 1 2 /\ elem ex23 1 2 = Some 6 /\
  arr2_write c_off (Plain 1) (Plain 0) 40 ex23 = Ok (mkarr2 2 3 (mkarr [1; 2; 3; 40; 5; 6] 6)) /\
  at2 c_off (src_of_arr2 ex23) (Plain 1) (Plain 3) = Fail Throw /\ sub2 c_dbg (src_of_arr2 ex23) (Plain 0) (Plain 3) = Fail Throw /\
  sub2 c_off (src_of_arr2 ex23) (Plain 0) (Plain 3) = Ok 4.
Proof. unfold inside. cbn. repeat split; lia. Qed.

(** ** C28 *)
(** In a checking build, any history of operations on any number of arrays behaves as on matrices: same observations, same reported
    failures, and every array represents its matrix. *)
Theorem C28_history : forall (V : Type) (zero : V) c ops,
  cfg_ok c -> checked c = true -> Forall op2_long ops -> tame zero c [] ops ->
  snd (run (step2 zero c) [] ops) = snd (run (spec_step2 zero c) [] ops) /\
  match fst (run (spec_step2 zero c) [] ops) with
  | Next w ob => exists st, fst (run (step2 zero c) [] ops) = Next st ob /\ Forall2 rep2 st w
  | Crash => fst (run (step2 zero c) [] ops) = Crash
  end.
Proof. exact @run2_thm. Qed.
Print Assumptions C28_history.

(** In any build, a history in which every operation is valid does the same. *)
Theorem C28_valid_history : forall (V : Type) (zero : V) c ops,
  cfg_ok c -> Forall op2_long ops -> tame zero c [] ops -> valid_run (spec_step2 zero c) [] ops ->
  snd (run (step2 zero c) [] ops) = snd (run (spec_step2 zero c) [] ops) /\
  exists w ob st, fst (run (spec_step2 zero c) [] ops) = Next w ob /\ fst (run (step2 zero c) [] ops) = Next st ob /\ Forall2 rep2 st w.
Proof. exact @run2_any_thm. Qed.
Print Assumptions C28_valid_history.

(** Without self-moves, every array is sound after any history. *)
Theorem C28_shape_invariant : forall (V : Type) (zero : V) c ops,
  cfg_ok c -> dbg c = true -> ndbg c = false -> Forall op2_long ops ->
  Forall (fun o => match o with MoveAssign2 i j => i <> j | _ => True end) ops ->
  forall st ob, fst (run (step2 zero c) [] ops) = Next st ob -> Forall sound2 st.
Proof. exact @shape_history_thm. Qed.
Print Assumptions C28_shape_invariant.

(** A failed operation leaves every array as it was. *)
Theorem C28_failed_unchanged : forall (V : Type) (zero : V) c st w o f, checked c = true -> represents2 c st w -> op2_long o ->
  odd_move c w o = false -> forall st', step2 zero c st o = Next st' (Failed f) -> st' = st.
Proof. exact @failed2_unchanged. Qed.
Print Assumptions C28_failed_unchanged.

Example C28_case :
  let ops := [New2 2 3; NewList2 [[1; 2]; [3; 4]]; InsertRows 0 1 1; RemoveCols 1 0 1; Write2 0 (Plain 1) (FromLast 0) 5; InsertCols 0 3 0;
              RemoveRowsIdx 0 [1; 0]; RemoveRow 1 2; MoveAssign2 0 1; NewCopy2 0; RemoveCols 0 0 6; InsertRow 0 0 [4; 4]; Read2 0 (Plain 0) (Plain 1)] in
  Forall op2_long ops /\ Forall (fun o : op2 Z => match o with MoveAssign2 i j => i <> j | _ => True end) ops /\
  run (step2 0 c_abort) [] ops =
    (Next [mkarr2 2 3 (mkarr [0; 0; 0; 0; 0; 0] 6); mkarr2 2 2 (mkarr [1; 2; 3; 4] 4)] (Failed Abort), [Done; Done; Failed Abort]) /\
  run (step2 0 c_dbg) [] (firstn 8 ops ++ skipn 9 ops) =
    (Next [mkarr2 1 2 (mkarr [4; 4] 2); mkarr2 2 1 (mkarr [2; 4] 2); mkarr2 2 6 (mkarr [0; 0; 0; 0; 0; 0; 0; 0; 5; 0; 0; 5] 12)] Done,
     [Done; Done; Failed Throw; Done; Done; Done; Failed Throw; Failed Throw; Done; Done; Done; Value 4]).
Proof.
  cbv zeta. split; [repeat constructor; unfold is_long, LONG_MIN, LONG_MAX; lia|]. split; [repeat constructor; discriminate|].
  split; vm_compute; reflexivity.
Qed.

(** ** C29 *)
Theorem C29_new : forall (V : Type) (zero : V) c m n x,
  cfg_ok c -> 0 <= m -> 0 <= n -> (m = 0 <-> n = 0) -> m * n <= amax c ->
  (exists a, arr2_new zero c m n = Ok a /\ holds a m n (fun _ _ => Some zero)) /\
  (exists a, arr2_new_fill zero c m n x = Ok a /\ holds a m n (fun _ _ => Some x)).
Proof. exact @new2_thm. Qed.
Print Assumptions C29_new.

Theorem C29_remove_rows : forall (V : Type) (zero : V) c (a : arr2 V) p k,
  cfg_ok c -> sound2 a -> fits2 c a -> 0 < k -> 0 <= p -> p + k <= drows a ->
  exists a', arr2_remove_rows zero c p k a = Ok a' /\
    (k = drows a -> empty2 a') /\
    (k < drows a -> holds a' (drows a - k) (dcols a) (fun i j => elem a (if i <? p then i else i + k) j)).
Proof. exact @remove_rows_thm. Qed.
Print Assumptions C29_remove_rows.

Theorem C29_remove_cols : forall (V : Type) (zero : V) c (a : arr2 V) p k,
  cfg_ok c -> sound2 a -> fits2 c a -> 0 < k -> 0 <= p -> p + k <= dcols a ->
  exists a', arr2_remove_cols zero c p k a = Ok a' /\
    (k = dcols a -> empty2 a') /\
    (k < dcols a -> holds a' (drows a) (dcols a - k) (fun i j => elem a i (if j <? p then j else j + k))).
Proof. exact @remove_cols_thm. Qed.
Print Assumptions C29_remove_cols.

(** Removal by a strictly increasing list of indices keeps exactly the other rows, in order. *)
Theorem C29_remove_rows_idx : forall (V : Type) (zero : V) c (a : arr2 V) v,
  cfg_ok c -> sound2 a -> fits2 c a -> StronglySorted Z.lt v -> Forall (fun p => 0 <= p < drows a) v ->
  exists a' ps, arr2_remove_rows_idx zero c v a = Ok a' /\ StronglySorted Z.lt ps /\ (forall p, In p ps <-> 0 <= p < drows a /\ ~ In p v) /\
    (ps = [] -> empty2 a') /\
    (ps <> [] -> holds a' (zlen ps) (dcols a) (fun i j => match znth ps i with Some p => elem a p j | None => None end)).
Proof. exact @remove_rows_idx_thm. Qed.
Print Assumptions C29_remove_rows_idx.

Theorem C29_remove_cols_idx : forall (V : Type) (zero : V) c (a : arr2 V) v,
  cfg_ok c -> sound2 a -> fits2 c a -> StronglySorted Z.lt v -> Forall (fun p => 0 <= p < dcols a) v ->
  exists a' ps, arr2_remove_cols_idx zero c v a = Ok a' /\ StronglySorted Z.lt ps /\ (forall p, In p ps <-> 0 <= p < dcols a /\ ~ In p v) /\
    (ps = [] -> empty2 a') /\
    (ps <> [] -> holds a' (drows a) (zlen ps) (fun i j => match znth ps j with Some q => elem a i q | None => None end)).
Proof. exact @remove_cols_idx_thm. Qed.
Print Assumptions C29_remove_cols_idx.

(** Insertion of the rows of any two-dimensional object A with values N. *)
Theorem C29_insert_rows : forall (V : Type) (zero : V) c (a : arr2 V) A N p,
  cfg_ok c -> sound2 a -> fits2 c a -> produces2 A N ->
  (drows a = 0 -> p = 0 -> zlen N * ncols N <= amax c ->
   exists a', arr2_insert_rows zero c p A a = Ok a' /\ holds a' (zlen N) (ncols N) (mget N)) /\
  (0 < drows a -> 0 <= p <= drows a -> ncols N = dcols a -> (drows a + zlen N) * dcols a <= amax c ->
   exists a', arr2_insert_rows zero c p A a = Ok a' /\
    holds a' (drows a + zlen N) (dcols a)
      (fun i j => if i <? p then elem a i j else if i <? p + zlen N then mget N (i - p) j else elem a (i - zlen N) j)).
Proof. exact @insert_rows_thm. Qed.
Print Assumptions C29_insert_rows.

Theorem C29_insert_cols : forall (V : Type) (zero : V) c (a : arr2 V) A N p,
  cfg_ok c -> sound2 a -> fits2 c a -> produces2 A N ->
  (drows a = 0 -> p = 0 -> zlen N * ncols N <= amax c ->
   exists a', arr2_insert_cols zero c p A a = Ok a' /\ holds a' (zlen N) (ncols N) (mget N)) /\
  (0 < drows a -> 0 <= p <= dcols a -> zlen N = drows a -> drows a * (dcols a + ncols N) <= amax c ->
   exists a', arr2_insert_cols zero c p A a = Ok a' /\
    holds a' (drows a) (dcols a + ncols N)
      (fun i j => if j <? p then elem a i j else if j <? p + ncols N then mget N i (j - p) else elem a i (j - ncols N))).
Proof. exact @insert_cols_thm. Qed.
Print Assumptions C29_insert_cols.

(** Insertion of another array. *)
Theorem C29_insert_rows_array : forall (V : Type) (zero : V) c (a s : arr2 V) p,
  cfg_ok c -> sound2 a -> fits2 c a -> sound2 s -> fits2 c s ->
  (drows a = 0 -> p = 0 -> exists a', arr2_insert_rows_arr zero c p s a = Ok a' /\ holds a' (drows s) (dcols s) (elem s)) /\
  (0 < drows a -> 0 <= p <= drows a -> dcols s = dcols a -> (drows a + drows s) * dcols a <= amax c ->
   exists a', arr2_insert_rows_arr zero c p s a = Ok a' /\
    holds a' (drows a + drows s) (dcols a)
      (fun i j => if i <? p then elem a i j else if i <? p + drows s then elem s (i - p) j else elem a (i - drows s) j)).
Proof. exact @insert_rows_arr_thm. Qed.
Print Assumptions C29_insert_rows_array.

Theorem C29_insert_cols_array : forall (V : Type) (zero : V) c (a s : arr2 V) p,
  cfg_ok c -> sound2 a -> fits2 c a -> sound2 s -> fits2 c s ->
  (drows a = 0 -> p = 0 -> exists a', arr2_insert_cols_arr zero c p s a = Ok a' /\ holds a' (drows s) (dcols s) (elem s)) /\
  (0 < drows a -> 0 <= p <= dcols a -> drows s = drows a -> drows a * (dcols a + dcols s) <= amax c ->
   exists a', arr2_insert_cols_arr zero c p s a = Ok a' /\
    holds a' (drows a) (dcols a + dcols s)
      (fun i j => if j <? p then elem a i j else if j <? p + dcols s then elem s i (j - p) else elem a i (j - dcols s))).
Proof. exact @insert_cols_arr_thm. Qed.
Print Assumptions C29_insert_cols_array.

(** Insertion of one row, B any one-dimensional object with values l. *)
Theorem C29_insert_row : forall (V : Type) (zero : V) c (a : arr2 V) B l p,
  cfg_ok c -> sound2 a -> fits2 c a -> produces B l ->
  (drows a = 0 -> p = 0 -> 0 < zlen l <= amax c ->
   exists a', arr2_insert_row zero c p B a = Ok a' /\ holds a' 1 (zlen l) (fun _ j => znth l j)) /\
  (0 < drows a -> 0 <= p <= drows a -> zlen l = dcols a -> (drows a + 1) * dcols a <= amax c ->
   exists a', arr2_insert_row zero c p B a = Ok a' /\
    holds a' (drows a + 1) (dcols a) (fun i j => if i <? p then elem a i j else if i =? p then znth l j else elem a (i - 1) j)).
Proof. exact @insert_row_thm. Qed.
Print Assumptions C29_insert_row.

Theorem C29_insert_col : forall (V : Type) (zero : V) c (a : arr2 V) B l p,
  cfg_ok c -> sound2 a -> fits2 c a -> produces B l ->
  (drows a = 0 -> p = 0 -> 0 < zlen l <= amax c ->
   exists a', arr2_insert_col zero c p B a = Ok a' /\ holds a' (zlen l) 1 (fun i _ => znth l i)) /\
  (0 < drows a -> 0 <= p <= dcols a -> zlen l = drows a -> drows a * (dcols a + 1) <= amax c ->
   exists a', arr2_insert_col zero c p B a = Ok a' /\
    holds a' (drows a) (dcols a + 1) (fun i j => if j <? p then elem a i j else if j =? p then znth l i else elem a i (j - 1))).
Proof. exact @insert_col_thm. Qed.
Print Assumptions C29_insert_col.

Theorem C29_resize : forall (V : Type) (zero : V) c (a : arr2 V) m n,
  cfg_ok c -> sound2 a -> fits2 c a -> 0 <= m -> 0 <= n -> (m = 0 <-> n = 0) -> m * n <= amax c ->
  exists a', arr2_resize zero c m n true a = Ok a' /\
    holds a' m n (fun i j => if (i <? drows a) && (j <? dcols a) then elem a i j else Some zero).
Proof. exact @resize2_thm. Qed.
Print Assumptions C29_resize.

(** Without preservation the new elements are zero, except that an unchanged number of elements keeps the old ones in row-major order. *)
Theorem C29_resize_discard : forall (V : Type) (zero : V) c (a : arr2 V) m n,
  cfg_ok c -> sound2 a -> fits2 c a -> 0 <= m -> 0 <= n -> (m = 0 <-> n = 0) -> m * n <= amax c ->
  exists a', arr2_resize zero c m n false a = Ok a' /\
    holds a' m n (fun i j => if m * n =? drows a * dcols a then znth (buf (dat a)) (i * n + j) else Some zero).
Proof. exact @resize2_false_thm. Qed.
Print Assumptions C29_resize_discard.

(** Invalid positions, counts, index lists and shapes are reported. *)
Theorem C29_invalid : forall (V : Type) (zero : V) c (a : arr2 V),
  cfg_ok c -> sound2 a -> fits2 c a -> checked c = true ->
  (forall p k, is_long p -> is_long k -> p + k <= LONG_MAX -> ~ (0 < k /\ 0 <= p /\ p + k <= drows a) -> arr2_remove_rows zero c p k a = Fail (report c)) /\
  (forall p k, is_long p -> is_long k -> p + k <= LONG_MAX -> ~ (0 < k /\ 0 <= p /\ p + k <= dcols a) -> arr2_remove_cols zero c p k a = Fail (report c)) /\
  (forall v, ~ (StronglySorted Z.lt v /\ Forall (fun p => 0 <= p < drows a) v) -> arr2_remove_rows_idx zero c v a = Fail (report c)) /\
  (forall v, ~ (StronglySorted Z.lt v /\ Forall (fun p => 0 <= p < dcols a) v) -> arr2_remove_cols_idx zero c v a = Fail (report c)) /\
  (forall p A, ~ (0 <= p <= drows a /\ (drows a = 0 \/ s2cols A = dcols a)) -> arr2_insert_rows zero c p A a = Fail (report c)) /\
  (forall p A, ~ (0 <= p <= dcols a /\ (drows a = 0 \/ s2rows A = drows a)) -> arr2_insert_cols zero c p A a = Fail (report c)) /\
  (forall p B l, produces B l -> ~ (0 <= p <= drows a /\ (if drows a =? 0 then 0 < zlen l else zlen l = dcols a)) -> arr2_insert_row zero c p B a = Fail (report c)) /\
  (forall p B l, produces B l -> ~ (0 <= p <= dcols a /\ (if drows a =? 0 then 0 < zlen l else zlen l = drows a)) -> arr2_insert_col zero c p B a = Fail (report c)) /\
  (forall m n pr, is_long m -> is_long n -> ~ (0 <= m /\ 0 <= n /\ (m = 0 <-> n = 0)) -> arr2_resize zero c m n pr a = Fail (report c)).
Proof. exact @invalid2_thm. Qed.
Print Assumptions C29_invalid.

Example C29_case :
  arr2_remove_rows 0 c_dbg 0 1 ex23 = Ok (mkarr2 1 3 (mkarr [4; 5; 6] 3)) /\ arr2_remove_rows 0 c_dbg 0 2 ex23 = Ok ex00 /\
  arr2_remove_cols 0 c_off 1 1 ex23 = Ok (mkarr2 2 2 (mkarr [1; 3; 4; 6] 4)) /\
  arr2_remove_cols_idx 0 c_off [0; 2] ex23 = Ok (mkarr2 2 1 (mkarr [2; 5] 2)) /\
  arr2_insert_rows_arr 0 c_dbg 1 ex13 ex23 = Ok (mkarr2 3 3 (mkarr [1; 2; 3; 7; 8; 9; 4; 5; 6] 9)) /\
  arr2_insert_cols_arr 0 c_dbg 0 ex13 ex00 = Ok ex13 /\ arr2_insert_cols_arr 0 c_dbg 3 ex13 ex23 = Fail Throw /\
  arr2_resize 0 c_off 3 2 true ex23 = Ok (mkarr2 3 2 (mkarr [1; 2; 4; 5; 0; 0] 6)) /\
  arr2_resize 0 c_off 3 2 false ex23 = Ok (mkarr2 3 2 (mkarr [1; 2; 3; 4; 5; 6] 6)).
Proof. vm_compute. repeat split. Qed.

(** ** C30 *)
(** remove_row(last - k) and remove_col(last - k) remove the final row and column for every k. *)
Theorem C30_offset_ignored : forall (V : Type) (zero : V) c (a : arr2 V) k,
  cfg_ok c -> sound2 a -> fits2 c a -> 0 < drows a ->
  (exists a', arr2_remove_row_last zero c k a = Ok a' /\ arr2_remove_row zero c (drows a - 1) a = Ok a' /\
    (drows a = 1 -> empty2 a') /\ (1 < drows a -> holds a' (drows a - 1) (dcols a) (elem a))) /\
  (exists a', arr2_remove_col_last zero c k a = Ok a' /\ arr2_remove_col zero c (dcols a - 1) a = Ok a' /\
    (dcols a = 1 -> empty2 a') /\ (1 < dcols a -> holds a' (drows a) (dcols a - 1) (elem a))).
Proof. exact @remove_last_thm. Qed.
Print Assumptions C30_offset_ignored.

(** So they do not follow the convention that [last - k] denotes position size - 1 - k. *)
Theorem C30_convention_refuted : exists c (a a1 a2 : arr2 Z) k, cfg_ok c /\ sound2 a /\ fits2 c a /\ 0 <= k < drows a /\
  arr2_remove_row_last 0 c k a = Ok a1 /\ arr2_remove_row 0 c (drows a - 1 - k) a = Ok a2 /\ a1 <> a2.
Proof.
  exists c_dbg, ex23, (mkarr2 1 3 (mkarr [1; 2; 3] 3)), (mkarr2 1 3 (mkarr [4; 5; 6] 3)), 1. unfold cfg_ok, sound2, fits2. cbn [drows dcols]. vm_compute.
  repeat split; try discriminate.
Qed.
Print Assumptions C30_convention_refuted.
Example C30_case : arr2_remove_col_last 0 c_dbg 7 ex23 = Ok (mkarr2 2 2 (mkarr [1; 2; 4; 5] 4)).
Proof. reflexivity. Qed.

(** ** C31 *)
(** One dimension: move construction, move assignment and resize_and_assign(move) transfer and leave an empty array; self-move keeps the array. *)
Theorem C31_moves_1d : forall (V : Type) (a b : arr V) c,
  arr_move b = (b, arr_empty) /\ rep (@arr_empty V) [] /\
  (an a = an b -> arr_move_assign c a b = Ok (b, arr_empty)) /\
  arr_resize_and_assign_move a b = (b, arr_empty) /\
  arr_move_assign_self a = a.
Proof. exact @move1_thm. Qed.
Print Assumptions C31_moves_1d.

(** Two dimensions: the same between distinct arrays. *)
Theorem C31_moves_2d : forall (V : Type) c (a b : arr2 V),
  sound2 b ->
  (exists b', arr2_move b = (b, b') /\ empty2 b' /\ sound2 b') /\
  (exists b', arr2_resize_and_assign_move a b = (b, b') /\ empty2 b' /\ sound2 b') /\
  (sound2 a -> drows a = drows b -> dcols a = dcols b -> exists b', arr2_move_assign c a b = Ok (b, b') /\ empty2 b' /\ sound2 b').
Proof. exact @move2_thm. Qed.
Print Assumptions C31_moves_2d.

(** Moving a two-dimensional array onto itself zeroes its dimensions but keeps the elements, so it stays sound only if it was empty. *)
Theorem C31_self_move_2d : forall (V : Type) (a : arr2 V),
  sound2 a ->
  drows (arr2_move_assign_self a) = 0 /\ dcols (arr2_move_assign_self a) = 0 /\ dat (arr2_move_assign_self a) = dat a /\
  (sound2 (arr2_move_assign_self a) <-> drows a = 0).
Proof. exact @self_move2_thm. Qed.
Print Assumptions C31_self_move_2d.

Theorem C31_self_move_refuted : exists a : arr2 Z, sound2 a /\ ~ sound2 (arr2_move_assign_self a).
Proof.
  exists ex23. split; [apply ex_sound|]. intros H. destruct (self_move2_thm ex23) as (_ & _ & _ & E); [apply ex_sound|].
  apply E in H. discriminate.
Qed.
Print Assumptions C31_self_move_refuted.
Example C31_case : arr2_move_assign c_dbg ex13 (mkarr2 1 3 (mkarr [4; 5; 6] 3)) = Ok (mkarr2 1 3 (mkarr [4; 5; 6] 3), ex00) /\
  arr2_move_assign_self ex13 = mkarr2 0 0 (mkarr [7; 8; 9] 3).
Proof. split; reflexivity. Qed.

(** ** C32 *)
(** Different shapes: aborts with assertions on; with them compiled out the old shape stays with the new storage, and if that is smaller
    there is an element inside the shape whose access, with any checks, is undefined behaviour. *)
Theorem C32_mismatched_move : forall (V : Type) c (a s : arr2 V),
  sound2 a -> sound2 s -> (drows a <> drows s \/ dcols a <> dcols s) ->
  (dbg c = true -> ndbg c = false -> arr2_move_assign c a s = Fail Abort) /\
  (dbg c = false \/ ndbg c = true ->
   exists a', arr2_move_assign c a s = Ok (a', arr2_empty) /\ drows a' = drows a /\ dcols a' = dcols a /\ dat a' = dat s /\
     (drows s * dcols s < drows a * dcols a -> drows a * dcols a <= LONG_MAX -> 
      forall c', exists i j, inside a' i j /\ sub2 c' (src_of_arr2 a') (Plain i) (Plain j) = UB /\ at2 c' (src_of_arr2 a') (Plain i) (Plain j) = UB /\
        forall x, arr2_write c' (Plain i) (Plain j) x a' = UB)).
Proof. exact @mismatched_move_thm. Qed.
Print Assumptions C32_mismatched_move.

Example C32_case : exists a', arr2_move_assign c_silent ex23 ex11 = Ok (a', ex00) /\ inside a' 1 2 /\
  at2 c_dbg (src_of_arr2 a') (Plain 1) (Plain 2) = UB /\ arr2_move_assign (mkcfg true true true 1000) ex23 ex11 = Ok (a', ex00) /\ arr2_move_assign c_abort ex23 ex11 = Fail Abort.
Proof. exists (mkarr2 2 3 (mkarr [9] 1)). unfold inside. cbn. repeat split; lia. Qed.
