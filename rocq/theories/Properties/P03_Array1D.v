(** Properties C24-C26: owning one-dimensional arrays. *)
From Coq Require Import Sorting.Sorted.
From Verif Require Import Base.Outcome Base.ZList Model.Index Model.Array1D Model.Slice Model.Store1D.
From Verif Require Import Spec.ArraySpec Spec.SliceSpec Spec.Store1DSpec Spec.Configs Proofs.Store1DProofs Proofs.Array1DThms.

(** ** C24 *)
(** resize(n) keeps the common prefix and fills with zero, in every configuration. *)
Theorem C24_resize : forall (V : Type) (zero : V) c a l n, rep a l -> 0 <= n <= amax c ->
  exists a', arr_resize zero c n true a = Ok a' /\ an a' = n /\ zlen (buf a') = n /\
    (forall i, 0 <= i < Z.min n (zlen l) -> znth (buf a') i = znth l i) /\
    (forall i, zlen l <= i < n -> znth (buf a') i = Some zero).
Proof. exact @resize_thm. Qed.
Print Assumptions C24_resize.

(** insert(pos, x): before it everything stays, x is at pos, everything from pos on moves up by one. *)
Theorem C24_insert : forall (V : Type) (zero : V) c a l x p, cfg_ok c -> rep a l -> 0 <= p <= zlen l -> zlen l < amax c ->
  exists a', arr_insert zero c p x a = Ok a' /\ an a' = zlen l + 1 /\ zlen (buf a') = zlen l + 1 /\
    (forall i, 0 <= i < p -> znth (buf a') i = znth l i) /\ znth (buf a') p = Some x /\
    (forall i, p <= i < zlen l -> znth (buf a') (i + 1) = znth l i).
Proof. exact @insert_thm. Qed.
Print Assumptions C24_insert.

(** insert(pos, A): A any one-dimensional object. *)
Theorem C24_insert_array : forall (V : Type) (zero : V) c a l A m p, cfg_ok c -> rep a l -> produces A m -> 0 <= p <= zlen l ->
  zlen l + zlen m <= amax c ->
  exists a', arr_insert_arr zero c p A a = Ok a' /\ an a' = zlen l + zlen m /\ zlen (buf a') = zlen l + zlen m /\
    (forall i, 0 <= i < p -> znth (buf a') i = znth l i) /\
    (forall i, 0 <= i < zlen m -> znth (buf a') (p + i) = znth m i) /\
    (forall i, p <= i < zlen l -> znth (buf a') (i + zlen m) = znth l i).
Proof. exact @insert_arr_thm. Qed.
Print Assumptions C24_insert_array.

Theorem C24_insert_front_back : forall (V : Type) (zero : V) c a l x, cfg_ok c -> rep a l -> zlen l < amax c ->
  (exists a', arr_insert_front zero c x a = Ok a' /\ rep a' (x :: l)) /\
  (exists a', arr_insert_back zero c x a = Ok a' /\ rep a' (l ++ [x])).
Proof. exact @insert_front_back_thm. Qed.
Print Assumptions C24_insert_front_back.

(** remove(pos, count) takes out exactly the positions pos..pos+count-1. *)
Theorem C24_remove : forall (V : Type) (zero : V) c a l p k, cfg_ok c -> rep a l -> zlen l <= amax c ->
  0 < k -> 0 <= p -> p + k <= zlen l ->
  exists a', arr_remove zero c p k a = Ok a' /\ an a' = zlen l - k /\ zlen (buf a') = zlen l - k /\
    (forall i, 0 <= i < p -> znth (buf a') i = znth l i) /\
    (forall i, p + k <= i < zlen l -> znth (buf a') (i - k) = znth l i).
Proof. exact @remove_thm. Qed.
Print Assumptions C24_remove.

(** remove(last - k) takes out element size-1-k. *)
Theorem C24_remove_last : forall (V : Type) (zero : V) c a l k, cfg_ok c -> rep a l -> zlen l <= amax c -> 0 <= k < zlen l ->
  exists a', arr_remove_last zero c k a = Ok a' /\
    rep a' (firstn (Z.to_nat (zlen l - 1 - k)) l ++ skipn (Z.to_nat (zlen l - k)) l).
Proof. exact @remove_last_thm. Qed.
Print Assumptions C24_remove_last.

Theorem C24_remove_front_back : forall (V : Type) (zero : V) c a l k, cfg_ok c -> rep a l -> zlen l <= amax c -> 0 < k <= zlen l ->
  (exists a', arr_remove_front zero c k a = Ok a' /\ rep a' (skipn (Z.to_nat k) l)) /\
  (exists a', arr_remove_back zero c k a = Ok a' /\ rep a' (firstn (Z.to_nat (zlen l - k)) l)).
Proof. exact @remove_front_back_thm. Qed.
Print Assumptions C24_remove_front_back.

(** remove(indexes) keeps, in order, exactly the positions not listed. *)
Theorem C24_remove_indexes : forall (V : Type) (zero : V) c a l v, cfg_ok c -> rep a l -> zlen l <= amax c ->
  StronglySorted Z.lt v -> Forall (fun p => 0 <= p < zlen l) v ->
  exists a' ps, arr_remove_indexes zero c v a = Ok a' /\ rep a' (pick l ps) /\ StronglySorted Z.lt ps /\
    forall p, In p ps <-> 0 <= p < zlen l /\ ~ In p v.
Proof. exact @remove_indexes_thm. Qed.
Print Assumptions C24_remove_indexes.

(** Invalid arguments are reported (remove's are in C26). *)
Theorem C24_invalid : forall (V : Type) (zero : V) c a l, rep a l -> checked c = true ->
  (forall n pr, n < 0 -> arr_resize zero c n pr a = Fail (report c)) /\
  (forall p x, ~ 0 <= p <= zlen l -> arr_insert zero c p x a = Fail (report c)) /\
  (forall p A, ~ 0 <= p <= zlen l -> arr_insert_arr zero c p A a = Fail (report c)).
Proof. exact @invalid_thm. Qed.
Print Assumptions C24_invalid.
Theorem C24_remove_indexes_invalid : forall (V : Type) (zero : V) c a l v, cfg_ok c -> rep a l -> zlen l <= amax c -> checked c = true ->
  ~ (StronglySorted Z.lt v /\ Forall (fun p => 0 <= p < zlen l) v) ->
  arr_remove_indexes zero c v a = Fail (report c).
Proof. exact @remove_indexes_bad_thm. Qed.
Print Assumptions C24_remove_indexes_invalid.

Example C24_case :
  let a := mkarr [10; 11; 12; 13; 14] 5 in
  rep a [10; 11; 12; 13; 14] /\
  arr_resize 0 c_off 7 true a = Ok (mkarr [10; 11; 12; 13; 14; 0; 0] 7) /\
  arr_insert 0 c_dbg 5 99 a = Ok (mkarr [10; 11; 12; 13; 14; 99] 6) /\
  arr_insert_arr 0 c_dbg 2 (src_of_arr a) a = Ok (mkarr [10; 11; 10; 11; 12; 13; 14; 12; 13; 14] 10) /\
  arr_remove 0 c_dbg 1 3 a = Ok (mkarr [10; 14] 2) /\
  arr_remove_last 0 c_dbg 1 a = Ok (mkarr [10; 11; 12; 14] 4) /\
  arr_remove_indexes 0 c_dbg [0; 2; 4] a = Ok (mkarr [11; 13] 2) /\
  arr_remove_indexes 0 c_dbg [2; 2] a = Fail Throw /\
  arr_insert 0 c_abort 6 99 a = Fail Abort /\
  arr_resize 0 c_dbg (-1) true a = Fail Throw.
Proof. vm_compute. repeat split. Qed.

(** ** C25 *)
(** Any program over any number of arrays, started with none: what the caller observes and the final arrays are exactly
    those of the list model, whatever fails on the way; the program is undefined only where the list model says so
    (the argument overflows listed in C21, C17/C19 and C26). *)
Theorem C25_history : forall (V : Type) (zero : V) c ops, cfg_ok c -> checked c = true -> Forall op_long ops ->
  snd (run (step1 zero c) [] ops) = snd (run (spec_step1 zero c) [] ops) /\
  match fst (run (spec_step1 zero c) [] ops) with
  | Next w ob => exists st, fst (run (step1 zero c) [] ops) = Next st ob /\ Forall2 rep st w
  | Crash => fst (run (step1 zero c) [] ops) = Crash
  end.
Proof. exact @run1_thm. Qed.
Print Assumptions C25_history.

(** Programs that only make valid calls behave like the list model in every configuration, and are never undefined. *)
Theorem C25_history_valid : forall (V : Type) (zero : V) c ops, cfg_ok c -> Forall op_long ops ->
  valid_run (spec_step1 zero c) [] ops ->
  snd (run (step1 zero c) [] ops) = snd (run (spec_step1 zero c) [] ops) /\
  exists w ob st, fst (run (spec_step1 zero c) [] ops) = Next w ob /\
    fst (run (step1 zero c) [] ops) = Next st ob /\ Forall2 rep st w.
Proof. exact @run1_any_thm. Qed.
Print Assumptions C25_history_valid.

(** A failed operation changes no array. *)
Theorem C25_failed_unchanged : forall (V : Type) (zero : V) c st w o f, cfg_ok c -> checked c = true ->
  represents c st w -> op_long o ->
  forall st', step1 zero c st o = Next st' (Failed f) -> st' = st.
Proof. exact @failed_unchanged_thm. Qed.
Print Assumptions C25_failed_unchanged.

Example C25_case :
  let ops := [New 3; NewList [7; 8; 9]; Assign 0 1; InsertArr 0 1 0; Remove 0 5 2; RemoveLast 0 0; Resize 0 (-4) true;
              NewSlice 0 Reverse; MoveAssign 0 1; MoveAssign 1 1; ResizeAssignMove 1 2; Read 1 (FromLast 0);
              Write 1 (Plain 9) 5; Size 2] in
  Forall op_long ops /\
  run (step1 0 c_dbg) [] ops =
    (Next [mkarr [7; 7; 8; 9; 8] 5; mkarr [7; 8; 9] 3; mkarr [8; 9; 8; 7; 7] 5] (Failed Abort),
     [Done; Done; Done; Done; Failed Throw; Done; Failed Throw; Done; Failed Abort]).
Proof. split; [repeat constructor; unfold is_long, LONG_MIN, LONG_MAX; lia|]. vm_compute. reflexivity. Qed.
Example C25_case_valid :
  let ops := [NewFill 2 5; NewList [7; 8]; Swap 0 1; ResizeAssignMove 0 1; InsertBackArr 0 0; NewSlice 0 Even; Read 2 (FromLast 0)] in
  Forall op_long ops /\ valid_run (spec_step1 0 c_off) [] ops /\
  run (step1 0 c_off) [] ops =
    (Next [mkarr [5; 5; 5; 5] 4; mkarr [] 0; mkarr [5; 5] 2] Done, [Done; Done; Done; Done; Done; Done; Value 5]).
Proof. split; [repeat constructor; unfold is_long, LONG_MIN, LONG_MAX; lia|]. vm_compute. repeat split. Qed.

(** ** C26 *)
(** remove(pos, count): undefined exactly when pos + count overflows for a valid pos; every other invalid call is reported. *)
Theorem C26_remove_overflow : forall (V : Type) (zero : V) c a l p k, cfg_ok c -> rep a l -> zlen l <= amax c -> checked c = true ->
  is_long p -> is_long k ->
  (arr_remove zero c p k a = UB <-> 0 < k /\ 0 <= p < zlen l /\ LONG_MAX < p + k) /\
  (arr_remove zero c p k a = Fail (report c) <->
     ~ (0 < k /\ 0 <= p /\ p + k <= zlen l) /\ ~ (0 < k /\ 0 <= p < zlen l /\ LONG_MAX < p + k)).
Proof. exact @remove_ub_iff_thm. Qed.
Print Assumptions C26_remove_overflow.

Theorem C26_remove_back_overflow : forall (V : Type) (zero : V) c a l k, cfg_ok c -> rep a l -> zlen l <= amax c -> checked c = true ->
  is_long k ->
  (arr_remove_back zero c k a = UB <-> LONG_MAX < zlen l - k) /\
  (arr_remove_back zero c k a = Fail (report c) <-> zlen l - k <= LONG_MAX /\ ~ 0 < k <= zlen l).
Proof. exact @remove_back_ub_iff_thm. Qed.
Print Assumptions C26_remove_back_overflow.

Example C26_case :
  let a := mkarr [10; 11; 12] 3 in
  arr_remove 0 c_dbg 1 LONG_MAX a = UB /\ arr_remove 0 c_dbg 0 LONG_MAX a = Fail Throw /\
  arr_remove 0 c_dbg (-1) LONG_MAX a = Fail Throw /\ arr_remove_back 0 c_dbg LONG_MIN a = UB /\
  arr_remove_back 0 c_dbg 4 a = Fail Throw.
Proof. vm_compute. repeat split. Qed.
