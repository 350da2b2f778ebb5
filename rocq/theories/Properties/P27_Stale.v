(** C73: stored views and iterators while the arrays change. *)
From Verif Require Import Base.Outcome Base.ZList Model.IntModel Model.Index Model.Slice Model.Array1D Model.Array2D Model.View2D Model.Store1D Model.Store2D Model.Stale.
From Verif Require Import Spec.Configs Spec.ArraySpec Spec.SliceSpec Spec.MatrixSpec Spec.Matrix2Spec Spec.Store1DSpec Spec.Store2DSpec Spec.View2DSpec Spec.StaleSpec.
From Verif Require Import Proofs.Store1DProofs Proofs.StaleProofs Proofs.StaleThms.

(** Programs that take views (of arrays and of views), keep them, change the arrays in any way and use the views: the observable
    results are those of the meaning in StaleSpec.v, in every build, including when they are undefined. *)
Theorem C73_program : forall (V : Type) (zero : V) (c : cfg) (st : list (arr V)) (w : list (list V)) (ts : list (stm (op1 V) V)),
  cfg_ok c -> represents c st w -> program1 zero c (w, []) ts ->
  snd (run (vstep1 zero c) (st, []) ts) = snd (run (spec_vstep1 zero c) (w, []) ts) /\
  match fst (run (spec_vstep1 zero c) (w, []) ts) with
  | Crash => fst (run (vstep1 zero c) (st, []) ts) = Crash
  | Next s ob => exists st' hs, fst (run (vstep1 zero c) (st, []) ts) = Next (st', hs) ob /\ represents c st' (fst s)
  end.
Proof. exact (fun V zero c st w ts Hc => program1_sim zero c Hc st w ts). Qed.
Print Assumptions C73_program.
Theorem C73_program2 : forall (V : Type) (zero : V) (c : cfg) (st : list (arr2 V)) (w : list (list (list V))) (ts : list (stm (op2 V) V)),
  cfg_ok c -> represents2 c st w -> program2 zero c (w, []) ts ->
  snd (run (vstep2 zero c) (st, []) ts) = snd (run (spec_vstep2 zero c) (w, []) ts) /\
  match fst (run (spec_vstep2 zero c) (w, []) ts) with
  | Crash => fst (run (vstep2 zero c) (st, []) ts) = Crash
  | Next s ob => exists st' hs, fst (run (vstep2 zero c) (st, []) ts) = Next (st', hs) ob /\ represents2 c st' (fst s)
  end.
Proof. exact (fun V zero c st w ts Hc => program2_sim zero c Hc st w ts). Qed.
Print Assumptions C73_program2.

(** A view of a one-dimensional array selecting the positions ps, used after any valid operations on the arrays: element i is
    the element the array has now at position ps[i]; if the array has become too short for it, the behaviour is undefined in
    every build. *)
Theorem C73_view_follows : forall (V : Type) (zero : V) (c : cfg) st w w' k l l' ws ps (ops : list (op1 V)) ob t i p,
  cfg_ok c -> represents c st w -> znth w k = Some l -> ws <> [] -> chain_ok (whole1 (zlen l)) ws -> den_chain (whole1 (zlen l)) ws = Some (D1 ps) ->
  Forall op_long ops -> valid_run (spec_step1 zero c) w ops -> run (spec_step1 zero c) w ops = (Next w' ob, t) -> znth w' k = Some l' -> znth ps i = Some p ->
  let r := run (vstep1 zero c) (st, []) (Take k ws :: map Own ops ++ [Get 0 (Plain i)]) in
  match znth l' p with Some x => snd r = Done :: t ++ [Value x] | None => fst r = Crash end.
Proof. exact (fun V zero c st w w' k l l' ws ps ops ob t i p Hc H1 H2 H3 H4 H5 H6 H7 H8 H9 => follow1 zero c Hc st w w' k l l' ws ps ops ob t H1 H2 H3 H4 H5 H6 H7 H8 H9 i p). Qed.
Print Assumptions C73_view_follows.
(** Its size stays what it was. *)
Theorem C73_size_fixed : forall (V : Type) (zero : V) (c : cfg) st w w' k l l' ws ps (ops : list (op1 V)) ob t,
  cfg_ok c -> represents c st w -> znth w k = Some l -> ws <> [] -> chain_ok (whole1 (zlen l)) ws -> den_chain (whole1 (zlen l)) ws = Some (D1 ps) ->
  Forall op_long ops -> valid_run (spec_step1 zero c) w ops -> run (spec_step1 zero c) w ops = (Next w' ob, t) -> znth w' k = Some l' ->
  snd (run (vstep1 zero c) (st, []) (Take k ws :: map Own ops ++ [Length 0])) = Done :: t ++ [Number (zlen ps)].
Proof. exact (fun V zero c st w w' k l l' ws ps ops ob t Hc => length1 zero c Hc st w w' k l l' ws ps ops ob t). Qed.
Print Assumptions C73_size_fixed.
(** Row r of a two-dimensional array shows elements number r * n + j of the array as it is now, n being the columns it had. *)
Theorem C73_row_follows : forall (V : Type) (zero : V) (c : cfg) st w w' k M M' (ops : list (op2 V)) ob t r j,
  cfg_ok c -> represents2 c st w -> znth w k = Some M -> Forall op2_long ops -> tame zero c w ops -> valid_run (spec_step2 zero c) w ops ->
  run (spec_step2 zero c) w ops = (Next w' ob, t) -> znth w' k = Some M' -> 0 <= r < zlen M -> 0 <= j < ncols M ->
  let x := run (vstep2 zero c) (st, []) (Take k [VwRow (Plain r)] :: map Own ops ++ [Get 0 (Plain j)]) in
  match znth (concat M') (r * ncols M + j) with Some v => snd x = Done :: t ++ [Value v] | None => fst x = Crash end.
Proof. exact (fun V zero c st w w' k M M' ops ob t r j Hc H1 H2 H3 H4 H5 H6 H7 => row_after zero c Hc st w w' k M M' ops ob t H1 H2 H3 H4 H5 H6 H7 r j). Qed.
Print Assumptions C73_row_follows.
(** A block shows the elements with its row and column numbers: numbers (i1 + i) * n' + (j1 + j) of the array of n' columns. *)
Theorem C73_block_follows : forall (V : Type) (zero : V) (c : cfg) st w w' k M M' (ops : list (op2 V)) ob t i1 j1 i2 j2 i j,
  cfg_ok c -> represents2 c st w -> znth w k = Some M -> Forall op2_long ops -> tame zero c w ops -> valid_run (spec_step2 zero c) w ops ->
  run (spec_step2 zero c) w ops = (Next w' ob, t) -> znth w' k = Some M' ->
  0 <= i1 <= i2 -> i2 < zlen M -> 0 <= j1 <= j2 -> j2 < ncols M -> 0 <= i <= i2 - i1 -> 0 <= j <= j2 - j1 ->
  let x := run (vstep2 zero c) (st, []) (Take k [VwBlock (Plain i1) (Plain j1) (Plain i2) (Plain j2)] :: map Own ops ++ [Get2 0 (Plain i) (Plain j)]) in
  match znth (concat M') ((i1 + i) * ncols M' + (j1 + j)) with Some v => snd x = Done :: t ++ [Value v] | None => fst x = Crash end.
Proof. exact (fun V zero c st w w' k M M' ops ob t i1 j1 i2 j2 i j Hc H1 H2 H3 H4 H5 H6 H7 => block_after zero c Hc st w w' k M M' ops ob t H1 H2 H3 H4 H5 H6 H7 i1 j1 i2 j2 i j). Qed.
Print Assumptions C73_block_follows.
(** Any other view of a two-dimensional array. *)
Theorem C73_line_follows : forall (V : Type) (zero : V) (c : cfg) st w w' k M M' w0 ws (ops : list (op2 V)) ob t ps i p,
  cfg_ok c -> represents2 c st w -> znth w k = Some M -> chain_ok (whole2 (zlen M) (ncols M)) (w0 :: ws) -> Forall op2_long ops -> tame zero c w ops ->
  valid_run (spec_step2 zero c) w ops -> run (spec_step2 zero c) w ops = (Next w' ob, t) -> znth w' k = Some M' ->
  den_chain (whole2 (zlen M) (ncols M)) (w0 :: ws) = Some (D1 ps) -> znth ps i = Some p ->
  let r := run (vstep2 zero c) (st, []) (Take k (w0 :: ws) :: map Own ops ++ [Get 0 (Plain i)]) in
  match znth (concat M') (if by_number w0 then p else p / ncols M * ncols M' + p mod ncols M) with Some x => snd r = Done :: t ++ [Value x] | None => fst r = Crash end.
Proof. exact (fun V zero c st w w' k M M' w0 ws ops ob t ps i p Hc H1 H2 H3 H4 H5 H6 H7 H8 => follow2_line zero c Hc st w w' k M M' w0 ws ops ob t H1 H2 H3 H4 H5 H6 H7 H8 ps i p). Qed.
Print Assumptions C73_line_follows.
Theorem C73_table_follows : forall (V : Type) (zero : V) (c : cfg) st w w' k M M' w0 ws (ops : list (op2 V)) ob t Q i j p,
  cfg_ok c -> represents2 c st w -> znth w k = Some M -> chain_ok (whole2 (zlen M) (ncols M)) (w0 :: ws) -> Forall op2_long ops -> tame zero c w ops ->
  valid_run (spec_step2 zero c) w ops -> run (spec_step2 zero c) w ops = (Next w' ob, t) -> znth w' k = Some M' ->
  den_chain (whole2 (zlen M) (ncols M)) (w0 :: ws) = Some (D2 Q) -> mget Q i j = Some p ->
  let r := run (vstep2 zero c) (st, []) (Take k (w0 :: ws) :: map Own ops ++ [Get2 0 (Plain i) (Plain j)]) in
  match znth (concat M') (if by_number w0 then p else p / ncols M * ncols M' + p mod ncols M) with Some x => snd r = Done :: t ++ [Value x] | None => fst r = Crash end.
Proof. exact (fun V zero c st w w' k M M' w0 ws ops ob t Q i j p Hc H1 H2 H3 H4 H5 H6 H7 H8 => follow2_block zero c Hc st w w' k M M' w0 ws ops ob t H1 H2 H3 H4 H5 H6 H7 H8 Q i j p). Qed.
Print Assumptions C73_table_follows.
(** Stored iterators are checked against the array as it is when they are used. *)
Theorem C73_iterator : forall (V : Type) (zero : V) (c : cfg) st w st2 w2 hs k pos, checked c = true ->
  cfg_ok c -> represents c st w -> represents2 c st2 w2 ->
  vstep1 zero c (st, hs) (Deref k pos) <> Crash /\ vstep2 zero c (st2, hs) (Deref k pos) <> Crash.
Proof. exact (fun V zero c st w st2 w2 hs k pos Hk Hc H1 H2 => conj (deref1_never_ub zero c Hc st w hs k pos Hk H1) (deref2_never_ub zero c Hc st2 w2 hs k pos Hk H2)). Qed.
Print Assumptions C73_iterator.

(** Stepping through the meaning of a concrete program. *)
Ltac advance := apply program_cons; [cbn [respects fst snd]|
  match goal with |- match ?x with Next _ _ => _ | Crash => _ end => let y := eval vm_compute in x in change x with y; cbv iota beta; try right end].
Ltac fields := let a := fresh in let b := fresh in let H := fresh in let H' := fresh in
  intros a b H H'; vm_compute in H; injection H as <-; vm_compute in H'; injection H' as <-.
Ltac one := let a := fresh in let H := fresh in intros a H; vm_compute in H; injection H as <-.
Ltac small := vm_compute; repeat first [exact I | reflexivity | discriminate | split | constructor | intros ?].
(** "With all checks on, valid indices into a stored view are never undefined behaviour": false. *)
Theorem C73_checked_refuted : exists (ts : list (stm (op1 Z) Z)), program1 0 c_dbg ([], []) ts /\ checked c_dbg = true /\
  fst (run (vstep1 0 c_dbg) ([], []) ts) = Crash /\ ts = [Own (NewList [1; 2; 3]); Take 0 [VwSlice All]; Own (Resize 0 2 true); Length 0; Get 0 (Plain 2)].
Proof.
  eexists. split; [|split; [reflexivity|split; [|reflexivity]]]; [|vm_compute; reflexivity]. unfold program1.
  advance; [split; [exact I|left; reflexivity]|].
  advance; [split; [discriminate|one; small]|].
  advance; [split; [small|left; reflexivity]|].
  advance; [exact I|].
  advance; [fields; repeat split; try (left; reflexivity); small|exact I].
Qed.
Print Assumptions C73_checked_refuted.
(** "A stored row stays a row of the array": false; here row 1 was taken, a column was removed, and the view starts at (1, 1). *)
Theorem C73_row_refuted : exists (ts : list (stm (op2 Z) Z)), program2 0 c_dbg ([], []) ts /\ checked c_dbg = true /\
  ts = [Own (NewList2 [[1; 2; 3]; [4; 5; 6]]); Take 0 [VwRow (Plain 1)]; Own (RemoveCol 0 0); Get 0 (Plain 0); Own (Read2 0 (Plain 1) (Plain 0))] /\
  snd (run (vstep2 0 c_dbg) ([], []) ts) = [Done; Done; Done; Value 6; Value 5].
Proof.
  eexists. split; [|split; [reflexivity|split; [reflexivity|vm_compute; reflexivity]]]. unfold program2.
  advance; [repeat split; try (left; reflexivity)|].
  advance; [split; [discriminate|one; small]|].
  advance; [repeat split; try (left; reflexivity); small|].
  advance; [fields; repeat split; try (left; reflexivity); small|].
  advance; [repeat split; try (left; reflexivity); small|exact I].
Qed.
Print Assumptions C73_row_refuted.
(** "A stored block shows its own rows and columns or fails": false; here a block of row 0 shows an element of row 1. *)
Theorem C73_block_refuted : exists (ts : list (stm (op2 Z) Z)), program2 0 c_dbg ([], []) ts /\ checked c_dbg = true /\
  ts = [Own (NewList2 [[1; 2; 3]; [4; 5; 6]]); Take 0 [VwBlock (Plain 0) (Plain 1) (Plain 0) (Plain 2)]; Own (RemoveCol 0 0); Get2 0 (Plain 0) (Plain 1); Own (Read2 0 (Plain 1) (Plain 0))] /\
  snd (run (vstep2 0 c_dbg) ([], []) ts) = [Done; Done; Done; Value 5; Value 5].
Proof.
  eexists. split; [|split; [reflexivity|split; [reflexivity|vm_compute; reflexivity]]]. unfold program2.
  advance; [repeat split; try (left; reflexivity)|].
  advance; [split; [discriminate|one; small]|].
  advance; [repeat split; try (left; reflexivity); small|].
  advance; [fields; repeat split; try (left; reflexivity); small|].
  advance; [repeat split; try (left; reflexivity); small|exact I].
Qed.
Print Assumptions C73_block_refuted.
(** Views of views, written through after a swap; an iterator after a shrink; an index outside the view. *)
Example C73_case : let ts := [Own (NewList [1; 2; 3; 4]); Own (NewList [5; 6; 7; 8; 9]); Take 0 [VwSlice (Vec [1; 2; 3])]; Sub 0 [VwSlice Reverse]; Own (Swap 0 1);
    Get 1 (Plain 0); Put 1 (Plain 1) 0; Own (Read 0 (Plain 2)); Get 1 (Plain 3); Deref 0 4; Own (Resize 0 2 true); Deref 0 4; Get 0 (Plain 0); Length 0; Get 1 (Plain 0)] in
  cfg_ok c_dbg /\ represents c_dbg [] (@nil (list Z)) /\ program1 0 c_dbg ([], []) ts /\
  run (vstep1 0 c_dbg) ([], []) ts =
    (Crash, [Done; Done; Done; Done; Done; Value 8; Done; Value 0; Failed Throw; Value 9; Done; Failed Throw; Value 6; Number 3]).
Proof.
  cbv zeta. split; [vm_compute; split; congruence|]. split; [constructor|]. split; [|vm_compute; reflexivity]. unfold program1.
  advance; [split; [exact I|left; reflexivity]|]. advance; [split; [exact I|left; reflexivity]|].
  advance; [split; [discriminate|one; small]|]. advance; [fields; small|]. advance; [split; [exact I|left; reflexivity]|].
  advance; [fields; repeat split; try (left; reflexivity); small|]. advance; [fields; repeat split; try (left; reflexivity); small|].
  advance; [split; [small|left; reflexivity]|]. advance; [fields; repeat split; try (left; reflexivity); small|].
  advance; [intros; left; reflexivity|]. advance; [split; [small|left; reflexivity]|]. advance; [intros; left; reflexivity|].
  advance; [fields; repeat split; try (left; reflexivity); small|]. advance; [exact I|]. advance; [fields; repeat split; try (left; reflexivity); small|exact I].
Qed.
Example C73_case2 : let ts := [Own (NewList2 [[1; 2; 3]; [4; 5; 6]; [7; 8; 9]]); Take 0 [VwCol (Plain 1)]; Take 0 [VwBlock (Plain 1) (Plain 0) (Plain 2) (Plain 1)]; Sub 1 [VwRow (FromLast 0)];
    Own (InsertColFront 0 [10; 11; 12]); Rows 1; Get2 1 (Plain 0) (Plain 0); Get 2 (Plain 1); Get 0 (Plain 2); Put2 1 (Plain 1) (Plain 1) 0; Own (Read2 0 (Plain 2) (Plain 1))] in
  cfg_ok c_off /\ represents2 c_off [] (@nil (list (list Z))) /\ program2 0 c_off ([], []) ts /\
  snd (run (vstep2 0 c_off) ([], []) ts) = [Done; Done; Done; Done; Done; Number 2; Value 11; Value 7; Value 6; Done; Value 0].
Proof.
  cbv zeta. split; [vm_compute; split; congruence|]. split; [constructor|]. split; [|vm_compute; reflexivity]. unfold program2.
  advance; [split; [exact I|split; [reflexivity|right; exact I]]|]. advance; [split; [discriminate|one; small]|]. advance; [split; [discriminate|one; small]|].
  advance; [fields; small|]. advance; [split; [exact I|split; [reflexivity|right; vm_compute; exact I]]|].
  advance; [fields; reflexivity|]. advance; [fields; repeat split; try (right; reflexivity); small|]. advance; [fields; repeat split; try (right; reflexivity); small|].
  advance; [fields; repeat split; try (right; reflexivity); small|]. advance; [fields; repeat split; try (right; reflexivity); small|].
  advance; [split; [small|split; [reflexivity|right; vm_compute; exact I]]|exact I].
Qed.
(** A view of every second element, two operations on the array, a use. *)
Example C73_follow_case : let w := [[1; 2; 3; 4; 5]] in let ops := [RemoveFront 0 2; InsertBack 0 7] in
  let ws := [VwSlice Even] in cfg_ok c_silent /\ represents c_silent [mkarr [1; 2; 3; 4; 5] 5] w /\ chain_ok (whole1 (zlen [1; 2; 3; 4; 5])) ws /\
  den_chain (whole1 (zlen [1; 2; 3; 4; 5])) ws = Some (D1 [0; 2; 4]) /\ Forall op_long ops /\ valid_run (spec_step1 0 c_silent) w ops /\
  run (spec_step1 0 c_silent) w ops = (Next [[3; 4; 5; 7]] Done, [Done; Done]) /\
  snd (run (vstep1 0 c_silent) ([mkarr [1; 2; 3; 4; 5] 5], []) (Take 0 ws :: map Own ops ++ [Get 0 (Plain 1)])) = [Done; Done; Done; Value 5] /\
  fst (run (vstep1 0 c_silent) ([mkarr [1; 2; 3; 4; 5] 5], []) (Take 0 ws :: map Own ops ++ [Get 0 (Plain 2)])) = Crash.
Proof.
  cbv zeta. split; [vm_compute; split; congruence|]. split; [repeat constructor; vm_compute; congruence|]. split; [small|]. split; [reflexivity|].
  split; [repeat constructor; vm_compute; congruence|]. split; [vm_compute; exact I|]. split; [vm_compute; reflexivity|]. split; vm_compute; reflexivity.
Qed.
(** Row, block: a row inserted in front. *)
Example C73_follow2_case : let M := [[1; 2]; [3; 4]] in let ops := [InsertRowFront 0 [8; 9]] in let a := mkarr2 2 2 (mkarr [1; 2; 3; 4] 4) in
  cfg_ok c_abort /\ represents2 c_abort [a] [M] /\ Forall op2_long ops /\ tame 0 c_abort [M] ops /\ valid_run (spec_step2 0 c_abort) [M] ops /\
  run (spec_step2 0 c_abort) [M] ops = (Next [[[8; 9]; [1; 2]; [3; 4]]] Done, [Done]) /\
  snd (run (vstep2 0 c_abort) ([a], []) (Take 0 [VwRow (Plain 1)] :: map Own ops ++ [Get 0 (Plain 1)])) = [Done; Done; Value 2] /\
  snd (run (vstep2 0 c_abort) ([a], []) (Take 0 [VwBlock (Plain 0) (Plain 0) (Plain 1) (Plain 1)] :: map Own ops ++ [Get2 0 (Plain 1) (Plain 1)])) = [Done; Done; Value 2].
Proof.
  cbv zeta. split; [vm_compute; split; congruence|]. split; [repeat constructor; vm_compute; congruence|].
  split; [repeat constructor; vm_compute; congruence|]. split; [vm_compute; repeat split|]. split; [vm_compute; exact I|]. split; [vm_compute; reflexivity|]. split; vm_compute; reflexivity.
Qed.
