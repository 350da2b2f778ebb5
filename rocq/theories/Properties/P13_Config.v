(** Property C56: build configurations.
    [config_free m]: what a checking build computes is what every other build with the same allocator computes, and two
    checking builds agree on everything but the way errors are reported (Spec/ConfigSpec.v). *)
From Verif Require Import Base.Outcome Base.ZList Model.IntModel Model.ScalarOps Model.Index Model.Slice Model.Array1D Model.Array2D Model.View2D.
From Verif Require Import Model.Store1D Model.Store2D Model.Iterator Model.Expr Model.Reduce Model.ViewAssign Model.StableOps Model.FloatModel Model.SemiRandom Model.ArrayIO.
From Verif Require Import Spec.ArraySpec Spec.SliceSpec Spec.Store1DSpec Spec.Store2DSpec Spec.View2DSpec Spec.IteratorSpec Spec.Configs Spec.ConfigSpec.
From Verif Require Import Proofs.IteratorProofs Proofs.ConfigProofs Proofs.ConfigThms.

(** ** The same results in every configuration *)

(** Operators of the strict integers. *)
Theorem C56_scalars : forall t o x y, config_free (fun c => iop_fun c t o x y).
Proof. exact scalars_free. Qed.
Print Assumptions C56_scalars.
Theorem C56_math : forall t x p n k lo hi, config_free (fun c => pows c t x p) /\ config_free (fun c => factorial c n) /\ config_free (fun c => binom_coeff c n k) /\
  config_free (fun c => clamps c x lo hi) /\ config_free (fun c => in_open c x lo hi) /\ config_free (fun c => in_closed c x lo hi).
Proof. exact math_free. Qed.
Print Assumptions C56_math.
Example C56_scalars_case : iop_fun c_dbg I64 Odiv 7 2 = Ok 3 /\ iop_fun c_off I64 Odiv 7 2 = Ok 3 /\ iop_fun c_silent I64 Odiv 7 2 = Ok 3 /\
  iop_fun c_dbg I64 Odiv 7 0 = Fail Throw /\ iop_fun c_abort I64 Odiv 7 0 = Fail Abort /\ iop_fun c_off I64 Odiv 7 0 = UB.
Proof. vm_compute. repeat split. Qed.

(** Slices of slices and access through them. *)
Theorem C56_slices : forall (V : Type) v ss (l : list V) ix x, config_free (fun c => view_slices c v ss) /\
  config_free (fun c => w <- view_slices c v ss ;; view_sub c w l ix) /\ config_free (fun c => w <- view_slices c v ss ;; view_write c w l ix x).
Proof. exact @slices_free. Qed.
Print Assumptions C56_slices.
(** Views of one- and two-dimensional arrays nested to any depth, and the elements operator[], operator() and at() refer to. *)
Theorem C56_views : forall o ws ix jx, config_free (fun c => o_chain c o ws) /\
  config_free (fun c => v <- o_chain c o ws ;; o_ref1 c v ix) /\ config_free (fun c => v <- o_chain c o ws ;; o_at1 c v ix) /\
  config_free (fun c => v <- o_chain c o ws ;; o_ref2 c v ix jx) /\ config_free (fun c => v <- o_chain c o ws ;; o_at2 c v ix jx).
Proof. exact views_free. Qed.
Print Assumptions C56_views.
Example C56_views_case : let m c := (v <- o_chain c (O2 3 4 12) [VwSlice2 (Vec [2; 0]) Reverse; VwCol (Plain 1)] ;; o_ref1 c v (FromLast 0)) in
  m c_dbg = Ok 2 /\ m c_off = Ok 2 /\ m c_silent = Ok 2 /\
  let w c := (v <- o_chain c (O2 3 4 12) [VwSlice2 (Vec [2; 0]) Reverse; VwCol (Plain 4)] ;; o_ref1 c v (FromLast 0)) in
  w c_dbg = Fail Throw /\ w c_abort = Fail Abort.
Proof. vm_compute. repeat split. Qed.

(** Iterators: positions, dereferencing, subscripts, differences and comparisons, for any objects iterated over. *)
Theorem C56_iterators : forall (R : Type) (E : env R) p e q e' k j, config_free (fun c => it_eval c E p e) /\
  config_free (fun c => i <- it_eval c E p e ;; it_deref c E i) /\ config_free (fun c => i <- it_eval c E p e ;; it_sub c E i j) /\
  config_free (fun c => i <- it_eval c E p e ;; i' <- it_eval c E q e' ;; it_diff c i i') /\
  config_free (fun c => i <- it_eval c E p e ;; i' <- it_eval c E q e' ;; it_cmp c k i i').
Proof. exact @iterators_free. Qed.
Print Assumptions C56_iterators.
(** Loops over iterators and index ranges, and assignment through an iterator. *)
Theorem C56_loops : forall (R V : Type) (E : env R) p e q e' fuel (h : Z -> list V) it v m n,
  config_free (fun c => i <- it_eval c E p e ;; i' <- it_eval c E q e' ;; it_walk fuel c E i i') /\
  config_free (fun c => i <- it_eval c E p e ;; i' <- it_eval c E q e' ;; r_walk fuel c E i i') /\
  config_free (fun c => it_write c h it v) /\ config_free (fun c => range_walk fuel c m n).
Proof. exact @loops_free. Qed.
Print Assumptions C56_loops.
(** Iterators over the elements, rows and columns of a view. *)
Theorem C56_lines : forall o e p fuel,
  config_free (fun c => i <- it_eval c (fun _ => flag_elems c o) p e ;; it_deref c (fun _ => flag_elems c o) i) /\
  config_free (fun c => i <- it_eval c (fun _ => flag_rows c o) p e ;; it_deref c (fun _ => flag_rows c o) i) /\
  config_free (fun c => i <- it_eval c (fun _ => flag_cols c o) p e ;; it_deref c (fun _ => flag_cols c o) i) /\
  config_free (fun c => e <- it_end (fun _ => flag_elems c o) p ;; it_walk fuel c (fun _ => flag_elems c o) (it_begin p) e).
Proof. exact lines_free. Qed.
Print Assumptions C56_lines.
Example C56_iterators_case : let E : env Z := fun _ => flag_list [10; 20; 30] in
  let m c := (i <- it_eval c E 0 (IMinus IEnd 2) ;; it_deref c E i) in m c_dbg = Ok 20 /\ m c_off = Ok 20 /\ m c_silent = Ok 20 /\
  (i <- it_eval c_dbg E 0 IEnd ;; it_deref c_dbg E i) = Fail Throw /\ (i <- it_eval c_off E 0 IEnd ;; it_deref c_off E i) = UB.
Proof. vm_compute. repeat split. Qed.

(** Expressions of any depth written in every configuration: evaluation and element access. *)
Theorem C56_expressions : forall (V : Type) (e : cfg -> ex1 V) (e2 : cfg -> ex2 V), same_tree1 e -> same_tree2 e2 -> forall z ix jx,
  config_free (fun c => A <- build1 c (e c) ;; x_eval1 c z A) /\ config_free (fun c => A <- build1 c (e c) ;; sub1 c A ix) /\
  config_free (fun c => A <- build1 c (e c) ;; at1 c A ix) /\
  config_free (fun c => A <- build2 c (e2 c) ;; x_eval2 c z A) /\ config_free (fun c => A <- build2 c (e2 c) ;; sub2 c A ix jx).
Proof. exact @expr_free. Qed.
Print Assumptions C56_expressions.
(** Assignment and compound assignment of expressions and scalars to arrays and views. *)
Theorem C56_assignments : forall (V : Type) (e : cfg -> ex1 V) (e2 : cfg -> ex2 V), same_tree1 e -> same_tree2 e2 ->
  forall (f : cfg -> V -> V -> outcome V) o l x, same_fun2 f ->
  config_free_m (fun c => match build1 c (e c) with Ok A => v_assign c o (ssize A) (fun _ => sun A) l | Fail q => MFail q l | UB => MUB end) /\
  config_free_m (fun c => match build1 c (e c) with Ok A => v_op_array c (f c) o (ssize A) (fun _ => sun A) l | Fail q => MFail q l | UB => MUB end) /\
  config_free_m (fun c => match build2 c (e2 c) with Ok A => v_assign2 c o (s2rows A) (s2cols A) (fun _ => s2un A) l | Fail q => MFail q l | UB => MUB end) /\
  config_free_m (fun c => v_op_scalar c (f c) o x l) /\ config_free_m (fun c => v_fill c o x l).
Proof. exact @assign_free. Qed.
Print Assumptions C56_assignments.
(** Reductions. *)
Theorem C56_reductions : forall (V : Type) (e : cfg -> ex1 V), same_tree1 e ->
  forall (add mul : cfg -> V -> V -> outcome V) (z d : V) (e' : cfg -> ex1 V) (t : cfg -> V -> outcome bool) db x,
  same_tree1 e' -> same_fun2 add -> same_fun2 mul -> same_fun t ->
  config_free (fun c => A <- build1 c (e c) ;; r_fold (add c) A d) /\
  config_free (fun c => A <- build1 c (e c) ;; B <- build1 c (e' c) ;; r_dot c (add c) (mul c) z A B d) /\
  config_free (fun c => A <- build1 c (e c) ;; r_any (t c) A db) /\ config_free (fun c => A <- build1 c (e c) ;; r_all (t c) A db) /\
  config_free (fun c => A <- build1 c (e c) ;; r_poly c (add c) (mul c) A x d).
Proof. exact @reduce_free. Qed.
Print Assumptions C56_reductions.

(** A + (A / B) over 64-bit integers. *)
Definition quotient (A B : src1 Z) (c : cfg) : ex1 Z :=
  XBin Z Z Z (iop_fun c I64 Oadd) (XLeaf Z A) (XBin Z Z Z (iop_fun c I64 Odiv) (XLeaf Z A) (XLeaf Z B)).
Example C56_quotient : forall A B, same_tree1 (quotient A B).
Proof.
  intros A B b c c' Ha Hc Hb. unfold quotient. apply L_bin; [intros x y; now apply rel_iop|apply (leaf_tree _ b c c'); auto|].
  apply L_bin; [intros x y; now apply rel_iop|apply (leaf_tree _ b c c'); auto|apply (leaf_tree _ b c c'); auto].
Qed.
Example C56_operators : same_fun2 (fun c => iop_fun c I64 Odiv).
Proof. intros x y. apply scalars_free. Qed.
Example C56_expressions_case : let e := quotient (src_of_list [7; 8]) (src_of_list [2; 4]) in
  let m c := (A <- build1 c (e c) ;; a <- x_eval1 c 0 A ;; Ok (buf a)) in m c_dbg = Ok [10; 10] /\ m c_off = Ok [10; 10] /\ m c_silent = Ok [10; 10] /\
  let e := quotient (src_of_list [7; 8]) (src_of_list [2; 0]) in
  let m c := (A <- build1 c (e c) ;; a <- x_eval1 c 0 A ;; Ok (buf a)) in m c_dbg = Fail Throw /\ m c_abort = Fail Abort /\ m c_off = UB.
Proof. vm_compute. repeat split. Qed.

(** The stable operations, over any arithmetic; floating-point arithmetic is one (Model/FloatModel.v). *)
Theorem C56_stable : forall (V : Type) (e : cfg -> ex1 V), same_tree1 e ->
  forall (N : num V) sq pow lp (e' : cfg -> ex1 V) d x y tol nz db, same_tree1 e' ->
  config_free (fun c => A <- build1 c (e c) ;; stable_sum N A d) /\ config_free (fun c => A <- build1 c (e c) ;; stable_prod N c A d) /\
  config_free (fun c => A <- build1 c (e c) ;; B <- build1 c (e' c) ;; stable_dot_prod N c A B d) /\
  config_free (fun c => A <- build1 c (e c) ;; stable_norm2 N c sq A d) /\
  config_free (fun c => A <- build1 c (e c) ;; stable_polynomial N c A x d) /\
  config_free (fun c => A <- build1 c (e c) ;; stable_norm_lp N c pow A lp d) /\ config_free (fun c => A <- build1 c (e c) ;; stable_norm_lp_scaled N c pow A lp d) /\
  config_free (fun c => A <- build1 c (e c) ;; semi_stable_sum N c A d) /\
  config_free (fun c => A <- build1 c (e c) ;; B <- build1 c (e' c) ;; within_tol_abs_arr N c A B tol db) /\
  config_free (fun c => A <- build1 c (e c) ;; B <- build1 c (e' c) ;; within_tol_rel_arr N c A B tol nz db) /\
  config_free (fun c => A <- build1 c (e c) ;; B <- build1 c (e' c) ;; max_abs_error N c A B d) /\
  config_free (fun c => A <- build1 c (e c) ;; B <- build1 c (e' c) ;; max_rel_error N c A B d) /\
  config_free (fun c => within_tol_abs N c x y tol) /\ config_free (fun c => within_tol_rel N c x y tol nz).
Proof. exact @stable_free. Qed.
Print Assumptions C56_stable.
(** Semi-random numbers (the clock value tm being the same). *)
Theorem C56_random : forall (V : Type) (N : num V) t f tm lo hi s l x y,
  config_free (fun c => semi_rands c t tm lo hi s) /\ config_free (fun c => semi_random_fill c t tm lo hi s l) /\
  config_free (fun c => semi_rands_num N c tm x y s) /\ config_free (fun c => semi_rands_not0 c t f tm lo hi s) /\ config_free (fun c => semi_random_not0 c t f tm lo hi s l).
Proof. exact @random_free. Qed.
Print Assumptions C56_random.
(** Reading arrays from text. *)
Theorem C56_reading : forall t s A B, config_free_m (fun c => read1_text c t s A) /\ config_free_m (fun c => read2_text c t s B).
Proof. exact reading_free. Qed.
Print Assumptions C56_reading.
Example C56_random_case : semi_rands c_dbg I64 1000 3 9 5 = semi_rands c_off I64 1000 3 9 5 /\ (exists v, semi_rands c_dbg I64 1000 3 9 5 = Ok v) /\
  semi_rands c_dbg I64 1000 9 3 5 = Fail Throw /\ semi_rands c_abort I64 1000 9 3 5 = Fail Abort.
Proof. split; [vm_compute; reflexivity|]. split; [eexists; vm_compute; reflexivity|]. vm_compute. repeat split. Qed.

(** Programs of array operations that report no error under an asserting build do the same, step by step, in every other
    build: one-dimensional arrays ... *)
Theorem C56_programs1 : forall (V : Type) (z : V) c c' ops st, amax c' = amax c -> full c = true ->
  forall st' ob t, run (step1 z c) st ops = (Next st' ob, t) -> clean t -> run (step1 z c') st ops = (Next st' ob, t).
Proof. exact @programs1_free. Qed.
Print Assumptions C56_programs1.
(** ... and two-dimensional ones. *)
Theorem C56_programs2 : forall (V : Type) (z : V) c c' ops st, amax c' = amax c -> full c = true ->
  forall st' ob t, run (step2 z c) st ops = (Next st' ob, t) -> clean t -> run (step2 z c') st ops = (Next st' ob, t).
Proof. exact @programs2_free. Qed.
Print Assumptions C56_programs2.
Example C56_programs_case : let ops := [New2 2 3; NewFill2 2 3 7; MoveAssign2 0 1; InsertRow 0 1 [4; 5; 6]; Read2 0 (Plain 1) (FromLast 0); Size2 0] in
  full c_dbg = true /\ full c_off = false /\ snd (run (step2 0 c_dbg) [] ops) = [Done; Done; Done; Done; Value 6; Number 9] /\
  run (step2 0 c_dbg) [] ops = run (step2 0 c_off) [] ops.
Proof. vm_compute. repeat split. Qed.

(** Two checking builds need not agree on a move assignment: it is guarded by a check that only asserts. *)
Theorem C56_move_refuted : exists c c' (a s : arr Z) r, amax c' = amax c /\ checked c = true /\ checked c' = true /\ rep a [1] /\ rep s [2; 3] /\
  arr_move_assign c a s = Ok r /\ arr_move_assign c' a s = Fail Abort.
Proof.
  exists (mkcfg true true true 1000), (mkcfg true true false 1000), (mkarr [1] 1), (mkarr [2; 3] 2). eexists.
  repeat split; vm_compute; reflexivity.
Qed.
Print Assumptions C56_move_refuted.

(** ** No access outside the storage in checking builds *)

(** After any chain of view operations, valid or not, on an owning array of N elements, operator[] and at() refer to an element
    of the storage or report an error. *)
Theorem C56_access : forall c N, checked c = true -> forall o ws, is_view c N o -> (forall d, o_denotes c o d -> chain_fits d ws) ->
  o_chain c o ws = Fail (report c) \/
  exists v, o_chain c o ws = Ok v /\ is_view c N v /\
    (forall ix n, o_size v = Ok n -> idx_fits n ix -> safe_ref c N (o_ref1 c v ix) /\ safe_ref c N (o_at1 c v ix)) /\
    (forall ix jx, is_two v = true -> idx_fits (o_rows v) ix -> idx_fits (o_cols v) jx -> safe_ref c N (o_ref2 c v ix jx) /\ safe_ref c N (o_at2 c v ix jx)).
Proof. exact access_thm. Qed.
Print Assumptions C56_access.
(** at() also when the debug checks are compiled out, as long as the always-on checks act. *)
Theorem C56_access_at : forall c N, exc c || negb (ndbg c) = true -> forall v, is_view c N v ->
  (forall ix n, o_size v = Ok n -> idx_fits n ix -> safe_ref c N (o_at1 c v ix)) /\
  (forall ix jx, is_two v = true -> idx_fits (o_rows v) ix -> idx_fits (o_cols v) jx -> safe_ref c N (o_at2 c v ix jx)).
Proof. exact access_at_thm. Qed.
Print Assumptions C56_access_at.
(** Without the checks, operator[] leaves the storage. *)
Theorem C56_unchecked_refuted : exists c v i, is_view c 3 v /\ o_size v = Ok 3 /\ o_ref1 c v (Plain i) = Ok 5.
Proof.
  exists c_off, (O1 3), 5. split; [|split; vm_compute; reflexivity].
  exists (O1 3), (whole1 3), []. split; [left; unfold LONG_MAX; split; [lia|split; reflexivity]|]. split; [exact I|reflexivity].
Qed.
Print Assumptions C56_unchecked_refuted.
Example C56_access_case : let ws := [VwSlice2 (Vec [2; 0]) Reverse; VwCol (Plain 1)] in
  chain_fits (whole2 3 4) ws /\ (v <- o_chain c_dbg (O2 3 4 12) ws ;; o_ref1 c_dbg v (Plain 2)) = Fail Throw /\
  (v <- o_chain c_dbg (O2 3 4 12) ws ;; o_ref1 c_dbg v (Plain 1)) = Ok 2 /\ (v <- o_chain c_off (O2 3 4 12) ws ;; o_at1 c_off v (Plain 2)) = Fail Throw.
Proof.
  cbv zeta. split.
  - cbn [chain_fits vop_typed vop_fits args_long no_overflow]. split; [reflexivity|]. split; [vm_compute; intuition congruence|]. intros _.
    cbn [den_apply whole2]. split; [reflexivity|]. split; [vm_compute; intuition congruence|]. intros _. exact I.
  - vm_compute. repeat split.
Qed.

(** Iterators: dereferencing and writing through any iterator into an array touches an element of that array or is reported. *)
Theorem C56_iterator_access : forall (V : Type) c (h : Z -> list V) it v, checked c = true -> (forall p, zlen (h p) <= LONG_MAX) ->
  let E := fun p => flag_list (h p) in
  (it_deref c E it = Fail (report c) \/ exists p x, it_ptr it = Some p /\ znth (h p) (it_pos it) = Some x /\ it_deref c E it = Ok x) /\
  (it_write c h it v = Fail (report c) \/ exists p h', it_ptr it = Some p /\ it_write c h it v = Ok h' /\ 0 <= it_pos it < zlen (h p) /\ zlen (h' p) = zlen (h p) /\
     (forall i, znth (h' p) i = if i =? it_pos it then Some v else znth (h p) i) /\ forall q, q <> p -> h' q = h q).
Proof. exact @iterator_access_thm. Qed.
Print Assumptions C56_iterator_access.
Example C56_iterator_access_case : let h := fun p : Z => [10; 20; 30] in it_deref c_dbg (fun p => flag_list (h p)) (mkit (Some 1) 2) = Ok 30 /\
  it_deref c_dbg (fun p => flag_list (h p)) (mkit (Some 1) 3) = Fail Throw /\ it_write c_abort h (mkit None 0) 5 = Fail Abort.
Proof. vm_compute. repeat split. Qed.

(** Programs of array operations with integer arguments far from the limits of the index type, valid or not, never have undefined
    behaviour in checking builds. *)
Theorem C56_no_ub1 : forall (V : Type) (zero : V) c ops, cfg_ok c -> amax c <= 2 ^ 60 -> checked c = true -> Forall modest_op ops ->
  fst (run (step1 zero c) [] ops) <> Crash.
Proof. exact @no_ub1_thm. Qed.
Print Assumptions C56_no_ub1.
(** In two dimensions also without moving an array onto itself (C31), and with the asserting checks (C32). *)
Theorem C56_no_ub2 : forall (V : Type) (zero : V) c ops, cfg_ok c -> amax c <= 2 ^ 60 -> full c = true -> Forall modest_op2 ops ->
  fst (run (step2 zero c) [] ops) <> Crash.
Proof. exact @no_ub2_thm. Qed.
Print Assumptions C56_no_ub2.
Example C56_no_ub_case : let ops := [NewFill2 2 3 7; RemoveRows 0 1 5; InsertCol 0 9 [1]; Read2 0 (Plain (-1)) (FromLast 4); Resize2 0 (-4) 1 true] in
  Forall modest_op2 ops /\ snd (run (step2 0 c_dbg) [] ops) = [Done; Failed Throw; Failed Throw; Failed Throw; Failed Throw] /\
  fst (run (step2 0 c_off) [] ops) = Crash.
Proof. cbv zeta. split; [repeat constructor; vm_compute; discriminate|]. split; vm_compute; reflexivity. Qed.
