(** Properties C54 and C55: assignment and compound assignment through arrays and views. *)
From Verif Require Import Base.Outcome Base.ZList Model.IntModel Model.Index Model.Slice Model.Array1D Model.Array2D Model.View2D Model.Expr Model.Reduce Model.ViewAssign.
From Verif Require Import Spec.IntSpec Spec.ArraySpec Spec.SliceSpec Spec.MatrixSpec Spec.Matrix2Spec Spec.FixedSpec Spec.View2DSpec Spec.ExprSpec Spec.ReduceSpec Spec.AssignSpec Spec.Configs.
From Verif Require Import Proofs.AssignProofs Proofs.AssignThms Proofs.AssignList Proofs.View2DThms.
Local Open Scope Z_scope.

(** ** C54: the target o is an array or view over the storage b, its elements at the places ps. *)

(** A op= x applies the operator once per element, in order. *)
Theorem C54_scalar : forall (V : Type) (c : cfg) (N : Z) f o ps x (b : list V),
  at_places c N o ps -> zlen b = N ->
  runs f b (map (fun p => (p, Ok x)) ps) (v_op_scalar c f o x b).
Proof. exact (fun V c N => @op_scalar_ok V c N). Qed.
Print Assumptions C54_scalar.

(** A op= B for an array, view or expression B that does not depend on A. *)
Theorem C54_array : forall (V : Type) (c : cfg) (N : Z) f o ps A xs (b : list V),
  at_places c N o ps -> zlen b = N -> yields A xs -> zlen xs = zlen ps ->
  runs f b (combine ps xs) (v_op_array c f o (ssize A) (fun _ => sun A) b).
Proof. exact (fun V c N => @op_array_ok V c N). Qed.
Print Assumptions C54_array.

(** Different sizes are reported and nothing has changed. *)
Theorem C54_mismatch : forall (V : Type) (c : cfg) (N : Z) f o ps k rd (b : list V),
  at_places c N o ps -> k <> zlen ps -> checked c = true ->
  v_op_array c f o k rd b = MFail (report c) b.
Proof. exact (fun V c N => @op_array_mismatch V c N). Qed.
Print Assumptions C54_mismatch.

(** Two dimensions. *)
Theorem C54_array2 : forall (V : Type) (c : cfg) (N : Z) f o ps A M (b : list V),
  at_places c N o ps -> zlen b = N -> yields2 A M -> is_two o = true -> is_view c N o -> mr M = o_rows o -> mc M = o_cols o ->
  runs f b (combine ps (mlist M)) (v_op_array2 c f o (s2rows A) (s2cols A) (fun _ => s2lin A) b).
Proof. exact (fun V c N => @op_array2_ok V c N). Qed.
Print Assumptions C54_array2.

(** Two dimensions: a different shape is reported, nothing has changed. *)
Theorem C54_mismatch2 : forall (V : Type) (c : cfg) (N : Z) f o ps m k rd (b : list V),
  at_places c N o ps -> (m, k) <> (o_rows o, o_cols o) -> checked c = true ->
  v_op_array2 c f o m k rd b = MFail (report c) b.
Proof. exact (fun V c N => @op_array2_mismatch V c N). Qed.
Print Assumptions C54_mismatch2.

(** A = x sets exactly the elements of A. *)
Theorem C54_fill : forall (V : Type) (c : cfg) (N : Z) o ps x (b : list V),
  at_places c N o ps -> zlen b = N -> exists b', v_fill c o x b = MOk b' /\ zlen b' = N /\
  (forall p, In p ps -> znth b' p = Some x) /\ (forall q, ~ In q ps -> znth b' q = znth b q).
Proof. exact (fun V c N => @fill_ok V c N). Qed.
Print Assumptions C54_fill.

(** A = B. *)
Theorem C54_assign : forall (V : Type) (c : cfg) (N : Z) o ps A xs (b : list V),
  at_places c N o ps -> zlen b = N -> yields A xs -> zlen xs = zlen ps ->
  runs replace b (combine ps xs) (v_assign c o (ssize A) (fun _ => sun A) b).
Proof. exact (fun V c N => @assign_runs V c N). Qed.
Print Assumptions C54_assign.

(** A = B in two dimensions. *)
Theorem C54_assign2 : forall (V : Type) (c : cfg) (N : Z) o ps A M (b : list V),
  is_view c N o -> is_two o = true -> at_places c N o ps -> zlen b = N -> yields2 A M -> mr M = o_rows o -> mc M = o_cols o ->
  runs replace b (combine ps (mlist M)) (v_assign2 c o (s2rows A) (s2cols A) (fun _ => s2un A) b).
Proof. exact (fun V c N => @assign2_runs V c N). Qed.
Print Assumptions C54_assign2.

(** A = {x, y, ...}: the elements of the list in order, or a report if their number is not the size of A. *)
Theorem C54_assign_list : forall (V : Type) (c : cfg) (N : Z) o ps l (b : list V), at_places c N o ps -> zlen b = N ->
  (zlen l = zlen ps -> exists b', v_assign_list c o l b = MOk b' /\ after replace b (combine ps (map Ok l)) b') /\
  (zlen l <> zlen ps -> checked c = true -> v_assign_list c o l b = MFail (report c) b).
Proof. exact (fun V c N => @assign_list_runs V c N). Qed.
Print Assumptions C54_assign_list.
(** A = {{x, y}, {z, t}, ...}: by rows, or a report if the rows differ in length, are empty, or do not have the sizes of A. *)
Theorem C54_assign_list2 : forall (V : Type) (c : cfg) (N : Z) o ps L (b : list V), is_view c N o -> is_two o = true -> at_places c N o ps -> zlen b = N -> let R := matrix_of L in
  (good_list L = true /\ zlen R = o_rows o /\ ncols R = o_cols o -> exists b', v_assign_list2 c o L b = MOk b' /\ after replace b (combine ps (map Ok (concat R))) b') /\
  (~ (good_list L = true /\ zlen R = o_rows o /\ ncols R = o_cols o) -> checked c = true -> v_assign_list2 c o L b = MFail (report c) b).
Proof. exact (fun V c N => @assign_list2_runs V c N). Qed.
Print Assumptions C54_assign_list2.
Example C54_list_case : let b := [1; 2; 3; 4; 5; 6] in
  match o_slice1 c_dbg (O1 6) Even with Ok o => v_assign_list c_dbg o [7; 8; 9] b = MOk [7; 2; 8; 4; 9; 6] /\ v_assign_list c_dbg o [7; 8] b = MFail Throw b | _ => False end /\
  match o_slice2 c_dbg (O2 2 3 6) Reverse (LastN 2) with
  | Ok o => v_assign_list2 c_dbg o [[7; 8]; [9; 0]] b = MOk [1; 9; 0; 4; 7; 8] /\ v_assign_list2 c_dbg o [[7; 8]; [9]] b = MFail Throw b /\ v_assign_list2 c_dbg o [[7; 8]] b = MFail Throw b
  | _ => False end.
Proof. vm_compute. repeat split. Qed.

(** A op= B where B is a view of the same storage, no element of B being read after it was written. *)
Theorem C54_alias : forall (V : Type) (c : cfg) (N : Z) f o o2 ps qs vs (b : list V),
  at_places c N o ps -> at_places c N o2 qs -> zlen b = N -> zlen ps = zlen qs -> values_at b qs vs -> reads_ahead ps qs ->
  runs f b (combine ps (map Ok vs)) (v_op_array c f o (zlen qs) (fun b i => o_get c o2 b i) b).
Proof. exact (fun V c N => @op_alias V c N). Qed.
Print Assumptions C54_alias.

(** A = B with such a B. *)
Theorem C54_assign_alias : forall (V : Type) (c : cfg) (N : Z) o o2 ps qs vs (b : list V),
  at_places c N o ps -> at_places c N o2 qs -> zlen b = N -> zlen ps = zlen qs -> values_at b qs vs -> reads_ahead ps qs ->
  runs replace b (combine ps (map Ok vs)) (v_assign c o (zlen qs) (fun b i => o_get c o2 b i) b).
Proof. exact (fun V c N => @assign_alias V c N). Qed.
Print Assumptions C54_assign_alias.

(** A itself is such a B, if A has no repeated elements. *)
Theorem C54_alias_self : forall ps,
  NoDup ps -> reads_ahead ps ps.
Proof. exact reads_own. Qed.
Print Assumptions C54_alias_self.

(** for_each applies the function to each element. *)
Theorem C54_for_each : forall (V : Type) (c : cfg) (N : Z) (f : V -> outcome V) o ps (b : list V),
  at_places c N o ps -> zlen b = N ->
  runs (fun v _ => f v) b (map (fun p => (p, Ok tt)) ps) (r_for_each c f o b).
Proof. exact (fun V c N => @for_each_runs V c N). Qed.
Print Assumptions C54_for_each.

(** What "runs" says when the places are distinct (always, except for slices by a vector with repeated indices) and no operation fails: each element becomes the result of the operator, all else is unchanged. *)
Theorem C54_success : forall (V X : Type) (f : V -> X -> outcome V) b l r,
  NoDup (map fst l) -> Forall (fun e => 0 <= fst e < zlen b) l -> runs f b l r ->
  (forall i p ox v, znth l i = Some (p, ox) -> znth b p = Some v -> exists y, (x <- ox ;; f v x) = Ok y) ->
  exists b', r = MOk b' /\ zlen b' = zlen b /\
    (forall i p ox v, znth l i = Some (p, ox) -> znth b p = Some v -> exists y, (x <- ox ;; f v x) = Ok y /\ znth b' p = Some y) /\
    (forall q, ~ In q (map fst l) -> znth b' q = znth b q).
Proof. exact (fun V X f => @runs_distinct V X f). Qed.
Print Assumptions C54_success.

(** When operation number k is the first to fail: exactly the elements before it have been updated, there is no rollback. *)
Theorem C54_failure : forall (V X : Type) (f : V -> X -> outcome V) b l r k p ox v e,
  NoDup (map fst l) -> Forall (fun e => 0 <= fst e < zlen b) l -> runs f b l r ->
  (forall i p ox v, i < k -> znth l i = Some (p, ox) -> znth b p = Some v -> exists y, (x <- ox ;; f v x) = Ok y) ->
  znth l k = Some (p, ox) -> znth b p = Some v -> (x <- ox ;; f v x) = Fail e ->
  exists b', r = MFail e b' /\ zlen b' = zlen b /\
    (forall i p ox v, i < k -> znth l i = Some (p, ox) -> znth b p = Some v -> exists y, (x <- ox ;; f v x) = Ok y /\ znth b' p = Some y) /\
    (forall q, ~ In q (map fst (firstn (Z.to_nat k) l)) -> znth b' q = znth b q).
Proof. exact (fun V X f => @runs_distinct_fail V X f). Qed.
Print Assumptions C54_failure.

Example C54_case : let b := [8; 6; 4; 2] in
  at_places c_dbg 4 (O1 4) [0; 1; 2; 3] /\ v_op_scalar c_dbg (iadd I32) (O1 4) 10 b = MOk [18; 16; 14; 12] /\
  v_op_array c_dbg (idiv c_dbg I32) (O1 4) 4 (fun _ => oget [2; 3; 0; 1]) b = MFail Throw [4; 2; 4; 2] /\
  v_op_array c_dbg (idiv c_dbg I32) (O1 4) 3 (fun _ => oget [2; 3; 1]) b = MFail Throw b /\
  match o_slice1 c_dbg (O1 4) Reverse with Ok r => v_assign c_dbg r 4 (fun _ => oget [1; 2; 3; 4]) b = MOk [4; 3; 2; 1] | _ => False end /\
  match o_slice1 c_dbg (O1 4) (FirstN 3) with Ok s => match o_slice1 c_dbg (O1 4) (LastN 3) with Ok t => v_assign c_dbg s 3 (fun b i => o_get c_dbg t b i) b = MOk [6; 4; 2; 2] | _ => False end | _ => False end /\
  reads_ahead [0; 1; 2] [1; 2; 3].
Proof.
  cbv zeta. split.
  { unfold at_places. split; [reflexivity|]. split; [vm_compute; congruence|]. split; [repeat constructor; vm_compute; congruence|]. intros i p Hp. pose proof (znth_lt _ _ _ Hp) as Hi. change (zlen [0; 1; 2; 3]) with 4 in Hi. assert (i = 0 \/ i = 1 \/ i = 2 \/ i = 3) as [->|[->|[->| ->]]] by lia; vm_compute in Hp; injection Hp as <-; reflexivity. }
  do 5 (split; [vm_compute; reflexivity|]). intros i j p q Hij Hp Hq. pose proof (znth_lt _ _ _ Hp) as H1. pose proof (znth_lt _ _ _ Hq) as H2. change (zlen [0; 1; 2]) with 3 in H1. change (zlen [1; 2; 3]) with 3 in H2.
  assert (i = 1 \/ i = 2) as [->| ->] by lia; [assert (j = 0) as -> by lia|assert (j = 0 \/ j = 1) as [->| ->] by lia]; vm_compute in Hp, Hq; congruence.
Qed.
(** Without that condition the result depends on the order of the loop: A += A(reverse) adds elements already updated. *)
Theorem C54_alias_refuted : exists (o : obj) (b : list Z), o_slice1 c_dbg (O1 (zlen b)) Reverse = Ok o /\
  v_op_array c_dbg (iadd I32) (O1 (zlen b)) (zlen b) (fun b i => o_get c_dbg o b i) b <> MOk [3; 3] /\ b = [1; 2] /\
  v_op_array c_dbg (iadd I32) (O1 (zlen b)) (zlen b) (fun b i => o_get c_dbg o b i) b = MOk [3; 5].
Proof. exists (match o_slice1 c_dbg (O1 2) Reverse with Ok o => o | _ => O1 0 end), [1; 2]. split; [reflexivity|]. split; [vm_compute; discriminate|]. split; reflexivity. Qed.
Print Assumptions C54_alias_refuted.
(** A slice by a vector with a repeated index applies the operator once per occurrence. *)
Theorem C54_repeated_refuted : exists o, o_slice1 c_dbg (O1 2) (Vec [0; 0]) = Ok o /\ v_op_scalar c_dbg (iadd I32) o 1 [5; 5] = MOk [7; 5].
Proof. exists (match o_slice1 c_dbg (O1 2) (Vec [0; 0]) with Ok o => o | _ => O1 0 end). split; reflexivity. Qed.
Print Assumptions C54_repeated_refuted.

(** ** C55 *)

(** A size mismatch is reported with the storage unchanged; for two temporaries of the same slice type (v_assign_rvalue) the report in exception mode is std::terminate. *)
Theorem C55_terminate : forall (V : Type) (c : cfg) (N : Z) o ps k rd (b : list V),
  at_places c N o ps -> k <> zlen ps -> checked c = true ->
  v_assign c o k rd b = MFail (report c) b /\ v_assign_rvalue c o k rd b = MFail (if exc c then Terminate else report c) b.
Proof. exact (fun V c N => @assign_bad V c N). Qed.
Print Assumptions C55_terminate.

(** Two dimensions. *)
Theorem C55_terminate2 : forall (V : Type) (c : cfg) o m k rd (b : list V),
  (m, k) <> (o_rows o, o_cols o) -> checked c = true ->
  v_assign2 c o m k rd b = MFail (report c) b /\ v_assign2_rvalue c o m k rd b = MFail (if exc c then Terminate else report c) b.
Proof. exact (fun V c => @assign2_bad V c). Qed.
Print Assumptions C55_terminate2.

(** When nothing is reported the two assignments do the same. *)
Theorem C55_same : forall (V : Type) (c : cfg) o k rd (b : list V),
  (forall e b', v_assign c o k rd b <> MFail e b') -> v_assign_rvalue c o k rd b = v_assign c o k rd b.
Proof. exact (fun V c => @rvalue_same V c). Qed.
Print Assumptions C55_same.

Example C55_case : match o_slice1 c_dbg (O1 4) Even with Ok o => at_places c_dbg 4 o [0; 2] /\
    v_assign c_dbg o 3 (fun _ => oget [1; 2; 3]) [8; 6; 4; 2] = MFail Throw [8; 6; 4; 2] /\ v_assign_rvalue c_dbg o 3 (fun _ => oget [1; 2; 3]) [8; 6; 4; 2] = MFail Terminate [8; 6; 4; 2] /\
    v_assign_rvalue c_abort o 3 (fun _ => oget [1; 2; 3]) [8; 6; 4; 2] = MFail Abort [8; 6; 4; 2] /\ v_assign_rvalue c_dbg o 2 (fun _ => oget [1; 2]) [8; 6; 4; 2] = MOk [1; 6; 2; 2] | _ => False end.
Proof.
  destruct (o_slice1 c_dbg (O1 4) Even) as [o| |] eqn:E; vm_compute in E; try discriminate. injection E as <-. split.
  { unfold at_places. split; [reflexivity|]. split; [vm_compute; congruence|]. split; [repeat constructor; vm_compute; congruence|]. intros i p Hp. pose proof (znth_lt _ _ _ Hp) as Hi. change (zlen [0; 2]) with 2 in Hi. assert (i = 0 \/ i = 1) as [->| ->] by lia; vm_compute in Hp; injection Hp as <-; reflexivity. }
  repeat split; vm_compute; reflexivity.
Qed.
