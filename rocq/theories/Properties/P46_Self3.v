(** C92: views of an array assigned from expressions of any kind that read the array. *)
From Verif Require Import Base.Outcome Base.ZList Model.IntModel Model.Index Model.Slice Model.Array1D Model.Array2D Model.View2D Model.Expr Model.ViewAssign Model.Self.
From Verif Require Import Spec.Configs Spec.ArraySpec Spec.SliceSpec Spec.MatrixSpec Spec.Matrix2Spec Spec.View2DSpec Spec.ExprSpec Spec.AssignSpec Spec.SelfSpec Proofs.SelfProofs Proofs.Self2Proofs Proofs.Self3Proofs.

(** A(w) = e for an array A of one or two dimensions with elements l, a view A(w) of one dimension with elements at the places ps,
    and any expression e of the size of the view, in which A and other views of A may occur anywhere: one element of the view after
    the other is replaced by the value its element of e has in the array as it then is.  A value that fails ends the assignment
    there; the places written before keep their new values. *)
Theorem C92_assign : forall (V : Type) (c : cfg) (N : Z) o ps (e : list V -> ex1 V) l,
  at_places c N o ps -> zlen l = N -> written1 V V e -> fits1 (e l) -> agree1 (e l) -> zlen (den1 (e l)) = zlen ps ->
  goes (value_of e) ps l (part_assign c o e l).
Proof. exact (fun V c N o ps e l => part_assign_thm c N o ps e l). Qed.
Print Assumptions C92_assign.
(** A(w) op= e: the same with v op (element of e) for the element v in place. *)
Theorem C92_compound : forall (V : Type) (c : cfg) (N : Z) f o ps (e : list V -> ex1 V) l,
  at_places c N o ps -> zlen l = N -> written1 V V e -> fits1 (e l) -> agree1 (e l) -> zlen (den1 (e l)) = zlen ps ->
  goes (joined f (value_of e)) ps l (part_update c f o e l).
Proof. exact (fun V c N f o ps e l => part_update_thm c N f o ps e l). Qed.
Print Assumptions C92_compound.
(** Where there are checks, a violated condition inside e or a different size is reported and the array is unchanged. *)
Theorem C92_rejected : forall (V : Type) (c : cfg) (N : Z) o ps (e : list V -> ex1 V) l,
  at_places c N o ps -> fits1 (e l) -> checked c = true -> ~ agree1 (e l) \/ agree1 (e l) /\ zlen (den1 (e l)) <> zlen ps ->
  part_assign c o e l = MFail (report c) l /\ forall f, part_update c f o e l = MFail (report c) l.
Proof. exact (fun V c N o ps e l => part_bad c N o ps e l). Qed.
Print Assumptions C92_rejected.
(** Views of two dimensions, by rows. *)
Theorem C92_assign2 : forall (V : Type) (c : cfg) (N : Z) o ps (e : list V -> ex2 V) l,
  is_view c N o -> is_two o = true -> at_places c N o ps -> zlen l = N -> written2 V V e -> fits2 (e l) -> agree2 (e l) ->
  mr (den2 (e l)) = o_rows o -> mc (den2 (e l)) = o_cols o -> goes (value_of2 e) ps l (part_assign2 c o e l).
Proof. exact (fun V c N o ps e l => part_assign2_thm c N o ps e l). Qed.
Print Assumptions C92_assign2.
Theorem C92_compound2 : forall (V : Type) (c : cfg) (N : Z) f o ps (e : list V -> ex2 V) l,
  is_view c N o -> is_two o = true -> at_places c N o ps -> zlen l = N -> written2 V V e -> fits2 (e l) -> agree2 (e l) ->
  mr (den2 (e l)) = o_rows o -> mc (den2 (e l)) = o_cols o -> goes (joined f (value_of2 e)) ps l (part_update2 c f o e l).
Proof. exact (fun V c N f o ps e l => part_update2_thm c N f o ps e l). Qed.
Print Assumptions C92_compound2.
Theorem C92_rejected2 : forall (V : Type) (c : cfg) (N : Z) o ps (e : list V -> ex2 V) l,
  at_places c N o ps -> fits2 (e l) -> checked c = true -> ~ agree2 (e l) \/ agree2 (e l) /\ (mr (den2 (e l)), mc (den2 (e l))) <> (o_rows o, o_cols o) ->
  part_assign2 c o e l = MFail (report c) l /\ forall f, part_update2 c f o e l = MFail (report c) l.
Proof. exact (fun V c N o ps e l => part_bad2 c N o ps e l). Qed.
Print Assumptions C92_rejected2.
(** The descriptions above leave one result only, and only the places of the view change. *)
Theorem C92_exact : forall (V : Type) (g : list V -> Z -> Z -> outcome V) ps l r,
  course g 0 ps l r -> zlen r = zlen l /\ (forall q, ~ In q ps -> znth r q = znth l q) /\ forall res, goes g ps l res -> res = MOk r.
Proof. exact (fun V g ps l r H => conj (course_len g 0 ps l r H) (conj (fun q => course_other g 0 ps l r q H) (fun res => goes_exact g ps l r res H))). Qed.
Print Assumptions C92_exact.
(** If no value depends on a place written before, and no place occurs twice, the view becomes what the right side was. *)
Theorem C92_ahead : forall (V : Type) (N : Z) (g : list V -> Z -> Z -> outcome V) ps l vs,
  ahead N ps g -> NoDup ps -> zlen l = N -> Forall (fun p => 0 <= p < N) ps -> zlen vs = zlen ps ->
  (forall i p v, znth ps i = Some p -> znth vs i = Some v -> g l i p = Ok v) ->
  exists r, (forall res, goes g ps l res -> res = MOk r) /\ zlen r = N /\ (forall i p, znth ps i = Some p -> znth r p = znth vs i) /\
    (forall q, ~ In q ps -> znth r q = znth l q).
Proof.
  intros V N g ps l vs HA HD HL HF HZ HV. destruct (ahead_course N ps g l vs HA HD HL HF HZ HV) as (r & HC & R). exists r. split; [|exact R].
  intros res. exact (goes_exact g ps l r res HC).
Qed.
Print Assumptions C92_ahead.
(** The row operation A.row(i) op= s * A.row(k) of an m x n matrix, also for i = k: row i gets its new value from the old rows, all
    other rows are unchanged. *)
Theorem C92_row_operation : forall (V : Type) (c : cfg) (f h : V -> V -> outcome V) (F H : V -> V -> V) s l m n i k,
  (forall u v, f u v = Ok (F u v)) -> (forall u v, h u v = Ok (H u v)) ->
  zlen l = m * n -> m <= LONG_MAX -> n <= LONG_MAX -> m * n <= LONG_MAX -> 0 <= i < m -> 0 <= k < m -> 0 < n ->
  exists o r, o_apply c (O2 m n (m * n)) (VwRow (Plain i)) = Ok o /\
    part_update c f o (fun b => XScalL V V V h s (XView2 V (itself2 m n b) (VwRow (Plain k)))) l = MOk r /\ zlen r = m * n /\
    (forall j u w, 0 <= j < n -> znth l (i * n + j) = Some u -> znth l (k * n + j) = Some w -> znth r (i * n + j) = Some (F u (H s w))) /\
    (forall t j, 0 <= t < m -> 0 <= j < n -> t <> i -> znth r (t * n + j) = znth l (t * n + j)).
Proof. exact (fun V c f h F H s l m n i k => row_operation c f h F H s l m n i k). Qed.
Print Assumptions C92_row_operation.

Definition minus (x y : Z) : outcome Z := Ok (x - y).
Definition mult (x y : Z) : outcome Z := Ok (x * y).
Definition view_of (c : cfg) (o : obj) (w : vop) : obj := match o_apply c o w with Ok v => v | _ => o end.
(** "x(lastN(2)) = 10 * x(firstN(2)) multiplies the old elements": false, in every build. *)
Definition tenfold (b : list Z) : ex1 Z := XScalL Z Z Z mult 10 (XView1 Z (itself b) (VwSlice (FirstN 2))).
Theorem C92_shift_refuted : forall c, let o := view_of c (O1 3) (VwSlice (LastN 2)) in
  o_apply c (O1 3) (VwSlice (LastN 2)) = Ok o /\ part_assign c o tenfold [1; 2; 3] = MOk [1; 10; 100] /\ den1 (tenfold [1; 2; 3]) = [Ok 10; Ok 20].
Proof. intros [[] [] [] k]; repeat split; vm_compute; reflexivity. Qed.
Print Assumptions C92_shift_refuted.
(** "A.row(0) -= matvec_prod(A, A.row(0)) subtracts the product": false, the second element meets the first one's new value. *)
Definition image (b : list Z) : ex1 Z := XMatvec Z Z Z 0 (fun x y => Ok (x + y)) mult (itself2 2 2 b) (XView2 Z (itself2 2 2 b) (VwRow (Plain 0))).
Theorem C92_image_refuted : forall c, let o := view_of c (O2 2 2 4) (VwRow (Plain 0)) in
  o_apply c (O2 2 2 4) (VwRow (Plain 0)) = Ok o /\ part_update c minus o image [1; 2; 3; 4] = MOk [-4; 6; 3; 4] /\ den1 (image [1; 2; 3; 4]) = [Ok 5; Ok 11].
Proof. intros [[] [] [] k]; repeat split; vm_compute; reflexivity. Qed.
Print Assumptions C92_image_refuted.

Lemma last_two : at_places c_dbg 3 (view_of c_dbg (O1 3) (VwSlice (LastN 2))) [1; 2].
Proof.
  split; [vm_compute; reflexivity|]. split; [vm_compute; discriminate|]. split; [repeat constructor; lia|].
  intros i p Hp. pose proof (znth_lt _ _ _ Hp) as Hi. change (zlen [1; 2]) with 2 in Hi. assert (i = 0 \/ i = 1) as [->| ->] by lia; injection Hp as <-; vm_compute; reflexivity.
Qed.
Example C92_case_assign : let o := view_of c_dbg (O1 3) (VwSlice (LastN 2)) in
  at_places c_dbg 3 o [1; 2] /\ written1 Z Z tenfold /\ fits1 (tenfold [1; 2; 3]) /\ agree1 (tenfold [1; 2; 3]) /\ zlen (den1 (tenfold [1; 2; 3])) = 2 /\
  course (value_of tenfold) 0 [1; 2] [1; 2; 3] [1; 10; 100].
Proof.
  cbv zeta. split; [exact last_two|]. split; [apply (W_scall Z Z Z mult 10 (fun b => XView1 Z (itself b) (VwSlice (FirstN 2)))), (W_view1 Z itself), W_self|].
  split; [|split; [|split; [vm_compute; reflexivity|]]].
  - unfold tenfold, itself. cbn [fits1 den1 ssize src_of_arr an buf zlen length]. vm_compute. repeat split; try discriminate; try reflexivity.
  - unfold tenfold, itself. cbn [agree1]. vm_compute. repeat split; discriminate.
  - apply (C_step _ 0 1 [2] [1; 2; 3] 10 [1; 10; 3]); try reflexivity.
    + intros q Hq. destruct (Z.eq_dec q 0) as [->|]; [reflexivity|]. destruct (Z.eq_dec q 2) as [->|]; [reflexivity|]. destruct (Z.ltb_spec q 0); [unfold znth; now replace (q <? 0) with true by lia|]. rewrite !znth_none; [reflexivity| |]; change (zlen _) with 3; lia.
    + apply (C_step _ 1 2 [] [1; 10; 3] 100 [1; 10; 100]); try reflexivity; [|constructor].
      intros q Hq. destruct (Z.eq_dec q 0) as [->|]; [reflexivity|]. destruct (Z.eq_dec q 1) as [->|]; [reflexivity|]. destruct (Z.ltb_spec q 0); [unfold znth; now replace (q <? 0) with true by lia|]. rewrite !znth_none; [reflexivity| |]; change (zlen _) with 3; lia.
Qed.
Example C92_case_rejected : let o := view_of c_dbg (O1 3) (VwSlice (LastN 2)) in
  checked c_dbg = true /\ fits1 (itself [1; 2; 3]) /\ agree1 (itself [1; 2; 3]) /\ zlen (den1 (itself [1; 2; 3])) <> 2 /\ part_assign c_dbg o itself [1; 2; 3] = MFail Throw [1; 2; 3].
Proof. cbv zeta. split; [reflexivity|]. split; [vm_compute; repeat split; discriminate|]. split; [vm_compute; repeat split; discriminate|]. split; vm_compute; [discriminate|reflexivity]. Qed.
(** Division by an element that has become 0: the first element stays replaced. *)
Example C92_case_fail : let o := view_of c_dbg (O1 3) (VwSlice (LastN 2)) in let e := fun b : list Z => XView1 Z (itself b) (VwSlice (FirstN 2)) in
  part_update c_dbg (idiv c_dbg I32) o e [7; 2; 5] = MFail Throw [7; 0; 5] /\ goes (joined (idiv c_dbg I32) (value_of e)) [1; 2] [7; 2; 5] (MFail Throw [7; 0; 5]).
Proof.
  cbv zeta. split; [vm_compute; reflexivity|]. exists 1, 2. split; [reflexivity|]. split; [|vm_compute; reflexivity]. apply (C_step _ 0 1 [] [7; 2; 5] 0 [7; 0; 5]); try reflexivity; [|constructor].
  intros q Hq. destruct (Z.eq_dec q 0) as [->|]; [reflexivity|]. destruct (Z.eq_dec q 2) as [->|]; [reflexivity|]. destruct (Z.ltb_spec q 0); [unfold znth; now replace (q <? 0) with true by lia|]. rewrite !znth_none; [reflexivity| |]; change (zlen _) with 3; lia.
Qed.
(** A.rows(reverse) = transpose(A) on [[1, 2], [3, 4]]. *)
Definition flip (b : list Z) : ex2 Z := YTranspose Z (itself2 2 2 b).
Example C92_case_two : let o := view_of c_dbg (O2 2 2 4) (VwRows Reverse) in
  is_view c_dbg 4 o /\ is_two o = true /\ at_places c_dbg 4 o [2; 3; 0; 1] /\ written2 Z Z flip /\ fits2 (flip [1; 2; 3; 4]) /\ agree2 (flip [1; 2; 3; 4]) /\
  mr (den2 (flip [1; 2; 3; 4])) = o_rows o /\ mc (den2 (flip [1; 2; 3; 4])) = o_cols o /\ part_assign2 c_dbg o flip [1; 2; 3; 4] = MOk [2; 1; 1; 1] /\
  part_update2 c_dbg minus o flip [1; 2; 3; 4] = MOk [-1; 0; 2; 2].
Proof.
  cbv zeta. split; [|split; [vm_compute; reflexivity|split; [|split; [apply (W_trans Z (itself2 2 2)), W_self2|split; [|split; [exact I|]]]]]].
  - exists (O2 2 2 4), (whole2 2 2), [VwRows Reverse]. split; [right; exists 2, 2; unfold LONG_MAX; repeat split; lia|]. split; [|vm_compute; reflexivity].
    cbn [chain_ok]. split; [reflexivity|]. vm_compute. repeat split; discriminate.
  - split; [vm_compute; reflexivity|]. split; [vm_compute; discriminate|]. split; [repeat constructor; lia|].
    intros i p Hp. pose proof (znth_lt _ _ _ Hp) as Hi. change (zlen [2; 3; 0; 1]) with 4 in Hi. assert (i = 0 \/ i = 1 \/ i = 2 \/ i = 3) as [->| [->| [->| ->]]] by lia; injection Hp as <-; vm_compute; reflexivity.
  - unfold flip. cbn [fits2]. assert (fits2 (itself2 2 2 [1; 2; 3; 4])) as F by (apply itself2_fits; unfold LONG_MAX; try reflexivity; lia). first [exact F|split; [exact F|vm_compute; repeat split; discriminate]].
  - repeat split; vm_compute; reflexivity.
Qed.
(** One step of Gaussian elimination on [[1, 2], [3, 4]]. *)
Example C92_case_row_operation : let o := view_of c_dbg (O2 2 2 4) (VwRow (Plain 1)) in
  part_update c_dbg minus o (fun b => XScalL Z Z Z mult 3 (XView2 Z (itself2 2 2 b) (VwRow (Plain 0)))) [1; 2; 3; 4] = MOk [1; 2; 0; -2].
Proof. vm_compute. reflexivity. Qed.
(** The same step satisfies the condition of C92_ahead. *)
Example C92_case_ahead : ahead 4 [2; 3] (joined minus (value_of (multiple mult 3 2 2 0))) /\ NoDup [2; 3] /\ Forall (fun p => 0 <= p < 4) [2; 3] /\
  (forall i p v, znth [2; 3] i = Some p -> znth [0; -2] i = Some v -> joined minus (value_of (multiple mult 3 2 2 0)) [1; 2; 3; 4] i p = Ok v).
Proof.
  split; [|split; [repeat constructor; cbn; intuition lia|split; [repeat constructor; lia|]]].
  - intros b b' i p Hb Hb' Hp H. destruct b as [|x [|y [|z [|t [|]]]]], b' as [|x' [|y' [|z' [|t' [|]]]]]; try (exfalso; revert Hb Hb'; unfold zlen; cbn [length]; lia).
    pose proof (znth_lt _ _ _ Hp) as Hi. change (zlen [2; 3]) with 2 in Hi. assert (i = 0 \/ i = 1) as [->| ->] by lia; injection Hp as <-.
    + pose proof (H 0 ltac:(cbn; intuition lia)) as K0. pose proof (H 2 ltac:(cbn; intuition lia)) as K2. injection K0 as <-. injection K2 as <-. reflexivity.
    + pose proof (H 1 ltac:(vm_compute; intros [E|[]]; discriminate)) as K0. pose proof (H 3 ltac:(vm_compute; intros [E|[]]; discriminate)) as K2. injection K0 as <-. injection K2 as <-. reflexivity.
  - intros i p v Hp Hv. pose proof (znth_lt _ _ _ Hp) as Hi. change (zlen [2; 3]) with 2 in Hi. assert (i = 0 \/ i = 1) as [->| ->] by lia; injection Hp as <-; injection Hv as <-; reflexivity.
Qed.
