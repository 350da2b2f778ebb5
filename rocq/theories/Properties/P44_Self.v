(** C90: vectors assigned from expressions of any kind that read them. *)
From Verif Require Import Base.Outcome Base.ZList Model.IntModel Model.Index Model.Slice Model.Array1D Model.Array2D Model.View2D Model.Expr Model.ViewAssign Model.Self.
From Verif Require Import Spec.Configs Spec.ArraySpec Spec.MatrixSpec Spec.Matrix2Spec Spec.View2DSpec Spec.ExprSpec Spec.SelfSpec Proofs.FixedThms Proofs.SelfProofs.

(** x = e for any expression e of the size of x, in which x may occur anywhere: the elements are replaced from the first on, each
    by the value its element of e has in the vector as it then is.  A value that fails ends the assignment there. *)
Theorem C90_assign : forall (V : Type) (c : cfg) (e : list V -> ex1 V) a l,
  rep a l -> written1 V V e -> fits1 (e l) -> agree1 (e l) -> zlen (den1 (e l)) = zlen l ->
  match self_assign c e a with
  | MOk a' => exists r, replaced e l (zlen l) r /\ rep a' r
  | MFail f a' => exists r i, 0 <= i < zlen l /\ replaced e l i r /\ elt (den1 (e r)) i = Fail f /\ rep a' r
  | MUB => exists r i, 0 <= i < zlen l /\ replaced e l i r /\ elt (den1 (e r)) i = UB
  end.
Proof. exact (fun V c e a l => self_assign_thm c e a l). Qed.
Print Assumptions C90_assign.
(** No other result is possible. *)
Theorem C90_exact : forall (V : Type) (c : cfg) (e : list V -> ex1 V) a l r,
  rep a l -> written1 V V e -> fits1 (e l) -> agree1 (e l) -> zlen (den1 (e l)) = zlen l -> replaced e l (zlen l) r ->
  exists a', self_assign c e a = MOk a' /\ rep a' r.
Proof. exact (fun V c e a l r => self_exact c e a l r). Qed.
Print Assumptions C90_exact.
(** Where there are checks, a violated condition inside e or a different size is reported and x is unchanged, also by op=. *)
Theorem C90_rejected : forall (V : Type) (c : cfg) (e : list V -> ex1 V) a l,
  rep a l -> fits1 (e l) -> checked c = true -> ~ agree1 (e l) \/ agree1 (e l) /\ zlen (den1 (e l)) <> zlen l ->
  self_assign c e a = MFail (report c) a /\ forall f, self_update c f e a = MFail (report c) a.
Proof. exact (fun V c e a l => self_bad c e a l). Qed.
Print Assumptions C90_rejected.
(** If no element of e reads an element of x before its own place, x becomes the vector e was. *)
Theorem C90_forward : forall (V : Type) (c : cfg) (e : list V -> ex1 V) a l r,
  rep a l -> written1 V V e -> fits1 (e l) -> agree1 (e l) -> forward (zlen l) e -> den1 (e l) = map Ok r -> zlen r = zlen l ->
  exists a', self_assign c e a = MOk a' /\ rep a' r.
Proof. exact (fun V c e a l r => self_forward c e a l r). Qed.
Print Assumptions C90_forward.
(** In particular for trees of element-wise operators, with x as many times as one likes. *)
Theorem C90_elementwise : forall (V : Type) (c : cfg) (e : list V -> ex1 V) a l r,
  rep a l -> written1 V V e -> elementwise (e l) -> fits1 (e l) -> agree1 (e l) -> den1 (e l) = map Ok r -> zlen r = zlen l ->
  exists a', self_assign c e a = MOk a' /\ rep a' r.
Proof. exact (fun V c e a l r => self_elementwise c e a l r). Qed.
Print Assumptions C90_elementwise.
(** x.resize_and_assign(e) gives the vector e was, whatever e reads and whatever its size. *)
Theorem C90_resize : forall (V : Type) (zero : V) (c : cfg) (e : list V -> ex1 V) a l r,
  rep a l -> fits1 (e l) -> agree1 (e l) -> den1 (e l) = map Ok r -> zlen r <= amax c ->
  exists a', self_resize zero c e a = Ok a' /\ rep a' r.
Proof. exact (fun V zero c e a l r => self_resize_thm zero c e a l r). Qed.
Print Assumptions C90_resize.
(** x op= e is x = x op e, in results, failures and undefinedness. *)
Theorem C90_compound : forall (V : Type) (c : cfg) f (e : list V -> ex1 V) a l,
  rep a l -> zlen l <= LONG_MAX -> written1 V V e -> fits1 (e l) -> agree1 (e l) -> zlen (den1 (e l)) = zlen l ->
  self_update c f e a = self_assign c (fun b => XBin V V V f (itself b) (e b)) a.
Proof. exact (fun V c f e a l => self_compound c f e a l). Qed.
Print Assumptions C90_compound.
(** x = matvec_prod(A, x) for a square matrix: not the product, but its in-place form, in which row i meets the new elements
    before i and the old ones from i on. *)
Theorem C90_matvec : forall (V : Type) (zero : V) (c : cfg) (add mul : V -> V -> outcome V) (g h : V -> V -> V) z m M a l,
  cfg_ok c -> (forall u v, add u v = Ok (g u v)) -> (forall u v, mul u v = Ok (h u v)) ->
  rep2 m M -> zlen M * ncols M <= amax c -> rep a l -> zlen M = zlen l -> ncols M = zlen l ->
  exists a' r, self_assign c (fun b => XMatvec V V V z add mul (YLeaf V (src_of_arr2 m)) (itself b)) a = MOk a' /\ rep a' r /\ zlen r = zlen l /\
    forall i row, znth M i = Some row -> znth r i = Some (fold_left g (map (fun p => h (fst p) (snd p)) (combine row (half r l i))) z).
Proof. exact (fun V zero c add mul g h z m M a l Hc => matvec_self zero c Hc add mul g h z m M a l). Qed.
Print Assumptions C90_matvec.

(** Exchanging two numbers with a permutation matrix. *)
Definition swap2 : arr2 Z := mkarr2 2 2 (mkarr [0; 1; 1; 0] 4).
Definition plus (x y : Z) : outcome Z := Ok (x + y).
Definition mult (x y : Z) : outcome Z := Ok (x * y).
Definition prod_self (b : list Z) : ex1 Z := XMatvec Z Z Z 0 plus mult (YLeaf Z (src_of_arr2 swap2)) (itself b).
Lemma dbg_ok : cfg_ok c_dbg.
Proof. vm_compute. split; congruence. Qed.
Lemma swap2_ok : rep2 swap2 [[0; 1]; [1; 0]].
Proof. repeat constructor; vm_compute; congruence. Qed.
(** "x = matvec_prod(A, x) multiplies x by A": false, in every build; resize_and_assign does. *)
Theorem C90_matvec_refuted : forall c, 4 <= amax c ->
  self_assign c prod_self (mkarr [5; 7] 2) = MOk (mkarr [7; 7] 2) /\ den1 (prod_self [5; 7]) = [Ok 7; Ok 5] /\
  self_resize 0 c prod_self (mkarr [5; 7] 2) = Ok (mkarr [7; 5] 2).
Proof.
  intros c H. split; [destruct c as [[] [] [] m]; vm_compute; reflexivity|]. split; [vm_compute; reflexivity|].
  destruct (C90_resize Z 0 c prod_self (mkarr [5; 7] 2) [5; 7] [7; 5]) as ([b n] & E & Hb & Hn);
    [split; reflexivity|apply (times_fits 0 c_dbg dbg_ok plus mult 0 swap2 _ _ swap2_ok); vm_compute; congruence|apply (times_fits 0 c_dbg dbg_ok plus mult 0 swap2 _ _ swap2_ok); vm_compute; congruence|vm_compute; reflexivity|change (2 <= amax c); lia|].
  cbn [buf an] in Hb, Hn. subst. exact E.
Qed.
Print Assumptions C90_matvec_refuted.
(** "x = merge(y, x without its last element) shifts x": false, the inserted elements are repeated. *)
Definition shift (b : list Z) : ex1 Z := XMergeFront Z 9 (XExcludeLast Z (itself b) 0).
Theorem C90_merge_refuted : forall c, self_assign c shift (mkarr [1; 2; 3] 3) = MOk (mkarr [9; 9; 9] 3) /\ den1 (shift [1; 2; 3]) = [Ok 9; Ok 1; Ok 2].
Proof. intros [[] [] [] m]; split; vm_compute; reflexivity. Qed.
Print Assumptions C90_merge_refuted.

Lemma shift_written : written1 Z Z shift.
Proof. apply (W_front Z 9 (fun b => XExcludeLast Z (itself b) 0)), (W_exclude_last Z itself 0), W_self. Qed.
Example C90_case_assign : rep (mkarr [1; 2; 3] 3) [1; 2; 3] /\ written1 Z Z shift /\ fits1 (shift [1; 2; 3]) /\ agree1 (shift [1; 2; 3]) /\
  zlen (den1 (shift [1; 2; 3])) = 3 /\ replaced shift [1; 2; 3] 3 [9; 9; 9].
Proof.
  split; [split; reflexivity|]. split; [exact shift_written|]. split; [vm_compute; repeat split; congruence|]. split; [vm_compute; repeat split; congruence|]. split; [reflexivity|].
  split; [reflexivity|]. split.
  - intros i Hi. exists 9. assert (i = 0 \/ i = 1 \/ i = 2) as [->| [->| ->]] by lia; split; vm_compute; reflexivity.
  - intros i Hi. rewrite !znth_none; [reflexivity| |]; change (zlen _) with 3; lia.
Qed.
(** A failing element: x = 6 / x(reverse) on [1, 0, 2]; the first element is replaced, the second is reported. *)
Definition over_rev (b : list Z) : ex1 Z := XScalL Z Z Z (idiv c_dbg I32) 6 (XView1 Z (itself b) (VwSlice Reverse)).
Example C90_case_fail : written1 Z Z over_rev /\ agree1 (over_rev [1; 0; 2]) /\ replaced over_rev [1; 0; 2] 1 [3; 0; 2] /\ elt (den1 (over_rev [3; 0; 2])) 1 = Fail Throw /\
  self_assign c_dbg over_rev (mkarr [1; 0; 2] 3) = MFail Throw (mkarr [3; 0; 2] 3).
Proof.
  split; [apply (W_scall Z Z Z (idiv c_dbg I32) 6 (fun b => XView1 Z (itself b) (VwSlice Reverse))), (W_view1 Z itself (VwSlice Reverse)), W_self|].
  split; [vm_compute; repeat split; congruence|]. split; [|split; vm_compute; reflexivity].
  split; [reflexivity|]. split; [intros i Hi; assert (i = 0) as -> by lia; exists 3; split; vm_compute; reflexivity|].
  intros i Hi. destruct (Z.ltb_spec i 3); [assert (i = 1 \/ i = 2) as [->| ->] by lia; reflexivity|]. rewrite !znth_none; [reflexivity| |]; change (zlen _) with 3; lia.
Qed.
Example C90_case_rejected : checked c_dbg = true /\ fits1 (XMerge Z (itself [1; 2]) (itself [1; 2])) /\ agree1 (XMerge Z (itself [1; 2]) (itself [1; 2])) /\
  zlen (den1 (XMerge Z (itself [1; 2]) (itself [1; 2]))) <> 2 /\ self_assign c_dbg (fun b => XMerge Z (itself b) (itself b)) (mkarr [1; 2] 2) = MFail Throw (mkarr [1; 2] 2) /\
  self_resize 0 c_dbg (fun b => XMerge Z (itself b) (itself b)) (mkarr [1; 2] 2) = Ok (mkarr [1; 2; 1; 2] 4) /\
  ~ agree1 (XExclude Z (itself [1; 2]) 1 2) /\ self_assign c_dbg (fun b => XExclude Z (itself b) 1 2) (mkarr [1; 2] 2) = MFail Throw (mkarr [1; 2] 2).
Proof. repeat split; try (vm_compute; congruence). vm_compute. intuition. Qed.
(** x = merge(x without its first element, 9): a left shift reads ahead only. *)
Definition left_shift (b : list Z) : ex1 Z := XMergeBack Z (XExclude Z (itself b) 0 1) 9.
Example C90_case_forward : written1 Z Z left_shift /\ forward 3 left_shift /\ den1 (left_shift [1; 2; 3]) = map Ok [2; 3; 9] /\ self_assign c_dbg left_shift (mkarr [1; 2; 3] 3) = MOk (mkarr [2; 3; 9] 3).
Proof.
  split; [apply (W_back Z (fun b => XExclude Z (itself b) 0 1)), (W_exclude Z itself 0 1), W_self|]. split; [|split; vm_compute; reflexivity].
  intros b b' i Hb Hb' Hi H. destruct b as [|x [|y [|z [|]]]], b' as [|x' [|y' [|z' [|]]]]; try (exfalso; revert Hb Hb'; unfold zlen; cbn [length]; lia).
  pose proof (H 2 ltac:(lia)) as H2. injection H2 as <-. assert (i = 0 \/ i = 1 \/ i = 2) as [->| [->| ->]] by lia; try reflexivity.
  pose proof (H 1 ltac:(lia)) as H1. injection H1 as <-. reflexivity.
Qed.
(** x = (x + 1) * x. *)
Definition poly (b : list Z) : ex1 Z := XBin Z Z Z mult (XScalR Z Z Z plus (itself b) 1) (itself b).
Example C90_case_elementwise : written1 Z Z poly /\ elementwise (poly [1; 2; 3]) /\ fits1 (poly [1; 2; 3]) /\ agree1 (poly [1; 2; 3]) /\ den1 (poly [1; 2; 3]) = map Ok [2; 6; 12] /\
  self_assign c_off poly (mkarr [1; 2; 3] 3) = MOk (mkarr [2; 6; 12] 3) /\
  self_update c_off mult (fun b => XScalR Z Z Z plus (itself b) 1) (mkarr [1; 2; 3] 3) = MOk (mkarr [2; 6; 12] 3).
Proof.
  split; [apply (W_bin Z Z Z mult (fun b => XScalR Z Z Z plus (itself b) 1) itself); [apply (W_scalr Z Z Z plus itself 1), W_self|apply W_self]|].
  repeat split; vm_compute; congruence.
Qed.
Example C90_case_matvec : cfg_ok c_dbg /\ rep2 swap2 [[0; 1]; [1; 0]] /\ (forall u v, plus u v = Ok (u + v)) /\ (forall u v, mult u v = Ok (u * v)) /\
  fold_left Z.add (map (fun p => fst p * snd p) (combine [1; 0] (half [7; 7] [5; 7] 1))) 0 = 7.
Proof. split; [exact dbg_ok|]. split; [exact swap2_ok|]. repeat split. Qed.
