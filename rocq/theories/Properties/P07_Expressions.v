(** Properties C37-C42 (expressions, equality) and the expression part of C30. *)
From Coq Require Import Field_theory QArith Qcanon ZArith Lia.
From Verif Require Import Base.Outcome Base.ZList Model.IntModel Model.Index Model.Slice Model.Array1D Model.Array2D Model.View2D Model.Expr.
From Verif Require Import Spec.IntSpec Spec.ArraySpec Spec.SliceSpec Spec.MatrixSpec Spec.Matrix2Spec Spec.View2DSpec Spec.ExprSpec Spec.Configs.
From Verif Require Import Proofs.ExprProofs Proofs.ExprThms Proofs.ExprTree Proofs.ExprEval Proofs.ExprMore Proofs.Linspace.
Local Open Scope Z_scope.

(** ** C37 *)
(** The running example: 100 / (A - B(reversed)) + A, over int. *)
Definition lA := src_of_list [1; 2; 3; 4].
Definition lB := src_of_list [40; 5; 20; 0].
Definition exA (c : cfg) : ex1 Z :=
  XBin _ _ _ (iadd I32) (XScalL _ _ _ (idiv c I32) 100 (XBin _ _ _ (isub I32) (XLeaf _ lA) (XView1 _ (XLeaf _ lB) (VwSlice Reverse)))) (XLeaf _ lA).
(** A matrix tree: transpose of (1 2 3 / 4 5 6) times 10 beside a tensor product. *)
Definition l23 : src2 Z := mksrc2 2 3 6 (fun i j => Ok (i * 3 + j + 1)) (fun k => Ok (k + 1)).
Definition exM : ex2 Z :=
  YMergeH _ (YScalR _ _ _ (imul I32) (YTranspose _ (YLeaf _ l23)) 10) (YTensor _ _ _ (imul I32) (XLeaf _ (src_of_list [1; 2; 3])) (XLeaf _ (src_of_list [7; 8]))).

(** A tree of any depth denotes the list of its elements, under the checks of the library; a violated check anywhere inside is reported when the tree is built. *)
Theorem C37_tree : forall (c : cfg) V (e : ex1 V),
  fits1 e -> (agree1 e -> exists A, build1 c e = Ok A /\ yields A (den1 e)) /\ (~ agree1 e -> checked c = true -> build1 c e = Fail (report c)).
Proof. exact @tree1. Qed.
Print Assumptions C37_tree.

(** The same for two-dimensional trees, under both kinds of access. *)
Theorem C37_tree2 : forall (c : cfg) V (e : ex2 V),
  fits2 e -> (agree2 e -> exists A, build2 c e = Ok A /\ yields2 A (den2 e)) /\ (~ agree2 e -> checked c = true -> build2 c e = Fail (report c)).
Proof. exact @tree2. Qed.
Print Assumptions C37_tree2.

(** Trees of element-wise operators, scalars and arrays of one size n: element i is the operator tree applied to the i-th elements. *)
Theorem C37_pointwise : forall (c : cfg) V (e : ex1 V) n,
  elementwise e -> leaves_size n e -> 0 <= n <= LONG_MAX ->
  exists A, build1 c e = Ok A /\ ssize A = n /\ forall i, 0 <= i < n -> sun A i = value_at i e.
Proof. exact @pointwise. Qed.
Print Assumptions C37_pointwise.

(** If the leaves of such a tree do not have one common size, building it is reported. *)
Theorem C37_mismatch : forall (c : cfg) V (e : ex1 V),
  leaves_ok e -> ~ (exists n, leaves_size n e) -> checked c = true -> build1 c e = Fail (report c).
Proof. exact @pointwise_mismatch. Qed.
Print Assumptions C37_mismatch.

(** Two-dimensional element-wise trees. *)
Theorem C37_pointwise2 : forall (c : cfg) V (e : ex2 V) m n,
  elementwise2 e -> leaves_size2 m n e -> (m = 0 <-> n = 0) -> 0 <= m <= LONG_MAX -> 0 <= n <= LONG_MAX -> m * n <= LONG_MAX ->
  exists A, build2 c e = Ok A /\ yields2 A (mkmx m n (fun i j => value_at2 i j e)).
Proof. exact @pointwise2. Qed.
Print Assumptions C37_pointwise2.

(** eval() and Array1D(e) compute the elements in order; the first one that fails decides. *)
Theorem C37_eval : forall (c : cfg) V (zero : V) (e : ex1 V),
  fits1 e -> agree1 e -> zlen (den1 e) <= amax c ->
  let r := match seqo (den1 e) with Ok vs => Ok (mkarr vs (zlen vs)) | Fail f => Fail f | UB => UB end in
  (A <- build1 c e ;; x_eval1 c zero A) = r /\ (A <- build1 c e ;; arr_of_src zero c A) = r.
Proof. exact @tree_eval. Qed.
Print Assumptions C37_eval.

(** eval() and Array2D(e) compute the elements row by row. *)
Theorem C37_eval2 : forall (c : cfg) V (zero : V) (e : ex2 V),
  fits2 e -> agree2 e -> plump (den2 e) -> mr (den2 e) * mc (den2 e) <= amax c ->
  let r := match seqo (mlist (den2 e)) with Ok vs => Ok (mkarr2 (mr (den2 e)) (mc (den2 e)) (mkarr vs (zlen vs))) | Fail f => Fail f | UB => UB end in
  (A <- build2 c e ;; x_eval2 c zero A) = r /\ (A <- build2 c e ;; arr2_of_src zero c A) = r.
Proof. exact @tree_eval2. Qed.
Print Assumptions C37_eval2.

(** The outcome of computing the elements of a list in order. *)
Theorem C37_first_failure : forall (V : Type) (l : list (outcome V)),
  match seqo l with
  | Ok vs => l = map Ok vs
  | Fail f => exists vs r, l = map Ok vs ++ Fail f :: r
  | UB => exists vs r, l = map Ok vs ++ UB :: r
  end.
Proof. exact @seqo_spec. Qed.
Print Assumptions C37_first_failure.

(** An expression too large for memory is std::bad_alloc. *)
Theorem C37_too_big : forall (V : Type) (zero : V) (c : cfg) (A : src1 V) l,
  yields A l -> 0 <= amax c < zlen l -> x_eval1 c zero A = Fail BadAlloc /\ arr_of_src zero c A = Fail BadAlloc.
Proof. exact @too_big. Qed.
Print Assumptions C37_too_big.

(** A = e stores every element. *)
Theorem C37_assign : forall (c : cfg) V (A : src1 V) a old vs,
  yields A (map Ok vs) -> rep a old -> zlen old = zlen vs -> arr_assign c A a = MOk (mkarr vs (zlen vs)).
Proof. exact @assign_total. Qed.
Print Assumptions C37_assign.

(** A = e whose k-th element fails has already stored the elements before it. *)
Theorem C37_assign_failing : forall (c : cfg) V (A : src1 V) a old vs f r,
  yields A (map Ok vs ++ Fail f :: r) -> rep a old -> zlen old = zlen (map Ok vs ++ Fail f :: r) ->
  arr_assign c A a = MFail f (mkarr (vs ++ skipn (length vs) old) (zlen old)).
Proof. exact @assign_partial. Qed.
Print Assumptions C37_assign_failing.

(** A = e with a different size is reported and changes nothing. *)
Theorem C37_assign_mismatch : forall (V : Type) (c : cfg) (A : src1 V) l a old,
  yields A l -> rep a old -> zlen old <> zlen l -> checked c = true -> arr_assign c A a = MFail (report c) a.
Proof. exact (fun V c => @assign_mismatch V c). Qed.
Print Assumptions C37_assign_mismatch.

Example C37_case : fits1 (exA c_dbg) /\ agree1 (exA c_dbg) /\ zlen (den1 (exA c_dbg)) = 4 /\
  (A <- build1 c_dbg (exA c_dbg) ;; x_eval1 c_dbg 0 A) = Ok (mkarr [101; -3; -47; 2] 4) /\
  (A <- build1 c_dbg (XBin _ _ _ (iadd I32) (exA c_dbg) (XLeaf _ (src_of_list [1]))) ;; x_eval1 c_dbg 0 A) = Fail Throw /\
  (A <- build1 c_dbg (XScalL _ _ _ (idiv c_dbg I32) 8 (XLeaf _ lB)) ;; x_eval1 c_dbg 0 A) = Fail Throw /\
  (match build1 c_dbg (XScalL _ _ _ (idiv c_dbg I32) 8 (XLeaf _ lB)) with Ok A => arr_assign c_dbg A (mkarr [9; 9; 9; 9] 4) | _ => MUB end) = MFail Throw (mkarr [0; 1; 0; 9] 4).
Proof.
  split; [vm_compute; intuition congruence|]. split; [vm_compute; intuition congruence|]. split; [reflexivity|]. split; [vm_compute; reflexivity|]. split; [vm_compute; reflexivity|]. split; [vm_compute; reflexivity|].
  vm_compute. reflexivity.
Qed.
Example C37_pointwise_case : let e := XScalR _ _ _ (imul I64) (XBin _ _ _ (iadd I64) (XLeaf _ lA) (XUn _ _ (ineg I64) (XLeaf _ lB))) 3 in
  elementwise e /\ leaves_size 4 e /\ value_at 2 e = Ok (-51).
Proof. vm_compute. intuition congruence. Qed.
Example C37_case2 : agree2 exM /\ plump (den2 exM) /\
  (A <- build2 c_dbg exM ;; x_eval2 c_dbg 0 A) = Ok (mkarr2 3 4 (mkarr [10; 40; 7; 8; 20; 50; 14; 16; 30; 60; 21; 24] 12)).
Proof. split; [vm_compute; intuition congruence|]. split; [vm_compute; intuition congruence|]. vm_compute. reflexivity. Qed.
Example C37_fits2 : fits2 exM.
Proof.
  cbn [fits2 fits1 exM]. unfold yields2. repeat split; try (cbn; unfold LONG_MAX; lia); try (vm_compute; intuition congruence).
Qed.

(** ** C38 *)

(** merge of any number of arrays is concatenation. *)
Theorem C38_merge : forall (c : cfg) (V : Type),
  forall (Al : list (src1 V * list (outcome V))) A l, yields A l -> (forall B k, In (B, k) Al -> yields B k) -> zlen (concat (l :: map snd Al)) <= LONG_MAX ->
  exists R, x_merge_all c A (map fst Al) = Ok R /\ yields R (concat (l :: map snd Al)).
Proof. exact @merge_all_ok. Qed.
Print Assumptions C38_merge.

(** merge(A, x, y, ...) appends the values in order. *)
Theorem C38_merge_back : forall (c : cfg) (V : Type) (xs : list V),
  forall A l, yields A l -> zlen l + zlen xs <= LONG_MAX -> exists R, x_merge_backs c A xs = Ok R /\ yields R (l ++ map Ok xs).
Proof. exact @merge_backs_ok. Qed.
Print Assumptions C38_merge_back.

(** merge(x, y, ..., A) puts the values in front in order. *)
Theorem C38_merge_front : forall (c : cfg) (V : Type) (xs : list V) A l,
  yields A l -> zlen l + zlen xs <= LONG_MAX -> exists R, x_merge_fronts c xs A = Ok R /\ yields R (map Ok xs ++ l).
Proof. exact @merge_fronts_ok. Qed.
Print Assumptions C38_merge_front.

(** exclude(A, pos, count) deletes the range. *)
Theorem C38_exclude : forall (c : cfg) (V : Type) (A : src1 V) l pos count,
  yields A l -> 0 < count -> 0 <= pos -> pos + count <= zlen l ->
  exists R, x_exclude c A pos count = Ok R /\ yields R (firstn (Z.to_nat pos) l ++ skipn (Z.to_nat (pos + count)) l).
Proof. exact @exclude_ok. Qed.
Print Assumptions C38_exclude.

(** Any other range is reported (as long as pos + count is representable). *)
Theorem C38_exclude_bad : forall (c : cfg) (V : Type) (A : src1 V) l pos count,
  yields A l -> is_long pos -> is_long count -> pos + count <= LONG_MAX ->
  ~ (0 < count /\ 0 <= pos /\ pos + count <= zlen l) -> checked c = true -> x_exclude c A pos count = Fail (report c).
Proof. exact @exclude_bad. Qed.
Print Assumptions C38_exclude_bad.

(** merge_horizontal of two matrices. *)
Theorem C38_side : forall (c : cfg) (V : Type) (A B : src2 V) M N,
  yields2 A M -> yields2 B N -> plump M -> plump N ->
  Z.max (mr M) (mr N) * (mc M + mc N) <= LONG_MAX -> (nonempty M -> nonempty N -> mr M = mr N) ->
  exists R, x_mergeh c A B = Ok R /\ yields2 R (hjoin M N).
Proof. exact @mergeh_ok. Qed.
Print Assumptions C38_side.

(** Different numbers of rows are reported. *)
Theorem C38_side_bad : forall (c : cfg) (V : Type) (A B : src2 V) M N,
  yields2 A M -> yields2 B N -> nonempty M -> nonempty N -> mr M <> mr N -> checked c = true -> x_mergeh c A B = Fail (report c).
Proof. exact @mergeh_bad. Qed.
Print Assumptions C38_side_bad.

(** merge_vertical of two matrices. *)
Theorem C38_above : forall (c : cfg) (V : Type) (A B : src2 V) M N,
  yields2 A M -> yields2 B N -> plump M -> plump N ->
  (mr M + mr N) * Z.max (mc M) (mc N) <= LONG_MAX -> (nonempty M -> nonempty N -> mc M = mc N) ->
  exists R, x_mergev c A B = Ok R /\ yields2 R (vjoin M N).
Proof. exact @mergev_ok. Qed.
Print Assumptions C38_above.

(** Different numbers of columns are reported. *)
Theorem C38_above_bad : forall (c : cfg) (V : Type) (A B : src2 V) M N,
  yields2 A M -> yields2 B N -> nonempty M -> nonempty N -> mc M <> mc N -> checked c = true -> x_mergev c A B = Fail (report c).
Proof. exact @mergev_bad. Qed.
Print Assumptions C38_above_bad.

(** An empty matrix is neutral, on either side. *)
Theorem C38_neutral : forall (c : cfg) (V : Type) (A B : src2 V) M N,
  yields2 A M -> yields2 B N -> plump M -> mr N = 0 -> mc N = 0 ->
  (exists R, x_mergeh c A B = Ok R /\ yields2 R M) /\ (exists R, x_mergeh c B A = Ok R /\ yields2 R M) /\
  (exists R, x_mergev c A B = Ok R /\ yields2 R M) /\ (exists R, x_mergev c B A = Ok R /\ yields2 R M).
Proof. exact @mergeh_empty. Qed.
Print Assumptions C38_neutral.

(** Any number of matrices side by side: row i is the concatenation of the i-th rows. *)
Theorem C38_side_all : forall (c : cfg) (V : Type) m,
  0 < m -> forall (Al : list (src2 V * mx V)) A M, yields2 A M -> mr M = m -> 0 < mc M -> (forall B N, In (B, N) Al -> yields2 B N /\ mr N = m /\ 0 < mc N) ->
  m * fold_right Z.add 0 (map mc (M :: map snd Al)) <= LONG_MAX ->
  exists R N, x_mergeh_all c A (map fst Al) = Ok R /\ yields2 R N /\ mr N = m /\ mc N = fold_right Z.add 0 (map mc (M :: map snd Al)) /\ 0 < mc N /\
    forall i, 0 <= i < m -> mrow N i = concat (map (fun K => mrow K i) (M :: map snd Al)).
Proof. exact @mergeh_all_ok. Qed.
Print Assumptions C38_side_all.

(** Any number of matrices one above the other: column j is the concatenation of the j-th columns. *)
Theorem C38_above_all : forall (c : cfg) (V : Type) n,
  0 < n -> forall (Al : list (src2 V * mx V)) A M, yields2 A M -> mc M = n -> 0 < mr M -> (forall B N, In (B, N) Al -> yields2 B N /\ mc N = n /\ 0 < mr N) ->
  fold_right Z.add 0 (map mr (M :: map snd Al)) * n <= LONG_MAX ->
  exists R N, x_mergev_all c A (map fst Al) = Ok R /\ yields2 R N /\ mc N = n /\ mr N = fold_right Z.add 0 (map mr (M :: map snd Al)) /\ 0 < mr N /\
    forall j, 0 <= j < n -> mcol N j = concat (map (fun K => mcol K j) (M :: map snd Al)).
Proof. exact @mergev_all_ok. Qed.
Print Assumptions C38_above_all.

Example C38_case : (A <- x_merge_all c_dbg lA [lB; src_of_list []; lA] ;; x_eval1 c_dbg 0 A) = Ok (mkarr [1; 2; 3; 4; 40; 5; 20; 0; 1; 2; 3; 4] 12) /\
  (A <- x_exclude c_dbg lA 1 2 ;; x_eval1 c_dbg 0 A) = Ok (mkarr [1; 4] 2) /\ (A <- x_exclude c_dbg lA 3 2 ;; x_eval1 c_dbg 0 A) = Fail Throw /\
  (A <- x_merge_backs c_dbg lA [7; 8] ;; x_eval1 c_dbg 0 A) = Ok (mkarr [1; 2; 3; 4; 7; 8] 6) /\ (A <- x_merge_fronts c_dbg [7; 8] lA ;; x_eval1 c_dbg 0 A) = Ok (mkarr [7; 8; 1; 2; 3; 4] 6) /\
  (A <- x_mergev_all c_dbg l23 [l23; l23] ;; x_eval2 c_dbg 0 A) = Ok (mkarr2 6 3 (mkarr [1; 2; 3; 4; 5; 6; 1; 2; 3; 4; 5; 6; 1; 2; 3; 4; 5; 6] 18)) /\
  (A <- x_mergeh_all c_dbg l23 [l23; l23] ;; x_eval2 c_dbg 0 A) = Ok (mkarr2 2 9 (mkarr [1; 2; 3; 1; 2; 3; 1; 2; 3; 4; 5; 6; 4; 5; 6; 4; 5; 6] 18)) /\
  (T <- x_transpose c_dbg l23 ;; x_mergeh c_dbg l23 T) = Fail Throw.
Proof. repeat split; vm_compute; reflexivity. Qed.
Example C38_hypotheses : yields lA (map Ok [1; 2; 3; 4]) /\ yields2 l23 (mkmx 2 3 (fun i j => Ok (i * 3 + j + 1))).
Proof.
  split; [apply yields_list; vm_compute; discriminate|]. unfold yields2. cbn [l23 s2rows s2cols s2size s2un s2lin mr mc mel]. repeat split; try (unfold LONG_MAX; lia). 
Qed.

(** ** C30, expressions *)

(** exclude(A, last - k) deletes the final element, whatever k is. *)
Theorem C30_exclude_last : forall (c : cfg) (V : Type) (A : src1 V) l k,
  yields A l -> 0 < zlen l -> exists R, x_exclude_last c A k = Ok R /\ yields R (removelast l).
Proof. exact @exclude_last_ok. Qed.
Print Assumptions C30_exclude_last.

(** On an empty array it is reported. *)
Theorem C30_exclude_last_bad : forall (c : cfg) (V : Type) (A : src1 V) l k,
  yields A l -> ~ 0 < zlen l -> checked c = true -> x_exclude_last c A k = Fail (report c).
Proof. exact @exclude_last_bad. Qed.
Print Assumptions C30_exclude_last_bad.

(** It does not follow the convention for last: exclude(A, last - 1) is not exclude(A, n - 2). *)
Theorem C30_exclude_refuted : exists c (A : src1 Z) k a1 a2, 0 <= k < ssize A /\
  (R <- x_exclude_last c A k ;; x_eval1 c 0 R) = Ok a1 /\ (R <- x_exclude c A (ssize A - 1 - k) 1 ;; x_eval1 c 0 R) = Ok a2 /\ a1 <> a2.
Proof. exists c_dbg, lA, 1, (mkarr [1; 2; 3] 3), (mkarr [1; 2; 4] 3). vm_compute. repeat split; discriminate. Qed.
Print Assumptions C30_exclude_refuted.

(** ** C39 *)

(** transpose(A) is cols x rows with element (i, j) equal to A(j, i), under both kinds of access. *)
Theorem C39_transpose : forall (c : cfg) (V : Type) (A : src2 V) M,
  yields2 A M -> exists R, x_transpose c A = Ok R /\ yields2 R (mkmx (mc M) (mr M) (fun i j => mel M j i)).
Proof. exact @transpose_ok. Qed.
Print Assumptions C39_transpose.

(** Transposing twice gives the same matrix. *)
Theorem C39_involution : forall (c : cfg) (V : Type) (A : src2 V) M,
  yields2 A M -> exists T R, x_transpose c A = Ok T /\ x_transpose c T = Ok R /\
  yields2 T (mkmx (mc M) (mr M) (fun i j => mel M j i)) /\ yields2 R M.
Proof. exact @transpose_twice. Qed.
Print Assumptions C39_involution.

Example C39_case : (T <- x_transpose c_dbg l23 ;; x_eval2 c_dbg 0 T) = Ok (mkarr2 3 2 (mkarr [1; 4; 2; 5; 3; 6] 6)) /\
  (T <- x_transpose c_dbg l23 ;; R <- x_transpose c_dbg T ;; x_eval2 c_dbg 0 R) = Ok (mkarr2 2 3 (mkarr [1; 2; 3; 4; 5; 6] 6)).
Proof. split; vm_compute; reflexivity. Qed.

(** ** C40 *)

(** irange(n) is 0, 1, ..., n - 1. *)
Theorem C40_irange : forall (c : cfg) n,
  0 <= n <= LONG_MAX -> exists R, x_irange c n = Ok R /\ yields R (map Ok (zseq 0 (Z.to_nat n))).
Proof. exact @irange_ok. Qed.
Print Assumptions C40_irange.

(** The _m1 variants stop one earlier. *)
Theorem C40_irange_m1 : forall (c : cfg) n,
  1 <= n <= LONG_MAX -> exists R, x_irange_m1 c n = Ok R /\ yields R (map Ok (zseq 0 (Z.to_nat (n - 1)))).
Proof. exact @irange_m1_ok. Qed.
Print Assumptions C40_irange_m1.

(** ... and are reported for an empty array. *)
Theorem C40_irange_m1_empty : forall (c : cfg),
  checked c = true -> x_irange_m1 c 0 = Fail (report c).
Proof. exact @irange_m1_bad. Qed.
Print Assumptions C40_irange_m1_empty.

(** irange2D numbers the elements row by row. *)
Theorem C40_irange2 : forall (c : cfg) m n,
  0 <= m <= LONG_MAX -> 0 <= n <= LONG_MAX -> m * n <= LONG_MAX ->
  exists R, x_irange2 c m n = Ok R /\ yields2 R (mkmx m n (fun i j => Ok (i * n + j))).
Proof. exact @irange2_ok. Qed.
Print Assumptions C40_irange2.

(** sequence(n, a, d) of a signed type: element i is a + i * d, undefined exactly when d * i or the sum overflows. *)
Theorem C40_sequence : forall (c : cfg) t n a d,
  signed t = true -> 0 <= n <= LONG_MAX ->
  exists R, x_seq_int c t n a d = Ok R /\ ssize R = n /\
    forall i, 0 <= i < n -> fits (signed t) (bits t) i ->
      (fits (signed t) (bits t) (d * i) -> fits (signed t) (bits t) (a + i * d) -> sun R i = Ok (a + i * d)) /\
      (~ (fits (signed t) (bits t) (d * i) /\ fits (signed t) (bits t) (a + i * d)) -> sun R i = UB).
Proof. exact @seq_int_signed. Qed.
Print Assumptions C40_sequence.

(** Of an unsigned type: reduced modulo 2^bits. *)
Theorem C40_sequence_unsigned : forall (c : cfg) t n a d,
  signed t = false -> 0 <= n <= LONG_MAX ->
  exists R, x_seq_int c t n a d = Ok R /\ ssize R = n /\ forall i, 0 <= i < n -> sun R i = Ok ((a + i * d) mod 2 ^ bits t).
Proof. exact @seq_int_unsigned. Qed.
Print Assumptions C40_sequence_unsigned.

(** A negative size is reported. *)
Theorem C40_sequence_bad : forall (c : cfg) (V : Type) (add mul : V -> V -> outcome V) cast n a d,
  n < 0 -> checked c = true -> x_seq c add mul cast n a d = Fail (report c).
Proof. exact @seq_bad. Qed.
Print Assumptions C40_sequence_bad.

(** e_unit is the unit vector. *)
Theorem C40_e_unit : forall (c : cfg) (V : Type) (one zero : V) u n,
  0 <= u < n -> n <= LONG_MAX ->
  exists R, x_e_unit c one zero u n = Ok R /\ yields R (map (fun i => Ok (if i =? u then one else zero)) (zseq 0 (Z.to_nat n))).
Proof. exact @e_unit_ok. Qed.
Print Assumptions C40_e_unit.

(** A position outside is reported. *)
Theorem C40_e_unit_bad : forall (c : cfg) (V : Type) (one zero : V) u n,
  ~ 0 <= u < n -> checked c = true -> x_e_unit c one zero u n = Fail (report c).
Proof. exact @e_unit_bad. Qed.
Print Assumptions C40_e_unit_bad.

(** identity is the Kronecker delta. *)
Theorem C40_identity : forall (c : cfg) (V : Type) (one zero : V) n,
  0 <= n <= LONG_MAX -> n * n <= LONG_MAX ->
  exists R, x_identity c one zero n = Ok R /\ yields2 R (mkmx n n (fun i j => Ok (if i =? j then one else zero))).
Proof. exact @identity_ok. Qed.
Print Assumptions C40_identity.

(** A negative size is reported. *)
Theorem C40_identity_bad : forall (c : cfg) (V : Type) (one zero : V) n,
  n < 0 -> checked c = true -> x_identity c one zero n = Fail (report c).
Proof. exact @identity_bad. Qed.
Print Assumptions C40_identity_bad.

(** const1D *)
Theorem C40_const1 : forall (c : cfg) (V : Type) (x : V) n,
  0 <= n <= LONG_MAX -> exists R, x_const1 c n x = Ok R /\ yields R (repeat (Ok x) (Z.to_nat n)).
Proof. exact @const1_ok. Qed.
Print Assumptions C40_const1.

(** A negative size is reported. *)
Theorem C40_const1_bad : forall (c : cfg) (V : Type) (x : V) n,
  n < 0 -> checked c = true -> x_const1 c n x = Fail (report c).
Proof. exact @const1_bad. Qed.
Print Assumptions C40_const1_bad.

(** const2D *)
Theorem C40_const2 : forall (c : cfg) (V : Type) (x : V) m n,
  0 <= m -> 0 <= n -> (m = 0 <-> n = 0) -> m <= LONG_MAX -> n <= LONG_MAX -> m * n <= LONG_MAX ->
  exists R, x_const2 c m n x = Ok R /\ yields2 R (mkmx m n (fun _ _ => Ok x)).
Proof. exact @const2_ok. Qed.
Print Assumptions C40_const2.

(** Negative sizes, and "some rows but no columns" or the reverse, are reported. *)
Theorem C40_const2_bad : forall (c : cfg) (V : Type) (x : V) m n,
  ~ (0 <= m /\ 0 <= n /\ (m = 0 <-> n = 0)) -> checked c = true -> x_const2 c m n x = Fail (report c).
Proof. exact @const2_bad. Qed.
Print Assumptions C40_const2_bad.

(** linspace over a field: starts at a, ends at b, equal spacing. *)
Theorem C40_linspace : forall (F : Type) (z o : F) (fadd fmul fsub : F -> F -> F) (fopp : F -> F) (fdiv : F -> F -> F) (finv : F -> F) (FT : field_theory z o fadd fmul fsub fopp fdiv finv (@eq F)) (cast : Z -> F) c n a b,
  2 <= n <= LONG_MAX -> cast 0 = z -> (forall i, 0 <= i -> cast (i + 1) = fadd (cast i) o) -> cast (n - 1) <> z ->
  exists R, x_linspace c (fun x y => Ok (fadd x y)) (fun x y => Ok (fsub x y)) (fun x y => Ok (fmul x y)) (fun x y => Ok (fdiv x y)) (fun i => Ok (cast i)) n a b = Ok R /\ ssize R = n /\ sun R 0 = Ok a /\ sun R (n - 1) = Ok b /\
    exists x : Z -> F, exists h : F, (forall i, 0 <= i < n -> sun R i = Ok (x i)) /\ forall i, 0 <= i -> i + 1 < n -> x (i + 1) = fadd (x i) h.
Proof. exact linspace_ok. Qed.
Print Assumptions C40_linspace.
Example C40_linspace_case : let cast := fun i => Q2Qc (inject_Z i) in
  (cast 0 = 0%Qc) /\ (forall i, 0 <= i -> cast (i + 1) = (cast i + 1)%Qc) /\ (forall n, 2 <= n -> cast (n - 1) <> 0%Qc) /\ field_theory 0%Qc 1%Qc Qcplus Qcmult Qcminus Qcopp Qcdiv Qcinv (@eq Qc).
Proof. cbv zeta. split; [exact Qc_cast_0|]. split; [intros; apply Qc_cast_S|]. split; [intros; apply Qc_cast_nonzero; lia|]. exact Qcft. Qed.
(** No points, or fewer: reported. *)
Theorem C40_linspace_bad : forall (F : Type) (fadd fmul fsub fdiv : F -> F -> F) (cast : Z -> F) c n a b, n <= 0 -> checked c = true ->
  x_linspace c (fun x y => Ok (fadd x y)) (fun x y => Ok (fsub x y)) (fun x y => Ok (fmul x y)) (fun x y => Ok (fdiv x y)) (fun i => Ok (cast i)) n a b = Fail (report c).
Proof. exact (fun F fadd fmul fsub fdiv cast => linspace_bad F fadd fmul fsub fdiv cast). Qed.
Print Assumptions C40_linspace_bad.
Example C40_case : (A <- x_seq_int c_dbg I32 4 10 (-3) ;; x_eval1 c_dbg 0 A) = Ok (mkarr [10; 7; 4; 1] 4) /\
  (A <- x_seq_int c_dbg U32 3 1 4294967295 ;; x_eval1 c_dbg 0 A) = Ok (mkarr [1; 0; 4294967295] 3) /\
  (A <- x_seq_int c_dbg I32 3 2147483646 1 ;; x_eval1 c_dbg 0 A) = UB /\
  (A <- x_e_unit c_dbg 1 0 2 4 ;; x_eval1 c_dbg 0 A) = Ok (mkarr [0; 0; 1; 0] 4) /\ (A <- x_e_unit c_dbg 1 0 4 4 ;; x_eval1 c_dbg 0 A) = Fail Throw /\
  (A <- x_identity c_dbg 1 0 2 ;; x_eval2 c_dbg 0 A) = Ok (mkarr2 2 2 (mkarr [1; 0; 0; 1] 4)).
Proof. repeat split; vm_compute; reflexivity. Qed.

(** ** C41 *)

(** row_broadcast (r = true) repeats the vector as rows, col_broadcast as columns; the result is square. *)
Theorem C41_broadcast : forall (c : cfg) (V : Type) r (A : src1 V) l,
  yields A l -> zlen l * zlen l <= LONG_MAX ->
  exists R, x_broadcast c r A = Ok R /\ yields2 R (mkmx (zlen l) (zlen l) (fun i j => elt l (if r then j else i))).
Proof. exact @broadcast_ok. Qed.
Print Assumptions C41_broadcast.

(** tensor_prod is the outer product. *)
Theorem C41_tensor : forall (c : cfg) (U V W : Type) (mul : U -> V -> outcome W) A B l k,
  yields A l -> yields B k -> zlen l * zlen k <= LONG_MAX ->
  exists R, x_tensor c mul A B = Ok R /\ yields2 R (mkmx (zlen l) (zlen k) (fun i j => both mul (elt l i) (elt k j))).
Proof. exact @tensor_ok. Qed.
Print Assumptions C41_tensor.

(** row_reduce applies the function to each row. *)
Theorem C41_row_reduce : forall (c : cfg) (V W : Type) (op : src1 V -> outcome W) opl A M,
  yields2 A M -> plump M -> (forall r l, yields r l -> op r = opl l) ->
  yields (x_row_reduce c op A) (map (fun i => opl (mrow M i)) (zseq 0 (Z.to_nat (mr M)))).
Proof. exact @row_reduce_ok. Qed.
Print Assumptions C41_row_reduce.

(** col_reduce applies the function to each column. *)
Theorem C41_col_reduce : forall (c : cfg) (V W : Type) (op : src1 V -> outcome W) opl A M,
  yields2 A M -> plump M -> (forall r l, yields r l -> op r = opl l) ->
  yields (x_col_reduce c op A) (map (fun j => opl (mcol M j)) (zseq 0 (Z.to_nat (mc M)))).
Proof. exact @col_reduce_ok. Qed.
Print Assumptions C41_col_reduce.

(** matvec_prod: element i is the dot product of row i with x, added from the left. *)
Theorem C41_matvec : forall (c : cfg) (U V W : Type) (z : W) add (mul : U -> V -> outcome W) A x M l,
  yields2 A M -> plump M -> yields x l -> mc M = zlen l ->
  exists R, x_matvec c z add mul A x = Ok R /\ yields R (map (fun i => dotl z add mul (mrow M i) l) (zseq 0 (Z.to_nat (mr M)))).
Proof. exact @matvec_ok. Qed.
Print Assumptions C41_matvec.

(** A vector of another size is reported. *)
Theorem C41_matvec_bad : forall (c : cfg) (U V W : Type) (z : W) add (mul : U -> V -> outcome W) A x M l,
  yields2 A M -> yields x l -> mc M <> zlen l -> checked c = true -> x_matvec c z add mul A x = Fail (report c).
Proof. exact @matvec_bad. Qed.
Print Assumptions C41_matvec_bad.

Example C41_case : (A <- x_matvec c_dbg 0 (iadd I32) (imul I32) l23 (src_of_list [1; 10; 100]) ;; x_eval1 c_dbg 0 A) = Ok (mkarr [321; 654] 2) /\
  (A <- x_matvec c_dbg 0 (iadd I32) (imul I32) l23 (src_of_list [1; 10]) ;; x_eval1 c_dbg 0 A) = Fail Throw /\
  (A <- x_broadcast c_dbg true (src_of_list [1; 2]) ;; x_eval2 c_dbg 0 A) = Ok (mkarr2 2 2 (mkarr [1; 2; 1; 2] 4)) /\
  (A <- x_broadcast c_dbg false (src_of_list [1; 2]) ;; x_eval2 c_dbg 0 A) = Ok (mkarr2 2 2 (mkarr [1; 1; 2; 2] 4)) /\
  x_eval1 c_dbg 0 (x_col_reduce c_dbg (fun r => x_dot c_dbg 0 (iadd I32) (imul I32) r r) l23) = Ok (mkarr [17; 29; 45] 3) /\
  (forall r l, yields r l -> x_dot c_dbg 0 (iadd I32) (imul I32) r r = dotl 0 (iadd I32) (imul I32) l l).
Proof. do 5 (split; [vm_compute; reflexivity|]). intros r l H. now apply dot_ok. Qed.

(** ** C42: the comparison of elements is a parameter; the library computes its negation, a != b. *)

(** A == B exactly when the sizes agree and all elements compare equal; A != B is the opposite. *)
Theorem C42_equal : forall (U V : Type) (eqb : U -> V -> bool) (A : src1 U) (B : src1 V) l k,
  yields A (map Ok l) -> yields B (map Ok k) ->
  exists b, x_eq1 (neqo eqb) A B = Ok b /\ x_neq1 (neqo eqb) A B = Ok (negb b) /\ (b = true <-> zlen l = zlen k /\ forall i u v, znth l i = Some u -> znth k i = Some v -> eqb u v = true).
Proof. exact (fun U V eqb => @eq1_ok U V eqb). Qed.
Print Assumptions C42_equal.

(** Two dimensions: both shapes must agree, not only the sizes. *)
Theorem C42_equal2 : forall (U V : Type) (eqb : U -> V -> bool) (A : src2 U) (B : src2 V) m n m' n' f g,
  yields2 A (mkmx m n (fun i j => Ok (f i j))) -> yields2 B (mkmx m' n' (fun i j => Ok (g i j))) ->
  exists b, x_eq2 (neqo eqb) A B = Ok b /\ x_neq2 (neqo eqb) A B = Ok (negb b) /\ (b = true <-> m = m' /\ n = n' /\ forall i j, 0 <= i < m -> 0 <= j < n -> eqb (f i j) (g i j) = true).
Proof. exact (fun U V eqb => @eq2_ok U V eqb). Qed.
Print Assumptions C42_equal2.

(** Reflexive when the elements are; false on an array with an element that is not equal to itself. *)
Theorem C42_reflexive : forall (V : Type) (eqb : V -> V -> bool) A l,
  yields A (map Ok l) ->
  ((forall x, In x l -> eqb x x = true) -> x_eq1 (neqo eqb) A A = Ok true) /\ (forall x, In x l -> eqb x x = false -> x_eq1 (neqo eqb) A A = Ok false /\ x_neq1 (neqo eqb) A A = Ok true).
Proof. exact @eq1_refl. Qed.
Print Assumptions C42_reflexive.

(** Symmetric when the comparison of elements is. *)
Theorem C42_symmetric : forall (U V : Type) (eqb : U -> V -> bool) (eqb' : V -> U -> bool) A B l k,
  (forall u v, eqb u v = eqb' v u) -> yields A (map Ok l) -> yields B (map Ok k) -> x_eq1 (neqo eqb) A B = x_eq1 (neqo eqb') B A.
Proof. exact @eq1_sym. Qed.
Print Assumptions C42_symmetric.

(** Transitive when the comparison of elements is. *)
Theorem C42_transitive : forall (V : Type) (eqb : V -> V -> bool) A B C l k r,
  (forall x y z, eqb x y = true -> eqb y z = true -> eqb x z = true) -> yields A (map Ok l) -> yields B (map Ok k) -> yields C (map Ok r) ->
  x_eq1 (neqo eqb) A B = Ok true -> x_eq1 (neqo eqb) B C = Ok true -> x_eq1 (neqo eqb) A C = Ok true.
Proof. exact @eq1_trans. Qed.
Print Assumptions C42_transitive.

(** When the comparison decides equality of values, so does A == B. *)
Theorem C42_identity : forall (V : Type) (eqb : V -> V -> bool) A B l k,
  (forall x y, eqb x y = true <-> x = y) -> yields A (map Ok l) -> yields B (map Ok k) -> (x_eq1 (neqo eqb) A B = Ok true <-> l = k).
Proof. exact @eq1_leibniz. Qed.
Print Assumptions C42_identity.

Example C42_case : x_eq1 (neqo Z.eqb) lA lA = Ok true /\ x_eq1 (neqo Z.eqb) lA lB = Ok false /\ x_eq1 (neqo Z.eqb) lA (src_of_list [1; 2; 3]) = Ok false /\
  x_eq2 (neqo Z.eqb) l23 l23 = Ok true /\ (T <- x_transpose c_dbg l23 ;; x_eq2 (neqo Z.eqb) l23 T) = Ok false.
Proof. repeat split; vm_compute; reflexivity. Qed.
