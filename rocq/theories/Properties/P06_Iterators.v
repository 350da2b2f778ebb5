(** Properties C35 and C36: iterators. *)
From Verif Require Import Base.Outcome Base.ZList Model.Index Model.View2D Model.Iterator.
From Verif Require Import Spec.ArraySpec Spec.View2DSpec Spec.IteratorSpec Spec.Configs Proofs.IteratorProofs.

(** Two arrays, at addresses 0 and 1. *)
Definition two_arrays : env Z := fun p => if p =? 0 then flag_list [10; 20; 30; 40] else flag_list [5].
Example two_arrays_show : shows (two_arrays 0) [10; 20; 30; 40].
Proof. apply list_shows. vm_compute. discriminate. Qed.

(** ** C35 *)

(** Whatever way an iterator is obtained from begin and end by moving it, it is at the position that arithmetic gives. *)
Theorem C35_expression : forall (c : cfg) (R : Type) (E : env R) p l e,
  shows (E p) l -> ifits (zlen l) e -> it_eval c E p e = Ok (mkit (Some p) (ipos (zlen l) e)).
Proof. exact (fun c R => @expression_thm c R). Qed.
Print Assumptions C35_expression.

(** Dereferencing gives the element at the position; a position outside is reported. *)
Theorem C35_deref : forall (c : cfg) (R : Type) (E : env R) p l k,
  shows (E p) l ->
  (forall v, znth l k = Some v -> it_deref c E (mkit (Some p) k) = Ok v) /\
  (~ 0 <= k < zlen l -> checked c = true -> it_deref c E (mkit (Some p) k) = Fail (report c)).
Proof. exact (fun c R => @deref_thm c R). Qed.
Print Assumptions C35_deref.

(** it[k] is the element k places further. *)
Theorem C35_subscript : forall (c : cfg) (R : Type) (E : env R) p l i k,
  shows (E p) l -> is_long (i + k) ->
  (forall v, znth l (i + k) = Some v -> it_sub c E (mkit (Some p) i) k = Ok v) /\
  (~ 0 <= i + k < zlen l -> checked c = true -> it_sub c E (mkit (Some p) i) k = Fail (report c)).
Proof. exact (fun c R => @subscript_thm c R). Qed.
Print Assumptions C35_subscript.

Example C35_case : ifits 4 (IMinus (IPostDec (IInc (IPlusL 3 IEnd))) 6) /\ it_eval c_dbg two_arrays 0 (IMinus (IPostDec (IInc (IPlusL 3 IEnd))) 6) = Ok (mkit (Some 0) 1) /\
  it_deref c_dbg two_arrays (mkit (Some 0) 1) = Ok 20 /\ it_sub c_dbg two_arrays (mkit (Some 0) 1) 2 = Ok 40 /\ it_sub c_dbg two_arrays (mkit (Some 0) 1) 3 = Fail Throw /\
  it_deref c_abort two_arrays (mkit (Some 0) (-1)) = Fail Abort.
Proof. split; [cbn; unfold is_long, LONG_MIN, LONG_MAX; lia|]. repeat split; vm_compute; reflexivity. Qed.

(** Difference and comparisons of iterators of one array are those of the positions. *)
Theorem C35_order : forall (c : cfg) p i j,
  is_long (i - j) ->
  it_diff c (mkit (Some p) i) (mkit (Some p) j) = Ok (i - j) /\
  forall k, exists b, it_cmp c k (mkit (Some p) i) (mkit (Some p) j) = Ok b /\ (b = true <-> icmp_holds k i j).
Proof. exact (fun c => @order_thm c). Qed.
Print Assumptions C35_order.

(** Comparing or subtracting iterators of different arrays is reported. *)
Theorem C35_mixed : forall (c : cfg) p q i j,
  p <> q -> checked c = true ->
  it_diff c (mkit (Some p) i) (mkit (Some q) j) = Fail (report c) /\ forall k, it_cmp c k (mkit (Some p) i) (mkit (Some q) j) = Fail (report c).
Proof. exact (fun c => @mixed_thm c). Qed.
Print Assumptions C35_mixed.

(** So is a comparison with an iterator that points nowhere. *)
Theorem C35_mixed_null : forall (c : cfg) p i j,
  checked c = true ->
  it_diff c (mkit (Some p) i) (mkit None j) = Fail (report c) /\ forall k, it_cmp c k (mkit (Some p) i) (mkit None j) = Fail (report c).
Proof. exact (fun c => @mixed_null_thm c). Qed.
Print Assumptions C35_mixed_null.

(** Every use of an iterator that points nowhere is reported, including comparing two such iterators. *)
Theorem C35_null : forall (c : cfg) (R : Type) (E : env R) j it,
  checked c = true ->
  it_deref c E (mkit None j) = Fail (report c) /\ it_inc c (mkit None j) = Fail (report c) /\ it_dec c (mkit None j) = Fail (report c) /\
  it_post_inc c (mkit None j) = Fail (report c) /\ it_post_dec c (mkit None j) = Fail (report c) /\
  (forall k, it_sub c E (mkit None j) k = Fail (report c) /\ it_addeq c (mkit None j) k = Fail (report c) /\ it_subeq c (mkit None j) k = Fail (report c) /\
     it_plus c (mkit None j) k = Fail (report c) /\ it_minus c (mkit None j) k = Fail (report c) /\ it_plus_l c k (mkit None j) = Fail (report c)) /\
  it_diff c (mkit None j) it = Fail (report c) /\ (forall k, it_cmp c k (mkit None j) it = Fail (report c)).
Proof. exact (fun c R => @null_thm c R). Qed.
Print Assumptions C35_null.

(** += and -= undo each other, and the distance moved is the difference (when representable). *)
Theorem C35_inverse : forall (c : cfg) p i k,
  is_long i -> is_long (i + k) -> is_long (i - k) ->
  (a <- it_addeq c (mkit (Some p) i) k ;; it_subeq c a k) = Ok (mkit (Some p) i) /\
  (a <- it_subeq c (mkit (Some p) i) k ;; it_addeq c a k) = Ok (mkit (Some p) i) /\
  (a <- it_plus c (mkit (Some p) i) k ;; it_diff c a (mkit (Some p) i)) = lret k.
Proof. exact @inverse_thm. Qed.
Print Assumptions C35_inverse.

(** ++ and -- undo each other, are moves by one, and their postfix forms return the old position. *)
Theorem C35_step : forall (c : cfg) p i,
  is_long i ->
  (i < LONG_MAX -> (a <- it_inc c (mkit (Some p) i) ;; it_dec c a) = Ok (mkit (Some p) i) /\
     exists a, it_inc c (mkit (Some p) i) = Ok a /\ it_plus c (mkit (Some p) i) 1 = Ok a /\ it_post_inc c (mkit (Some p) i) = Ok (mkit (Some p) i, a)) /\
  (LONG_MIN < i -> (a <- it_dec c (mkit (Some p) i) ;; it_inc c a) = Ok (mkit (Some p) i) /\
     exists a, it_dec c (mkit (Some p) i) = Ok a /\ it_minus c (mkit (Some p) i) 1 = Ok a /\ it_post_dec c (mkit (Some p) i) = Ok (mkit (Some p) i, a)).
Proof. exact @step_thm. Qed.
Print Assumptions C35_step.

Example C35_order_case : it_diff c_dbg (mkit (Some 0) 4) (mkit (Some 0) 1) = Ok 3 /\ it_cmp c_dbg ILt (mkit (Some 0) 4) (mkit (Some 0) 1) = Ok false /\
  it_cmp c_dbg IEq (mkit (Some 0) 1) (mkit (Some 1) 1) = Fail Throw /\ it_cmp c_off IEq (mkit (Some 0) 1) (mkit (Some 1) 1) = Ok true /\ it_cmp c_dbg IEq it_null it_null = Fail Throw /\
  it_post_inc c_dbg (mkit (Some 0) 4) = Ok (mkit (Some 0) 4, mkit (Some 0) 5).
Proof. repeat split; vm_compute; reflexivity. Qed.

(** A loop from begin to end visits every element once, in order, and stops. *)
Theorem C35_walk : forall (c : cfg) (R : Type) (E : env R) p l e fuel,
  shows (E p) l -> it_end E p = Ok e -> zlen l < Z.of_nat fuel -> it_walk fuel c E (it_begin p) e = Ok l.
Proof. exact (fun c R => @walk_thm c R). Qed.
Print Assumptions C35_walk.

(** A loop from rbegin to rend visits every element once, in reverse order. *)
Theorem C35_reverse_walk : forall (c : cfg) (R : Type) (E : env R) p l e fuel,
  shows (E p) l -> it_end E p = Ok e -> zlen l < Z.of_nat fuel -> r_walk fuel c E e (it_begin p) = Ok (rev l).
Proof. exact (fun c R => @r_walk_thm c R). Qed.
Print Assumptions C35_reverse_walk.

(** rbegin + k is element k from the end. *)
Theorem C35_reverse : forall (c : cfg) (R : Type) (E : env R) p l k,
  shows (E p) l -> 0 <= k < zlen l -> exists r v, r_plus c (mkit (Some p) (zlen l)) k = Ok r /\ znth l (zlen l - 1 - k) = Some v /\ r_deref c E r = Ok v.
Proof. exact (fun c R => @r_deref_thm c R). Qed.
Print Assumptions C35_reverse.
(** Reverse iterators move and subtract as positions counted from the end. *)
Theorem C35_reverse_arithmetic : forall (c : cfg) p n j k rj rk,
  0 <= j <= n -> 0 <= k <= n -> n <= LONG_MAX -> r_plus c (mkit (Some p) n) j = Ok rj -> r_plus c (mkit (Some p) n) k = Ok rk ->
  r_diff c rk rj = Ok (k - j) /\ (k < n -> r_inc c rk = r_plus c (mkit (Some p) n) (k + 1)) /\ (0 < k -> r_dec c rk = r_plus c (mkit (Some p) n) (k - 1)).
Proof. exact (fun c => @r_arith_thm c). Qed.
Print Assumptions C35_reverse_arithmetic.

Example C35_walk_case : it_walk 5 c_dbg two_arrays (it_begin 0) (mkit (Some 0) 4) = Ok [10; 20; 30; 40] /\ r_walk 5 c_dbg two_arrays (mkit (Some 0) 4) (it_begin 0) = Ok [40; 30; 20; 10] /\
  it_walk 5 c_dbg two_arrays (it_begin 0) (mkit (Some 1) 1) = Fail Throw.
Proof. repeat split; vm_compute; reflexivity. Qed.

Example C35_reverse_case : r_plus c_dbg (mkit (Some 0) 4) 1 = Ok (mkit (Some 0) 3) /\ r_plus c_dbg (mkit (Some 0) 4) 4 = Ok (mkit (Some 0) 0) /\
  r_diff c_dbg (mkit (Some 0) 0) (mkit (Some 0) 3) = Ok 3.
Proof. repeat split; vm_compute; reflexivity. Qed.

(** Assignment through an iterator changes that element of that array and nothing else. *)
Theorem C35_write : forall (c : cfg) (V : Type) (h : Z -> list V) p k v,
  (0 <= k < zlen (h p) -> exists h', it_write c h (mkit (Some p) k) v = Ok h' /\ zlen (h' p) = zlen (h p) /\
     (forall i, znth (h' p) i = if i =? k then Some v else znth (h p) i) /\ (forall q, q <> p -> h' q = h q)) /\
  (~ 0 <= k < zlen (h p) -> checked c = true -> it_write c h (mkit (Some p) k) v = Fail (report c)).
Proof. exact (fun c V => @write_thm c V). Qed.
Print Assumptions C35_write.

(** The objects with iterators: owning arrays, ... *)
Theorem C35_arrays : forall (V : Type) (l : list V), zlen l <= LONG_MAX -> shows (flag_list l) l.
Proof. exact @list_shows. Qed.
Print Assumptions C35_arrays.

(** ... the elements of every view of one, ... *)
Theorem C35_views : forall (c : cfg) N o,
  is_view c N o -> exists n l, o_size o = Ok n /\ zlen l = n /\ shows (flag_elems c o) l /\ forall i p, znth l i = Some p -> o_lin c o i = Ok p /\ 0 <= p < N.
Proof. exact (fun c => @elems_show c). Qed.
Print Assumptions C35_views.

(** ... RowIt of every two-dimensional object, ... *)
Theorem C35_rows : forall (c : cfg) N o,
  is_view c N o -> is_two o = true -> exists l, zlen l = o_rows o /\ shows (flag_rows c o) l /\
  forall i v, znth l i = Some v -> line_of c N o v (o_cols o) (fun j => (i, j)).
Proof. exact (fun c => @rows_show c). Qed.
Print Assumptions C35_rows.

(** ... and ColIt. *)
Theorem C35_cols : forall (c : cfg) N o,
  is_view c N o -> is_two o = true -> exists l, zlen l = o_cols o /\ shows (flag_cols c o) l /\
  forall j v, znth l j = Some v -> line_of c N o v (o_rows o) (fun i => (i, j)).
Proof. exact (fun c => @cols_show c). Qed.
Print Assumptions C35_cols.

Example C35_rows_case : exists r, it_deref c_dbg (fun _ => flag_rows c_dbg (O2 2 3 6)) (mkit (Some 0) 1) = Ok r /\ o_sub1 c_dbg r [1; 2; 3; 4; 5; 6] (Plain 2) = Ok 6 /\
  it_deref c_dbg (fun _ => flag_cols c_dbg (O2 2 3 6)) (mkit (Some 0) 3) = Fail Throw.
Proof. eexists. repeat split; vm_compute; reflexivity. Qed.

(** ** C36 *)

(** A loop over IndexRange2D(m, n) visits the plane; other shapes are reported. *)
Theorem C36_range : forall (c : cfg) m n fuel,
  is_long m -> is_long n ->
  (shape_ok m n -> m * n < Z.of_nat fuel -> range_walk fuel c m n = Ok (plane m n)) /\
  (~ shape_ok m n -> checked c = true -> range_make c m n = Fail (report c)).
Proof. exact (fun c => @range_thm c). Qed.
Print Assumptions C36_range.

(** The plane: every cell exactly once, in row-major order. *)
Theorem C36_plane : forall m n,
  0 <= m -> 0 <= n -> zlen (plane m n) = m * n /\ NoDup (plane m n) /\
  (forall i j, In (i, j) (plane m n) <-> 0 <= i < m /\ 0 <= j < n) /\ (forall i j, 0 <= i < m -> 0 <= j < n -> znth (plane m n) (i * n + j) = Some (i, j)).
Proof. exact @plane_thm. Qed.
Print Assumptions C36_plane.

(** Using the end position, comparing or assigning between ranges of different shapes is reported. *)
Theorem C36_end : forall (c : cfg) m n,
  checked c = true ->
  pit_inc c (mkpit m n m n) = Fail (report c) /\ pit_deref c (mkpit m n m n) = Fail (report c) /\
  (forall i j k l m' n', m <> m' \/ n <> n' -> pit_eq c (mkpit i j m n) (mkpit k l m' n') = Fail (report c) /\
     pit_ne c (mkpit i j m n) (mkpit k l m' n') = Fail (report c) /\ pit_assign c (mkpit i j m n) (mkpit k l m' n') = Fail (report c)).
Proof. exact @plane_end_thm. Qed.
Print Assumptions C36_end.

Example C36_case : range_walk 7 c_dbg 2 3 = Ok [(0, 0); (0, 1); (0, 2); (1, 0); (1, 1); (1, 2)] /\ range_walk 1 c_dbg 0 0 = Ok [] /\ range_make c_abort 2 0 = Fail Abort /\
  range_walk 7 c_off 2 0 = UB.
Proof. repeat split; vm_compute; reflexivity. Qed.
