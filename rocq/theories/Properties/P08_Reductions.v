(** Properties C43, C45-C48: reductions, searches and selections. *)
From Coq Require Import Permutation Ring_theory ZArith Lia Reals Lra.
From Verif Require Import Base.Outcome Base.ZList Model.IntModel Model.Index Model.Slice Model.Array1D Model.Array2D Model.View2D Model.Expr Model.Reduce Model.ViewAssign.
From Verif Require Import Spec.IntSpec Spec.ArraySpec Spec.SliceSpec Spec.MatrixSpec Spec.Matrix2Spec Spec.View2DSpec Spec.ExprSpec Spec.ReduceSpec Spec.NormSpec Spec.AssignSpec Spec.Configs.
From Verif Require Import Proofs.ExprProofs Proofs.ExprThms Proofs.ReduceProofs Proofs.ReduceThms Proofs.NormThms Proofs.AssignProofs Proofs.AssignThms Proofs.View2DThms.
Local Open Scope Z_scope.

Definition r23 : src2 Z := mksrc2 2 3 6 (fun i j => oget [4; 1; 7; 1; 7; 2] (i * 3 + j)) (oget [4; 1; 7; 1; 7; 2]).
Definition rl (l : list Z) : src1 Z := src_of_list l.
Lemma rl_yields l : zlen l <= LONG_MAX -> yields (rl l) (map Ok l).
Proof. intros H. unfold yields, rl, src_of_list. cbn [ssize sun]. rewrite zlen_map. split; [reflexivity|]. split; [assumption|]. intros i Hi. unfold elt, oget. rewrite znth_map. now destruct (znth l i). Qed.

(** ** C43 *)

(** min returns an element of the array that nothing is below; min_index returns it with its first position. *)
Theorem C43_min : forall (V : Type) (ltb : V -> V -> bool) (A : src1 V) l d e,
  weak_order ltb -> l <> [] -> yields A (map Ok l) ->
  exists i m, r_min ltb A d = Ok m /\ r_best_index ltb A e = Ok (i, m) /\ first_best ltb l i m.
Proof. exact @min_ok. Qed.
Print Assumptions C43_min.

(** max and max_index, with > for <. *)
Theorem C43_max : forall (V : Type) (gtb : V -> V -> bool) (A : src1 V) l d e,
  weak_order gtb -> l <> [] -> yields A (map Ok l) ->
  exists i m, r_max gtb A d = Ok m /\ r_best_index gtb A e = Ok (i, m) /\ first_best gtb l i m.
Proof. exact @max_ok. Qed.
Print Assumptions C43_max.

(** Two dimensions: min_index (max_index with >) returns the first position in row-major order; min, which walks the linear order, returns an equivalent value. *)
Theorem C43_index2 : forall (V : Type) (ltb : V -> V -> bool) (A : src2 V) m n f d e,
  weak_order ltb -> 0 < m -> 0 < n -> yields2 A (mkmx m n (fun i j => Ok (f i j))) ->
  exists i j v, 0 <= i < m /\ 0 <= j < n /\ r_best_index2 ltb A e = Ok (i, j, f i j) /\ r_min ltb (flat2 A) d = Ok v /\ ltb v (f i j) = false /\ ltb (f i j) v = false /\
    (forall i' j', 0 <= i' < m -> 0 <= j' < n -> ltb (f i' j') (f i j) = false) /\
    (forall i' j', 0 <= i' < m -> 0 <= j' < n -> before i' j' i j -> ltb (f i j) (f i' j') = true).
Proof. exact @min2_ok. Qed.
Print Assumptions C43_index2.

(** Empty arrays silently give the default of the caller: 0 for min and max, index -1 for min_index and max_index. *)
Theorem C43_empty : forall (V : Type) (better : V -> V -> bool) (A : src1 V) d e,
  yields A [] -> r_best_index better A e = Ok e /\ r_fold (fun s x => Ok (if better x s then x else s)) A d = Ok d.
Proof. exact (fun V better => @best_empty V better). Qed.
Print Assumptions C43_empty.

Example C43_case : weak_order Z.ltb /\ yields (rl [4; 1; 7; 1]) (map Ok [4; 1; 7; 1]) /\ r_min Z.ltb (rl [4; 1; 7; 1]) 0 = Ok 1 /\ r_best_index Z.ltb (rl [4; 1; 7; 1]) (-1, 0) = Ok (1, 1) /\
  r_max Z.gtb (rl [4; 7; 1; 7]) 0 = Ok 7 /\ r_best_index Z.gtb (rl [4; 7; 1; 7]) (-1, 0) = Ok (1, 7) /\
  r_best_index2 Z.ltb r23 (-1, -1, 0) = Ok (0, 1, 1) /\ r_best_index2 Z.gtb r23 (-1, -1, 0) = Ok (0, 2, 7) /\ r_min Z.ltb (flat2 r23) 0 = Ok 1 /\
  r_min Z.ltb (rl []) 0 = Ok 0 /\ r_best_index Z.ltb (rl []) (-1, 0) = Ok (-1, 0).
Proof. split; [unfold weak_order; repeat split; intros; lia|]. split; [apply rl_yields; vm_compute; congruence|]. repeat split; vm_compute; reflexivity. Qed.

(** ** C45 *)

(** any_of of a non-empty array decides the existential quantifier. *)
Theorem C45_any : forall (V : Type) (f : V -> bool) (A : src1 V) l d,
  yields A (map Ok l) -> l <> [] -> exists r, r_any (fun x => Ok (f x)) A d = Ok r /\ (r = true <-> exists x, In x l /\ f x = true).
Proof. exact (fun V f => @any_pure V f). Qed.
Print Assumptions C45_any.

(** all_of decides the universal quantifier. *)
Theorem C45_all : forall (V : Type) (f : V -> bool) (A : src1 V) l d,
  yields A (map Ok l) -> l <> [] -> exists r, r_all (fun x => Ok (f x)) A d = Ok r /\ (r = true <-> forall x, In x l -> f x = true).
Proof. exact (fun V f => @all_pure V f). Qed.
Print Assumptions C45_all.

(** none_of decides the negated existential. *)
Theorem C45_none : forall (V : Type) (f : V -> bool) (A : src1 V) l d,
  yields A (map Ok l) -> l <> [] -> exists r, r_none (fun x => Ok (f x)) A d = Ok r /\ (r = true <-> forall x, In x l -> f x = false).
Proof. exact (fun V f => @none_pure V f). Qed.
Print Assumptions C45_none.

(** On an empty array all three return the default of the caller, which is false unless given. *)
Theorem C45_empty : forall (V : Type) (f : V -> outcome bool) (A : src1 V) d,
  yields A [] -> r_any f A d = Ok d /\ r_all f A d = Ok d /\ r_none f A d = Ok d.
Proof. exact @empty_defaults. Qed.
Print Assumptions C45_empty.

(** any_of stops at the first element that satisfies the predicate or on which it reports; what follows is not read. *)
Theorem C45_any_stops : forall (V : Type) (f : V -> outcome bool) (A : src1 V) l v k d,
  yields A (map Ok l ++ v :: k) -> (forall x, In x l -> f x = Ok false) -> forall r, (x <- v ;; f x) = r -> r <> Ok false ->
  r_any f A d = r.
Proof. exact @any_stops. Qed.
Print Assumptions C45_any_stops.

(** all_of stops at the first element that fails the predicate. *)
Theorem C45_all_stops : forall (V : Type) (f : V -> outcome bool) (A : src1 V) l v k d,
  yields A (map Ok l ++ v :: k) -> (forall x, In x l -> f x = Ok true) -> forall r, (x <- v ;; f x) = r -> r <> Ok true ->
  r_all f A d = r.
Proof. exact @all_stops. Qed.
Print Assumptions C45_all_stops.

(** The versions with two arrays test the pairs of elements. *)
Theorem C45_two_arrays : forall (U V : Type) (c : cfg) (f : U -> V -> bool) (A : src1 U) (B : src1 V) l k d,
  yields A (map Ok l) -> yields B (map Ok k) -> zlen l = zlen k -> l <> [] ->
  (exists r, r_any2 c true (fun u v => Ok (f u v)) A B d = Ok r /\ (r = true <-> exists x y, In (x, y) (combine l k) /\ f x y = true)) /\
  (exists r, r_all2 c true (fun u v => Ok (f u v)) A B d = Ok r /\ (r = true <-> forall x y, In (x, y) (combine l k) -> f x y = true)) /\
  (exists r, r_none2 c true (fun u v => Ok (f u v)) A B d = Ok r /\ (r = true <-> forall x y, In (x, y) (combine l k) -> f x y = false)).
Proof. exact (fun U V c f => @quant2_ok U V c f). Qed.
Print Assumptions C45_two_arrays.

(** Arrays of different size are reported. *)
Theorem C45_two_mismatch : forall (U V : Type) (c : cfg) (f : U -> V -> bool) (A : src1 U) (B : src1 V) d,
  checked c = true ->
  r_any2 c false (fun u v => Ok (f u v)) A B d = Fail (report c) /\ r_all2 c false (fun u v => Ok (f u v)) A B d = Fail (report c) /\ r_none2 c false (fun u v => Ok (f u v)) A B d = Fail (report c).
Proof. exact (fun U V c f => @quant2_mismatch U V c f). Qed.
Print Assumptions C45_two_mismatch.

(** Comparison with a value: any_of(A, x) is membership. *)
Theorem C45_value : forall (V : Type) (eqb : V -> V -> bool) x (A : src1 V) l d,
  (forall a b, eqb a b = true <-> a = b) -> yields A (map Ok l) -> l <> [] ->
  (exists r, r_any_val eqb x A d = Ok r /\ (r = true <-> In x l)) /\ (exists r, r_all_val eqb x A d = Ok r /\ (r = true <-> forall y, In y l -> y = x)) /\
  (exists r, r_none_val eqb x A d = Ok r /\ (r = true <-> ~ In x l)).
Proof. exact @vals_ok. Qed.
Print Assumptions C45_value.

(** has_zero, has_nan, has_inf, all_zeros, all_pos, all_neg, all_non_pos, all_non_neg, all_finite, each with its own test f. *)
Theorem C45_tests : forall (V : Type) (f : V -> bool) (A : src1 V) l d,
  yields A (map Ok l) -> l <> [] ->
  (exists r, r_all_test f A d = Ok r /\ (r = true <-> forall x, In x l -> f x = true)) /\
  (exists r, r_any_test f A d = Ok r /\ (r = true <-> exists x, In x l /\ f x = true)).
Proof. exact @tests_ok. Qed.
Print Assumptions C45_tests.

(** On an empty array these return the default. *)
Theorem C45_tests_empty : forall (V : Type) (f : V -> bool) (A : src1 V) d,
  yields A [] -> r_all_test f A d = Ok d /\ r_any_test f A d = Ok d.
Proof. exact @tests_empty. Qed.
Print Assumptions C45_tests_empty.

Example C45_case : let A := rl [3; 0; 5] in
  r_any (fun x => Ok (x =? 5)) A false = Ok true /\ r_all (fun x => Ok (-1 <? x)) A false = Ok true /\ r_all (fun x => Ok (0 <? x)) A false = Ok false /\ r_none (fun x => Ok (7 <? x)) A false = Ok true /\
  r_any (fun x => q <- idiv c_dbg I32 15 x ;; Ok (q =? 5)) A false = Ok true /\ r_any (fun x => q <- idiv c_dbg I32 15 x ;; Ok (q =? 3)) A false = Fail Throw /\
  r_all (fun x => Ok (0 <? x)) (rl []) false = Ok false /\ r_none (fun x => Ok (0 <? x)) (rl []) false = Ok false /\
  r_all2 c_dbg true (fun x y => Ok (x <? y)) A (rl [4; 1; 6]) false = Ok true.
Proof. repeat split; vm_compute; reflexivity. Qed.
(** The vacuous reading fails: all_of of an empty array is false although every element satisfies the predicate. *)
Theorem C45_vacuous_refuted : exists (A : src1 Z) (f : Z -> bool), yields A (map Ok []) /\ (forall x, In x [] -> f x = true) /\ r_all (fun x => Ok (f x)) A false = Ok false.
Proof. exists (rl []), (fun x => 0 <? x). split; [apply rl_yields; vm_compute; congruence|]. split; [intros x []|reflexivity]. Qed.
Print Assumptions C45_vacuous_refuted.

(** ** C46 *)

(** sum over a commutative ring; the default of an empty array is 0. *)
Theorem C46_sum : forall (V : Type) (zero one : V) (add mul sub : V -> V -> V) (opp : V -> V) (RT : ring_theory zero one add mul sub opp eq) (A : src1 V) l,
  yields A (map Ok l) -> r_sum (fun x y => Ok (add x y)) A zero = Ok (total add zero l).
Proof. exact (fun V zero one add mul sub opp RT => @sum_ok V zero one add mul sub opp RT). Qed.
Print Assumptions C46_sum.

(** prod of a non-empty array. *)
Theorem C46_prod : forall (V : Type) (zero one : V) (add mul sub : V -> V -> V) (opp : V -> V) (RT : ring_theory zero one add mul sub opp eq) (A : src1 V) l d,
  yields A (map Ok l) -> l <> [] -> r_prod (fun x y => Ok (mul x y)) A d = Ok (total mul one l).
Proof. exact (fun V zero one add mul sub opp RT => @prod_ok V zero one add mul sub opp RT). Qed.
Print Assumptions C46_prod.

(** sum (prod, and every other operation with a neutral element) in order, without commutativity. *)
Theorem C46_fold : forall (V : Type) (op : V -> V -> V) (e : V), (forall x y z, op x (op y z) = op (op x y) z) -> (forall x, op x e = x) -> forall (A : src1 V) l d,
  yields A (map Ok l) -> l <> [] -> r_fold (fun x y => Ok (op x y)) A d = Ok (total op e l).
Proof. exact @fold_total. Qed.
Print Assumptions C46_fold.

(** The sum of merge(A, B) is the sum of A plus the sum of B. *)
Theorem C46_merge : forall (V : Type) (op : V -> V -> V) (e : V), (forall x y z, op x (op y z) = op (op x y) z) -> (forall x, op x e = x) -> (forall x, op e x = x) -> forall c (A B : src1 V) l k d,
  yields A (map Ok l) -> yields B (map Ok k) -> l <> [] -> k <> [] -> zlen l + zlen k <= LONG_MAX ->
  exists R s t, x_merge c A B = Ok R /\ r_fold (fun x y => Ok (op x y)) A d = Ok s /\ r_fold (fun x y => Ok (op x y)) B d = Ok t /\ r_fold (fun x y => Ok (op x y)) R d = Ok (op s t).
Proof. exact @fold_merge. Qed.
Print Assumptions C46_merge.

(** Two dimensions: the sum of the sums of the rows. *)
Theorem C46_sum2 : forall (V : Type) (op : V -> V -> V) (e : V), (forall x y z, op x (op y z) = op (op x y) z) -> (forall x, op x e = x) -> (forall x, op e x = x) -> forall (A : src2 V) m n f d,
  0 < m -> 0 < n -> yields2 A (mkmx m n (fun i j => Ok (f i j))) ->
  r_fold (fun x y => Ok (op x y)) (flat2 A) d = Ok (total op e (map (fun i => total op e (map (f i) (zseq 0 (Z.to_nat n)))) (zseq 0 (Z.to_nat m)))).
Proof. exact @fold_total2. Qed.
Print Assumptions C46_sum2.

(** An empty array gives the default of the caller: sum 0, but also prod 0. *)
Theorem C46_empty : forall (W : Type) (g : W -> W -> outcome W) (A : src1 W) d,
  yields A [] -> r_fold g A d = Ok d.
Proof. exact @fold_empty. Qed.
Print Assumptions C46_empty.

(** In a commutative monoid the order of the elements does not matter. *)
Theorem C46_order : forall (V : Type) (op : V -> V -> V) e,
  (forall x y z, op x (op y z) = op (op x y) z) -> (forall x y, op x y = op y x) -> forall l k, Permutation l k -> total op e l = total op e k.
Proof. exact @total_perm. Qed.
Print Assumptions C46_order.

(** The sum of the element-wise sum of two arrays is the sum of their sums. *)
Theorem C46_additive : forall (V : Type) (op : V -> V -> V) e,
  (forall x y z, op x (op y z) = op (op x y) z) -> (forall x y, op x y = op y x) -> (forall x, op e x = x) ->
  forall l k, zlen l = zlen k -> total op e (products op l k) = op (total op e l) (total op e k).
Proof. exact @total_map_add. Qed.
Print Assumptions C46_additive.

(** dot_prod is the sum of the products. *)
Theorem C46_dot : forall (V : Type) (zero one : V) (add mul sub : V -> V -> V) (opp : V -> V) (RT : ring_theory zero one add mul sub opp eq) c (A B : src1 V) l k,
  yields A (map Ok l) -> yields B (map Ok k) -> zlen l = zlen k -> r_dot c (fun x y => Ok (add x y)) (fun x y => Ok (mul x y)) zero A B zero = Ok (total add zero (products mul l k)).
Proof. exact (fun V zero one add mul sub opp RT => @dot_ok V zero one add mul sub opp RT). Qed.
Print Assumptions C46_dot.

(** Different sizes are reported. *)
Theorem C46_dot_mismatch : forall (V : Type) (zero one : V) (add mul sub : V -> V -> V) (opp : V -> V) (RT : ring_theory zero one add mul sub opp eq) c (A B : src1 V) l k d,
  yields A l -> yields B k -> zlen l <> zlen k -> checked c = true -> r_dot c (fun x y => Ok (add x y)) (fun x y => Ok (mul x y)) zero A B d = Fail (report c).
Proof. exact (fun V zero one add mul sub opp _ => @dot_mismatch V zero add mul). Qed.
Print Assumptions C46_dot_mismatch.

(** The dot product is symmetric ... *)
Theorem C46_dot_symmetric : forall (V : Type) (zero one : V) (add mul sub : V -> V -> V) (opp : V -> V) (RT : ring_theory zero one add mul sub opp eq) l k,
  total add zero (products mul l k) = total add zero (products mul k l).
Proof. exact (fun V zero one add mul sub opp RT => @dot_sym V zero one add mul sub opp RT). Qed.
Print Assumptions C46_dot_symmetric.

(** ... and linear in each argument. *)
Theorem C46_dot_linear : forall (V : Type) (zero one : V) (add mul sub : V -> V -> V) (opp : V -> V) (RT : ring_theory zero one add mul sub opp eq) a l l' k,
  zlen l = zlen l' -> zlen l = zlen k ->
  total add zero (products mul (products add (map (mul a) l) l') k) = add (mul a (total add zero (products mul l k))) (total add zero (products mul l' k)).
Proof. exact (fun V zero one add mul sub opp RT => @dot_linear V zero one add mul sub opp RT). Qed.
Print Assumptions C46_dot_linear.

(** Two dimensions: the Frobenius product. *)
Theorem C46_dot2 : forall (V : Type) (zero one : V) (add mul sub : V -> V -> V) (opp : V -> V) (RT : ring_theory zero one add mul sub opp eq) c (A B : src2 V) m n f g,
  yields2 A (mkmx m n (fun i j => Ok (f i j))) -> yields2 B (mkmx m n (fun i j => Ok (g i j))) ->
  r_dot2 c (fun x y => Ok (add x y)) (fun x y => Ok (mul x y)) zero A B zero = Ok (total add zero (map (fun i => total add zero (map (fun j => mul (f i j) (g i j)) (zseq 0 (Z.to_nat n)))) (zseq 0 (Z.to_nat m)))).
Proof. exact (fun V zero one add mul sub opp RT => @dot2_ok V zero one add mul sub opp RT). Qed.
Print Assumptions C46_dot2.

(** mean is the sum divided by the number of elements. *)
Theorem C46_mean : forall (V : Type) zero one add mul sub opp,
  @ring_theory V zero one add mul sub opp eq -> forall (div : V -> V -> outcome V) cast (A : src1 V) l d, yields A (map Ok l) -> l <> [] ->
  r_mean (fun x y => Ok (add x y)) div cast zero A d = (n <- cast (zlen l) ;; div (total add zero l) n).
Proof. exact @mean_ok. Qed.
Print Assumptions C46_mean.

(** norm1 over the reals. *)
Theorem C46_norm1 : forall A l,
  yields A (map Ok l) -> r_norm1 radd Rabs 0%R A 0%R = Ok (norm1 l).
Proof. exact @norm1_ok. Qed.
Print Assumptions C46_norm1.

(** norm2 over the reals. *)
Theorem C46_norm2 : forall c A l,
  yields A (map Ok l) -> r_norm2 c radd rmul sqrt 0%R A 0%R = Ok (norm2 l).
Proof. exact @norm2_ok. Qed.
Print Assumptions C46_norm2.

(** norm_inf over the reals. *)
Theorem C46_norm_inf : forall A l,
  yields A (map Ok l) -> r_norm_inf Rgtb Rabs 0%R A 0%R = Ok (norminf l).
Proof. exact @norminf_ok. Qed.
Print Assumptions C46_norm_inf.

(** norm_lp: the lp-th root (powr is std::pow) of the sum of the lp-th powers. *)
Theorem C46_norm_lp : forall c A l p powr,
  (yields A (map Ok l) -> l <> [] -> (0 < p)%Z ->
  r_norm_lp c radd (fun x y => Ok (x / y)) (fun i => Ok (IZR i)) 1 Rabs (fun x p => Ok (x ^ Z.to_nat p)) powr 0 A p 0 = Ok (powr (rsum (map (fun x => Rabs x ^ Z.to_nat p) l)) (1 / IZR p)))%R.
Proof. exact norm_lp_ok. Qed.
Print Assumptions C46_norm_lp.

(** norm_lp with lp <= 0 is reported. *)
Theorem C46_norm_lp_bad : forall (V : Type) c add div cast one abs powi pow zero (A : src1 V) p d,
  (p <= 0)%Z -> checked c = true -> r_norm_lp c add div cast one abs powi pow zero A p d = Fail (report c).
Proof. exact @norm_lp_bad. Qed.
Print Assumptions C46_norm_lp_bad.

(** The three are norms. *)
Theorem C46_norms : forall n, In n [norm1; norm2; norminf] ->
  (forall l, 0 <= n l)%R /\ (forall l, n l = 0%R <-> Forall (fun x => x = 0%R) l) /\ (forall a l, n (scale a l) = (Rabs a * n l)%R) /\
  (forall l k, length l = length k -> n (vadd l k) <= n l + n k)%R.
Proof. exact norms_ok. Qed.
Print Assumptions C46_norms.
(** norm_inf <= norm2 <= norm1, and norm_inf is the largest absolute value. *)
Theorem C46_norm_order : forall l, (norminf l <= norm2 l <= norm1 l)%R.
Proof. exact norm_order. Qed.
Print Assumptions C46_norm_order.
Theorem C46_norm_inf_attained : forall l, l <> [] -> exists x, In x l /\ norminf l = Rabs x.
Proof. exact norminf_attained. Qed.
Print Assumptions C46_norm_inf_attained.
Example C46_case : ring_theory 0 1 Z.add Z.mul Z.sub Z.opp eq /\ r_sum (iadd I32) (rl [4; -1; 7]) 0 = Ok 10 /\ r_prod (imul I32) (rl [4; -1; 7]) 0 = Ok (-28) /\ r_prod (imul I32) (rl []) 0 = Ok 0 /\
  r_dot c_dbg (iadd I32) (imul I32) 0 (rl [4; -1; 7]) (rl [1; 2; 3]) 0 = Ok 23 /\ r_dot c_dbg (iadd I32) (imul I32) 0 (rl [4; -1; 7]) (rl [1; 2]) 0 = Fail Throw /\
  r_sum (iadd I32) (flat2 r23) 0 = Ok 22 /\ r_dot2 c_dbg (iadd I32) (imul I32) 0 r23 r23 0 = Ok 120 /\ r_sum (iadd I32) (rl [2147483647; 1]) 0 = UB.
Proof. split; [exact InitialRing.Zth|]. repeat split; vm_compute; reflexivity. Qed.
Example C46_norm_case : norm1 [3; -4]%R = 7%R /\ norm2 [3; -4]%R = 5%R /\ norminf [3; -4]%R = 4%R.
Proof.
  assert (Rabs 3 = 3)%R as E3 by (apply Rabs_pos_eq; lra). assert (Rabs (-4) = 4)%R as E4 by (rewrite Rabs_left; lra).
  unfold norm1, norm2, norminf, rsum, total. cbn [map fold_right]. rewrite E3, E4. split; [lra|]. split.
  - replace (3 * 3 + (-4 * -4 + 0))%R with (5 * 5)%R by ring. apply sqrt_square. lra.
  - rewrite (Rmax_left 4 0), Rmax_right; lra.
Qed.

(** ** C47 *)

(** polynomial(A, x) by Horner is c0 + c1 x + c2 x^2 + ...; no coefficients give 0. *)
Theorem C47_horner : forall (V : Type) (zero one : V) (add mul sub : V -> V -> V) (opp : V -> V) (RT : ring_theory zero one add mul sub opp eq) c (A : src1 V) cs x,
  yields A (map Ok cs) -> r_poly c (fun x y => Ok (add x y)) (fun x y => Ok (mul x y)) A x zero = Ok (total add zero (poly_terms one mul x 0 cs)).
Proof. exact (fun V zero one add mul sub opp RT => @poly_ok V zero one add mul sub opp RT). Qed.
Print Assumptions C47_horner.

(** gpolynomial(A, X, powers) = sum of A_i X_i^p_i; pow is what pows computes, exact for the non-negative powers. *)
Theorem C47_gpolynomial : forall (V : Type) (zero one : V) (add mul sub : V -> V -> V) (opp : V -> V) (RT : ring_theory zero one add mul sub opp eq) (pow : V -> Z -> outcome V), (forall x p, 0 <= p -> pow x p = Ok (power one mul x (Z.to_nat p))) -> forall c (A X : src1 V) (P : src1 Z) cs xs ps,
  yields A (map Ok cs) -> yields X (map Ok xs) -> yields P (map Ok ps) -> zlen cs = zlen xs -> zlen xs = zlen ps -> Forall (fun p => 0 <= p) ps ->
  r_gpoly c (fun x y => Ok (add x y)) (fun x y => Ok (mul x y)) pow zero A X P zero = Ok (total add zero (gpoly_terms one mul cs xs ps)).
Proof. exact @gpoly_ok. Qed.
Print Assumptions C47_gpolynomial.

(** polynomial(A, x, powers) = sum of A_i x^p_i. *)
Theorem C47_powers : forall (V : Type) (zero one : V) (add mul sub : V -> V -> V) (opp : V -> V) (RT : ring_theory zero one add mul sub opp eq) (pow : V -> Z -> outcome V), (forall x p, 0 <= p -> pow x p = Ok (power one mul x (Z.to_nat p))) -> forall c (A : src1 V) (P : src1 Z) cs x ps,
  yields A (map Ok cs) -> yields P (map Ok ps) -> zlen cs = zlen ps -> Forall (fun p => 0 <= p) ps ->
  r_poly_powers c (fun x y => Ok (add x y)) (fun x y => Ok (mul x y)) pow zero A x P zero = Ok (total add zero (gpoly_terms one mul cs (map (fun _ => x) cs) ps)).
Proof. exact @poly_powers_ok. Qed.
Print Assumptions C47_powers.

(** Different sizes are reported. *)
Theorem C47_gpolynomial_mismatch : forall (V : Type) (zero one : V) (add mul sub : V -> V -> V) (opp : V -> V) (RT : ring_theory zero one add mul sub opp eq) (pow : V -> Z -> outcome V), forall c (A X : src1 V) (P : src1 Z) l k p d,
  yields A l -> yields X k -> yields P p -> zlen l <> zlen k \/ zlen k <> zlen p -> checked c = true ->
  r_gpoly c (fun x y => Ok (add x y)) (fun x y => Ok (mul x y)) pow zero A X P d = Fail (report c).
Proof. exact (fun V zero one add mul sub opp _ pow => @gpoly_mismatch V zero add mul pow). Qed.
Print Assumptions C47_gpolynomial_mismatch.

(** A negative power is reported. *)
Theorem C47_gpolynomial_negative : forall (V : Type) (zero one : V) (add mul sub : V -> V -> V) (opp : V -> V) (RT : ring_theory zero one add mul sub opp eq) (pow : V -> Z -> outcome V), forall c (A X : src1 V) (P : src1 Z) l k ps d,
  yields A l -> yields X k -> yields P (map Ok ps) -> zlen l = zlen k -> zlen k = zlen ps -> l <> [] -> ~ Forall (fun p => 0 <= p) ps -> checked c = true ->
  r_gpoly c (fun x y => Ok (add x y)) (fun x y => Ok (mul x y)) pow zero A X P d = Fail (report c).
Proof. exact (fun V zero one add mul sub opp _ pow => @gpoly_negative V zero add mul pow). Qed.
Print Assumptions C47_gpolynomial_negative.

(** Different sizes are reported. *)
Theorem C47_powers_mismatch : forall (V : Type) (zero one : V) (add mul sub : V -> V -> V) (opp : V -> V) (RT : ring_theory zero one add mul sub opp eq) (pow : V -> Z -> outcome V), forall c (A : src1 V) (P : src1 Z) l x p d,
  yields A l -> yields P p -> zlen l <> zlen p -> checked c = true -> r_poly_powers c (fun x y => Ok (add x y)) (fun x y => Ok (mul x y)) pow zero A x P d = Fail (report c).
Proof. exact (fun V zero one add mul sub opp _ pow => @poly_powers_mismatch V zero add mul pow). Qed.
Print Assumptions C47_powers_mismatch.

(** With powers 0, 1, 2, ... it is the polynomial computed by Horner. *)
Theorem C47_agree : forall (V : Type) (one : V) (mul : V -> V -> V) x cs n,
  gpoly_terms one mul cs (map (fun _ => x) cs) (zseq (Z.of_nat n) (length cs)) = poly_terms one mul x n cs.
Proof. exact (fun V one mul => @powers_iota V one mul mul). Qed.
Print Assumptions C47_agree.
Example C47_case : let pw := fun x p : Z => Ok (x ^ p) in
  (forall x p, 0 <= p -> pw x p = Ok (power 1 Z.mul x (Z.to_nat p))) /\
  r_poly c_dbg (iadd I32) (imul I32) (rl [5; 0; -2; 1]) 3 0 = Ok 14 /\ r_poly c_dbg (iadd I32) (imul I32) (rl [5]) 3 0 = Ok 5 /\ r_poly c_dbg (iadd I32) (imul I32) (rl []) 3 0 = Ok 0 /\
  total Z.add 0 (poly_terms 1 Z.mul 3 0 [5; 0; -2; 1]) = 14 /\
  r_gpoly c_dbg (iadd I32) (imul I32) pw 0 (rl [5; 2]) (rl [3; 10]) (rl [2; 3]) 0 = Ok 2045 /\ r_poly_powers c_dbg (iadd I32) (imul I32) pw 0 (rl [5; 2]) 10 (rl [1; 0]) 0 = Ok 52 /\
  r_gpoly c_dbg (iadd I32) (imul I32) pw 0 (rl [5; 2]) (rl [3; 10]) (rl [2; -3]) 0 = Fail Throw /\ r_gpoly c_dbg (iadd I32) (imul I32) pw 0 (rl [5; 2]) (rl [3; 10]) (rl [2]) 0 = Fail Throw.
Proof.
  cbv zeta. split; [|repeat split; vm_compute; reflexivity]. intros x p Hp. f_equal. rewrite <- (Z2Nat.id p) at 1 by assumption. induction (Z.to_nat p) as [|n IH]; [reflexivity|]. rewrite Nat2Z.inj_succ, Z.pow_succ_r by lia. cbn [power]. now rewrite IH.
Qed.

(** ** C48: o is a one-dimensional array or view over a storage of N elements (is_view), its elements at the places ps. *)

(** in_cond_range returns a view of exactly the elements that satisfy the condition, in their order. *)
Theorem C48_select : forall (V : Type) (c : cfg) (N : Z) (f : V -> bool) o ps b,
  is_view c N o -> is_two o = false -> at_places c N o ps -> zlen b = N ->
  exists v, r_in_cond c (fun x => Ok (f x)) o b = Ok v /\ is_view c N v /\ is_two v = false /\ at_places c N v (filter (holds_at f b) ps).
Proof. exact (fun V c N => @in_cond_ok V c N). Qed.
Print Assumptions C48_select.

(** Writing through the selection changes exactly these elements. *)
Theorem C48_write : forall (V : Type) (c : cfg) (N : Z) (f : V -> bool) o ps b x,
  is_view c N o -> is_two o = false -> at_places c N o ps -> zlen b = N ->
  exists v b', r_in_cond c (fun x => Ok (f x)) o b = Ok v /\ v_fill c v x b = MOk b' /\ zlen b' = N /\
    forall q, znth b' q = if (if in_dec Z.eq_dec q ps then holds_at f b q else false) then Some x else znth b q.
Proof. exact (fun V c N => @in_cond_write V c N). Qed.
Print Assumptions C48_write.

(** in_open_range: low < x < high; low > high is reported. *)
Theorem C48_open : forall (V : Type) (c : cfg) (N : Z) ltb leb (low high : V) o ps b,
  is_view c N o -> is_two o = false -> at_places c N o ps -> zlen b = N ->
  (leb low high = true -> exists v, r_in_open c ltb leb low high o b = Ok v /\ is_view c N v /\ at_places c N v (filter (holds_at (fun x => ltb low x && ltb x high) b) ps)) /\
  (leb low high = false -> checked c = true -> r_in_open c ltb leb low high o b = Fail (report c)).
Proof. exact (fun V c N => @in_open_ok V c N). Qed.
Print Assumptions C48_open.

(** in_closed_range: low <= x <= high. *)
Theorem C48_closed : forall (V : Type) (c : cfg) (N : Z) leb (low high : V) o ps b,
  is_view c N o -> is_two o = false -> at_places c N o ps -> zlen b = N ->
  (leb low high = true -> exists v, r_in_closed c leb low high o b = Ok v /\ is_view c N v /\ at_places c N v (filter (holds_at (fun x => leb low x && leb x high) b) ps)) /\
  (leb low high = false -> checked c = true -> r_in_closed c leb low high o b = Fail (report c)).
Proof. exact (fun V c N => @in_closed_ok V c N). Qed.
Print Assumptions C48_closed.

(** Every array and every view of it, nested to any depth, has its elements at certain places. *)
Theorem C48_places : forall c N o, is_view c N o -> exists ps, at_places c N o ps.
Proof. exact @places_of. Qed.
Print Assumptions C48_places.
Example C48_case : let b := [5; 1; 8; 3; 9; 2] in
  match (o <- o_slice1 c_dbg (O1 6) Even ;; r_in_open c_dbg Z.ltb Z.leb 4 9 o b) with Ok v => (o_size v = Ok 2) /\ o_lin c_dbg v 0 = Ok 0 /\ o_lin c_dbg v 1 = Ok 2 /\ v_fill c_dbg v 0 b = MOk [0; 1; 0; 3; 9; 2] | _ => False end /\
  match r_in_closed c_dbg Z.leb 3 8 (O1 6) b with Ok v => v_fill c_dbg v 0 b = MOk [0; 1; 0; 0; 9; 2] | _ => False end /\
  r_in_open c_dbg Z.ltb Z.leb 9 4 (O1 6) b = Fail Throw.
Proof. repeat split; vm_compute; reflexivity. Qed.
