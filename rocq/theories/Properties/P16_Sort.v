(** Properties C61 and C62: sort, sort_increasing, sort_decreasing and shuffle; views without repeated elements. *)
From Coq Require Import Sorting.Permutation.
From Flocq Require Import Core BinarySingleNaN.
From Verif Require Import Base.Outcome Base.ZList Model.Index Model.Slice Model.Array1D Model.Array2D Model.View2D Model.Expr Model.Reduce Model.SortModel.
From Verif Require Import Spec.ArraySpec Spec.SliceSpec Spec.View2DSpec Spec.ExprSpec Spec.ReduceSpec Spec.FloatSpec Spec.Configs Spec.SortSpec.
From Verif Require Import Proofs.SortProofs Proofs.DistinctProofs Proofs.SortThms.

(** sort(A, less) on any view of any array: the elements are rearranged into order and nothing outside the view changes. *)
Theorem C61_sort : forall (V : Type) c N o (b : list V) less impl old, is_view c N o -> zlen b = N -> holds c o b old -> separate c o -> sorts impl -> strict_weak less old ->
  exists b' new, sort_by impl less c o b = Ok b' /\ zlen b' = N /\ holds c o b' new /\ Permutation old new /\ ordered less new /\
    forall q, (forall i, 0 <= i < zlen old -> o_lin c o i <> Ok q) -> znth b' q = znth b q.
Proof. exact @sort_thm. Qed.
Print Assumptions C61_sort.
(** An algorithm with the contract assumed of std::sort exists. *)
Theorem C61_contract : forall V : Type, exists impl, @sorts V impl.
Proof. intros V. exists isort. exact isort_sorts. Qed.
Print Assumptions C61_contract.
(** For a total order the result does not depend on the algorithm, and sort_decreasing is the reverse of sort_increasing. *)
Theorem C61_total : forall (V : Type) c N o (b : list V) ltb old (impl : (V -> V -> bool) -> list V -> list V), is_view c N o -> zlen b = N -> holds c o b old -> separate c o -> total_order ltb -> sorts impl ->
  exists new binc bdec, Permutation old new /\ ordered ltb new /\ holds c o binc new /\ holds c o bdec (rev new) /\
    forall impl' : (V -> V -> bool) -> list V -> list V, sorts impl' -> sort_increasing impl' ltb c o b = Ok binc /\ sort_decreasing impl' ltb c o b = Ok bdec.
Proof. exact @sort_total_thm. Qed.
Print Assumptions C61_total.
(** Sorting what is sorted changes nothing. *)
Theorem C61_sorted : forall (V : Type) c N o (b : list V) ltb old (impl : (V -> V -> bool) -> list V -> list V), is_view c N o -> zlen b = N -> holds c o b old -> separate c o -> total_order ltb -> sorts impl -> ordered ltb old ->
  exists b', sort_increasing impl ltb c o b = Ok b' /\ holds c o b' old.
Proof. exact @sort_sorted_thm. Qed.
Print Assumptions C61_sorted.
(** The ends of the sorted array are min(A) and max(A). *)
Theorem C61_ends : forall (V : Type) (ltb : V -> V -> bool) (A : src1 V) old new d e, total_order ltb -> old <> [] -> yields A (map Ok old) -> Permutation old new -> ordered ltb new ->
  r_min ltb A d = oget new 0 /\ r_max (fun x y => ltb y x) A e = oget new (zlen new - 1).
Proof. exact @ends_min_max. Qed.
Print Assumptions C61_ends.
(** shuffle(A) keeps the elements. *)
Theorem C61_shuffle : forall (V : Type) c N o (b : list V) impl old, is_view c N o -> zlen b = N -> holds c o b old -> separate c o -> shuffles impl ->
  exists b' new, shuffle impl c o b = Ok b' /\ zlen b' = N /\ holds c o b' new /\ Permutation old new /\
    forall q, (forall i, 0 <= i < zlen old -> o_lin c o i <> Ok q) -> znth b' q = znth b q.
Proof. exact @shuffle_thm. Qed.
Print Assumptions C61_shuffle.
Lemma even_view c : is_view c 6 (OS1 (O1 6) (RSeq (mkseqn 0 3 2))).
Proof. exists (O1 6), (whole1 6), [VwSlice Even]. split; [left; split; [unfold LONG_MAX; lia|auto]|]. split; [cbn [chain_ok]; repeat split; vm_compute; discriminate|]. destruct c as [[] [] [] a]; reflexivity. Qed.
Lemma even_separate c : separate c (OS1 (O1 6) (RSeq (mkseqn 0 3 2))).
Proof. apply (distinct_thm c 6 (O1 6) (whole1 6) [VwSlice Even]); [left; split; [unfold LONG_MAX; lia|auto]|cbn [chain_ok]; repeat split; vm_compute; discriminate|repeat constructor|destruct c as [[] [] [] a]; reflexivity]. Qed.
Lemma even_holds : holds c_dbg (OS1 (O1 6) (RSeq (mkseqn 0 3 2))) [30; 1; 10; 2; 20; 3] [30; 10; 20].
Proof. split; [reflexivity|]. intros i Hi. assert (i = 0 \/ i = 1 \/ i = 2) as [->|[->| ->]] by (cbn in Hi; lia); reflexivity. Qed.
Lemma Z_total : total_order Z.ltb.
Proof. split; [intros x; lia|]. split; intros; lia. Qed.
Example C61_case : exists v, o_slice1 c_dbg (O1 6) Even = Ok v /\ is_view c_dbg 6 v /\ separate c_dbg v /\ holds c_dbg v [30; 1; 10; 2; 20; 3] [30; 10; 20] /\
  total_order Z.ltb /\ @sorts Z isort /\ @shuffles Z (@rev Z) /\
  sort_increasing isort Z.ltb c_dbg v [30; 1; 10; 2; 20; 3] = Ok [10; 1; 20; 2; 30; 3] /\
  sort_decreasing isort Z.ltb c_dbg v [30; 1; 10; 2; 20; 3] = Ok [30; 1; 20; 2; 10; 3] /\
  sort_by isort (fun x y => x mod 7 <? y mod 7) c_dbg v [30; 1; 10; 2; 20; 3] = Ok [30; 1; 10; 2; 20; 3] /\
  shuffle (@rev Z) c_dbg v [30; 1; 10; 2; 20; 3] = Ok [20; 1; 10; 2; 30; 3].
Proof.
  exists (OS1 (O1 6) (RSeq (mkseqn 0 3 2))). split; [reflexivity|]. split; [apply even_view|]. split; [apply even_separate|]. split; [apply even_holds|].
  split; [apply Z_total|]. split; [apply isort_sorts|]. split; [intros l; apply Permutation_rev|]. repeat split; vm_compute; reflexivity.
Qed.

(** Undefined: a comparison that is not a strict weak ordering of the elements; in particular one such as <= under which an
    element precedes itself. *)
Theorem C61_comparison : forall (V : Type) c N o (b : list V) less impl old, is_view c N o -> zlen b = N -> holds c o b old -> ~ strict_weak less old -> sort_by impl less c o b = UB.
Proof. exact @sort_order_thm. Qed.
Print Assumptions C61_comparison.
Theorem C61_reflexive : forall (V : Type) c N o (b : list V) less impl old x, is_view c N o -> zlen b = N -> holds c o b old -> In x old -> less x x = true -> sort_by impl less c o b = UB.
Proof. exact @reflexive_thm. Qed.
Print Assumptions C61_reflexive.
(** Undefined: a view in which two indexes are one element, in every configuration and for every algorithm on the range. *)
Theorem C61_repeated : forall (V : Type) c N o (b : list V), is_view c N o -> forall f i j p n, o_size o = Ok n -> 0 <= i < j -> j < n -> o_lin c o i = Ok p -> o_lin c o j = Ok p ->
  on_range c o b f = UB.
Proof. exact @range_alias_thm. Qed.
Print Assumptions C61_repeated.
Example C61_undefined_case : exists v w, o_slice1 c_dbg (O1 6) Even = Ok v /\ sort_by isort Z.leb c_dbg v [30; 1; 10; 2; 20; 3] = UB /\
  o_slice1 c_dbg (O1 3) (Vec [0; 2; 0]) = Ok w /\ o_lin c_dbg w 0 = o_lin c_dbg w 2 /\ sort_increasing isort Z.ltb c_dbg w [5; 6; 4] = UB /\ shuffle (@rev Z) c_dbg w [5; 6; 4] = UB.
Proof. do 2 eexists. repeat split; vm_compute; reflexivity. Qed.
(** Floating point: operator< is a strict weak ordering of the elements exactly when there is no NaN or no element is less than another. *)
Theorem C61_float_order : forall prec emax (l : list (binary_float prec emax)), strict_weak Bltb l <->
  (forall x, In x l -> is_nan x = false) \/ (forall x y, In x l -> In y l -> Bltb x y = false).
Proof. exact float_order_thm. Qed.
Print Assumptions C61_float_order.
Theorem C61_float : forall prec emax c N o b impl (old : list (binary_float prec emax)), is_view c N o -> zlen b = N -> holds c o b old -> separate c o -> sorts impl -> (forall x, In x old -> is_nan x = false) ->
  exists binc bdec inc dec, sort_increasing impl Bltb c o b = Ok binc /\ sort_decreasing impl Bltb c o b = Ok bdec /\
    holds c o binc inc /\ holds c o bdec dec /\ Permutation old inc /\ Permutation old dec /\
    (forall i j x y, 0 <= i < j -> znth inc i = Some x -> znth inc j = Some y -> Bleb x y = true) /\
    (forall i j x y, 0 <= i < j -> znth dec i = Some x -> znth dec j = Some y -> Bleb y x = true).
Proof. exact float_sort_thm. Qed.
Print Assumptions C61_float.
(** Sorting an array holding a NaN and two different numbers is undefined. *)
Theorem C61_nan_refuted : forall prec emax c N o b impl (old : list (binary_float prec emax)) n x y, is_view c N o -> zlen b = N -> holds c o b old -> In n old -> is_nan n = true -> In x old -> In y old -> Bltb x y = true ->
  sort_increasing impl Bltb c o b = UB /\ sort_decreasing impl Bltb c o b = UB.
Proof. exact nan_sort_thm. Qed.
Print Assumptions C61_nan_refuted.
Definition one : binary_float 53 1024 := binary_normalize 53 1024 prec53 emax1024 mode_NE 1 0 false.
Example C61_float_case : let x := one in let z := B754_zero true : binary_float 53 1024 in let i := B754_infinity true : binary_float 53 1024 in let n := B754_nan : binary_float 53 1024 in
  sort_increasing isort Bltb c_off (O1 3) [x; z; i] = Ok [i; z; x] /\ Bltb z x = true /\ sort_increasing isort Bltb c_off (O1 3) [x; n; z] = UB /\
  sort_decreasing isort Bltb c_dbg (O1 2) [x; n] = Ok [x; n].
Proof. repeat split; vm_compute; reflexivity. Qed.

(** C62.  A chain of views of an owning array whose index lists do not repeat an index and whose strides are not zero has
    pairwise different elements; an index list with a repetition does not. *)
Theorem C62_distinct : forall c N r d0 ws o, root r d0 N -> chain_ok d0 ws -> Forall vop_once ws -> o_chain c r ws = Ok o -> separate c o.
Proof. exact distinct_thm. Qed.
Print Assumptions C62_distinct.
Theorem C62_repeat : forall c N o v o' i j k, is_view c N o -> is_two o = false -> (exists n, o_size o = Ok n /\ acceptable n (Vec v) /\ zlen v <= LONG_MAX) ->
  0 <= i < j -> znth v i = Some k -> znth v j = Some k -> o_slice1 c o (Vec v) = Ok o' -> ~ separate c o'.
Proof. exact repeat_thm. Qed.
Print Assumptions C62_repeat.
Example C62_case : exists o, root (O2 3 4 12) (whole2 3 4) 12 /\ chain_ok (whole2 3 4) [VwSlice2 Reverse (Vec [3; 0]); VwCol (Plain 0)] /\
  Forall vop_once [VwSlice2 Reverse (Vec [3; 0]); VwCol (Plain 0)] /\ o_chain c_dbg (O2 3 4 12) [VwSlice2 Reverse (Vec [3; 0]); VwCol (Plain 0)] = Ok o /\
  o_lin c_dbg o 0 = Ok 11 /\ o_lin c_dbg o 1 = Ok 7 /\ o_lin c_dbg o 2 = Ok 3.
Proof.
  eexists. split; [right; exists 3, 4; unfold LONG_MAX; repeat (split; [lia|]); auto|].
  split; [cbn; unfold is_long, LONG_MIN, LONG_MAX; repeat split; repeat constructor; try (vm_compute; discriminate); cbn; try lia|]. split; [repeat constructor; cbn; lia|]. repeat split; vm_compute; reflexivity.
Qed.
