(** Property C88: copies for C functions, comparison with lists, the size in bytes. *)
From Coq Require Import ZArith Reals Lra Lia.
From Flocq Require Import Core BinarySingleNaN.
From Verif Require Import Base.Outcome Base.ZList Model.IntModel Model.Index Model.Array1D Model.Array2D Model.Expr Model.FloatModel Model.Handoff.
From Verif Require Import Spec.ArraySpec Spec.ExprSpec Spec.MatrixSpec Spec.Configs Proofs.ExprMore Proofs.HandoffProofs.
Import ListNotations.
Local Open Scope Z_scope.

(** ** C88 *)
(** blas_array of any expression: null exactly for no elements, otherwise a new block with the elements in order; the first element that cannot be
    evaluated ends it, and so does lack of memory. *)
Theorem C88_blas_array : forall (V : Type) (zero : V) c (A : src1 V) l, yields A l ->
  (l = [] -> blas_array zero c A = Ok None) /\
  (l <> [] -> amax c < zlen l -> blas_array zero c A = Fail BadAlloc) /\
  (l <> [] -> zlen l <= amax c -> forall x, l = map Ok x -> blas_array zero c A = Ok (Some x)) /\
  (zlen l <= amax c -> forall x e k, l = map Ok x ++ e :: k -> (forall v, e <> Ok v) -> blas_array zero c A = match e with Fail f => Fail f | _ => UB end).
Proof. exact @blas_array_thm. Qed.
Print Assumptions C88_blas_array.

(** equal(A, list) and equal(list, A): the same number of elements, each equal to its counterpart; different sizes are not an error. *)
Theorem C88_equal_list : forall (V : Type) (zero : V) c, cfg_ok c -> forall (eqb : V -> V -> bool) (A : src1 V) x l, yields A (map Ok x) -> zlen l <= amax c -> exists b b',
  equal_list zero c (neqo eqb) A l = Ok b /\ (b = true <-> zlen x = zlen l /\ forall i u v, znth x i = Some u -> znth l i = Some v -> eqb u v = true) /\
  list_equal zero c (neqo eqb) l A = Ok b' /\ (b' = true <-> zlen x = zlen l /\ forall i u v, znth x i = Some u -> znth l i = Some v -> eqb v u = true).
Proof. exact @equal_list_thm. Qed.
Print Assumptions C88_equal_list.
Theorem C88_equal_list_matrix : forall (V : Type) (zero : V) c, cfg_ok c -> forall (eqb : V -> V -> bool) (A : src2 V) m n f L,
  yields2 A (mkmx m n (fun i j => Ok (f i j))) -> wfm L -> zlen L * ncols L <= amax c -> exists b b',
  equal_list2 zero c (neqo eqb) A L = Ok b /\ (b = true <-> m = zlen L /\ n = ncols L /\ forall i j v, mget L i j = Some v -> eqb (f i j) v = true) /\
  list_equal2 zero c (neqo eqb) L A = Ok b' /\ (b' = true <-> m = zlen L /\ n = ncols L /\ forall i j v, mget L i j = Some v -> eqb v (f i j) = true).
Proof. exact @equal_list2_thm. Qed.
Print Assumptions C88_equal_list_matrix.
(** A list whose rows differ in length is reported in checked builds, whatever it is compared with. *)
Theorem C88_equal_list_ragged : forall (V : Type) (zero : V) c, cfg_ok c -> forall (eqb : V -> V -> bool) (A : src2 V) L q,
  checked c = true -> In q L -> zlen q <> ncols L -> zlen L * ncols L <= amax c ->
  equal_list2 zero c (neqo eqb) A L = Fail (report c) /\ list_equal2 zero c (neqo eqb) L A = Fail (report c).
Proof. exact @equal_ragged. Qed.
Print Assumptions C88_equal_list_ragged.

(** bytes() of n elements of w bytes each is exact; kbytes(), mbytes() and gbytes() divide it, once rounded to a double, by powers of 1024 without a
    further rounding, so they are exact up to 2^53 bytes. *)
Theorem C88_bytes : forall n w, 0 <= n -> 0 < w -> n * w <= LONG_MAX -> bytes n w = Ok (n * w) /\ exists k m g, kbytes n w = Ok k /\ mbytes n w = Ok m /\ gbytes n w = Ok g /\
  is_finite k = true /\ is_finite m = true /\ is_finite g = true /\
  let z := round radix2 (SpecFloat.fexp 53 1024) ZnearestE (IZR (n * w)) in
  B2R k = (z / 1024)%R /\ B2R m = (z / (1024 * 1024))%R /\ B2R g = (z / (1024 * 1024 * 1024))%R /\ (n * w <= 2 ^ 53 -> z = IZR (n * w)).
Proof. exact size_thm. Qed.
Print Assumptions C88_bytes.

Example C88_case_blas :
  let A := mksrc1 3 (fun i => Ok (i * i)) in let B := mksrc1 3 (fun i => if i <? 2 then Ok i else Fail Throw) in
  yields A (map Ok [0; 1; 4]) /\ yields B (map Ok [0; 1] ++ Fail Throw :: []) /\ blas_array 0 c_dbg A = Ok (Some [0; 1; 4]) /\ blas_array 0 c_dbg B = Fail Throw.
Proof.
  cbn zeta. assert (H : forall i, 0 <= i < 3 -> i = 0 \/ i = 1 \/ i = 2) by lia.
  split; [split; [reflexivity|split; [vm_compute; discriminate|]]; intros i Hi; change (zlen _) with 3 in Hi; destruct (H i Hi) as [->| [->| ->]]; reflexivity|].
  split; [split; [reflexivity|split; [vm_compute; discriminate|]]; intros i Hi; change (zlen _) with 3 in Hi; destruct (H i Hi) as [->| [->| ->]]; reflexivity|]. split; vm_compute; reflexivity.
Qed.
Example C88_case_equal :
  let A := mksrc1 2 (fun i => Ok (i + 7)) in let M := mksrc2 2 1 2 (fun i j => Ok i) (fun i => Ok i) in
  equal_list 0 c_dbg (neqo Z.eqb) A [7; 8] = Ok true /\ equal_list 0 c_dbg (neqo Z.eqb) A [7; 9] = Ok false /\ list_equal 0 c_dbg (neqo Z.eqb) [7; 8; 9] A = Ok false /\
  equal_list2 0 c_dbg (neqo Z.eqb) M [[0]; [1]] = Ok true /\ equal_list2 0 c_dbg (neqo Z.eqb) M [[0; 1]] = Ok false /\ list_equal2 0 c_dbg (neqo Z.eqb) [[0]; [1; 2]] M = Fail Throw.
Proof. cbn zeta. repeat split; vm_compute; reflexivity. Qed.
Example C88_case_bytes : bytes 1000 8 = Ok 8000 /\ exists k, kbytes 1000 8 = Ok k /\ B2R k = (7.8125)%R.
Proof.
  destruct (C88_bytes 1000 8 ltac:(lia) ltac:(lia) ltac:(vm_compute; discriminate)) as (E & k & m & g & Ek & _ & _ & _ & _ & _ & H). cbn zeta in H. destruct H as (Hk & _ & _ & Hz).
  split; [exact E|]. exists k. split; [exact Ek|]. rewrite Hk, Hz by (vm_compute; discriminate). change (1000 * 8) with 8000. lra.
Qed.
