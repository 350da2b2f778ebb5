(** Temporaries: which operands the library rejects at compile time, and what refers to what afterwards. *)
From Coq Require Import List Arith Bool.
Import ListNotations.
From Verif Require Import Model.Lifetimes Spec.LifetimeSpec Proofs.LifetimeProofs.

Definition f64 : elt := EFlt 1.
Definition A1 : ty := mkty D1 f64 KArray.
Definition A2 : ty := mkty D2 f64 KArray.
Definition I1 : ty := mkty D1 (ESInt 0) KArray.
Definition R1 : ty := mkty D1 f64 KRand.

(** ** C68: rejected operands *)
(** The unary functions, the operators with a number, merge with numbers, exclude, row_reduce, col_reduce, the broadcasts, slices, views,
    rows, columns, diagonals and blocks take every base with suitable elements and dimension, except arrays that are not lvalues
    and random expressions. *)
Theorem C68_accepts_one : forall b t c, guarded1 b ->
  (exists r, call1 b (t, c) = Some r) <-> tkind t <> KRef /\ tkind t <> KRand /\ suits1 b t /\ ~ temp_array (t, c).
Proof. exact guarded1_accepts. Qed.
Print Assumptions C68_accepts_one.
Example C68_accepts_one_case : guarded1 (B1Unary UExp) /\ guarded1 B1Slice /\ suits1 B1Slice A1 /\ temp_array (A1, Pv) /\ temp_array (A1, Xv) /\
  call1 (B1Unary UExp) (A1, Lv) = Some (mkty D1 f64 KExpr, Pv) /\ call1 (B1Unary UExp) (A1, Pv) = None /\ call1 B1Slice (A1, Xv) = None /\
  call1 B1Slice (A1, Lv) = Some (mkty D1 f64 KSlice, Pv) /\ call1 B1Slice (mkty D1 f64 KSlice, Pv) = Some (mkty D1 f64 KSlice, Pv) /\
  call1 (B1Unary UExp) (I1, Lv) = None /\ call1 (B1Unary UExp) (R1, Pv) = None.
Proof. repeat split; discriminate. Qed.

(** The operators and functions on two bases: both operands. *)
Theorem C68_accepts_two : forall b t1 c1 t2 c2, guarded2 b ->
  (exists r, call2 b (t1, c1) (t2, c2) = Some r) <->
  (tkind t1 <> KRef /\ tkind t1 <> KRand /\ ~ temp_array (t1, c1)) /\ (tkind t2 <> KRef /\ tkind t2 <> KRand /\ ~ temp_array (t2, c2)) /\ suits2 b t1 t2.
Proof. exact guarded2_accepts. Qed.
Print Assumptions C68_accepts_two.
Example C68_accepts_two_case : guarded2 (B2Op OAdd) /\ suits2 (B2Op OAdd) A1 A1 /\ call2 (B2Op OAdd) (A1, Lv) (A1, Lv) = Some (mkty D1 f64 KExpr, Pv) /\
  call2 (B2Op OAdd) (A1, Lv) (mkty D1 f64 KExpr, Pv) = Some (mkty D1 f64 KExpr, Pv) /\
  call2 (B2Op OAdd) (A1, Lv) (A1, Pv) = None /\ call2 (B2Op OAdd) (A1, Xv) (A1, Lv) = None /\ call2 B2Merge (A1, Lv) (A1, Pv) = None /\
  call2 (B2Op OAdd) (A1, Lv) (A2, Lv) = None /\ call2 (B2Op OAdd) (A1, Lv) (I1, Lv) = None.
Proof. repeat split; discriminate. Qed.

(** Iterators, pointers and row ranges are taken from lvalues only. *)
Theorem C68_pointers : forall b t c, pointing b -> (exists r, call1 b (t, c) = Some r) <-> tkind t <> KRef /\ suits1 b t /\ c = Lv.
Proof. exact pointing_accepts. Qed.
Print Assumptions C68_pointers.
Example C68_pointers_case : pointing B1Begin /\ suits1 B1Data A1 /\ call1 B1Begin (mkty D1 f64 KExpr, Pv) = None /\ call1 B1Data (A1, Pv) = None /\
  call1 B1Begin (A1, Lv) = Some (mkty D1 f64 KRef, Pv).
Proof. repeat split. Qed.

(** irange and eval() keep nothing of their operand and take temporaries too. *)
Theorem C68_detached : forall b t c, detached b -> (exists r, call1 b (t, c) = Some r) <-> tkind t <> KRef /\ suits1 b t.
Proof. exact detached_accepts. Qed.
Print Assumptions C68_detached.
Example C68_detached_case : detached B1Eval /\ call1 B1Eval (R1, Pv) = Some (A1, Pv) /\ call1 (B1Irange D1) (A1, Pv) = Some (mkty D1 (ESInt 0) KExpr, Pv).
Proof. repeat split. Qed.

(** auto x = t; compiles for everything but the copy of a random expression; the result of random(...) itself may be kept. *)
Theorem C68_declare : forall t G s, typecheck G t = Some s -> (compiles G (PLet t PDone) = true <-> (tkind (fst s) = KRand -> snd s = Pv)).
Proof. exact declares. Qed.
Print Assumptions C68_declare.
Example C68_declare_case : compiles [] (PLet (TNew R1) (PUse (TApp1 B1Eval (TVar 0)) PDone)) = true /\ compiles [R1] (PLet (TVar 0) PDone) = false.
Proof. split; reflexivity. Qed.

(** ** C68: programs *)
(** A program that compiles, declares variables from these functions only (without lval()), and uses them in any order and
    inside any blocks, never touches an object whose lifetime has ended. *)
Theorem C68_no_dangling : forall p, compiles [] p = true -> guarded_prog p -> runs [] p = true.
Proof. exact guarded_safe. Qed.
Print Assumptions C68_no_dangling.
(** auto A = Array1D<double>(..); auto s = A(sl); auto e = exp(s) + 2 * A; { auto B = (e * e).eval(); auto t = B(sl) + s; use t; }
    auto it = e.begin(); use merge(e, A), it *)
Definition p_ok : prog :=
  PLet (TNew A1) (PLet (TApp1 B1Slice (TVar 0)) (PLet (TApp2 (B2Op OAdd) (TApp1 (B1Unary UExp) (TVar 1)) (TApp1 (B1ScalarL OMul) (TVar 0)))
  (PBlock (PLet (TApp1 B1Eval (TApp2 (B2Op OMul) (TVar 2) (TVar 2))) (PLet (TApp2 (B2Op OAdd) (TApp1 B1Slice (TVar 3)) (TVar 1)) (PUse (TVar 4) PDone)))
  (PLet (TApp1 B1Begin (TVar 2)) (PUse (TApp2 B2Merge (TVar 2) (TVar 0)) (PUse (TVar 3) PDone)))))).
Example C68_no_dangling_case : compiles [] p_ok = true /\ guarded_prog p_ok /\ runs [] p_ok = true.
Proof. split; [reflexivity|]. split; [cbv; tauto|reflexivity]. Qed.

(** The remaining functions are safe when declarations do not give them temporary arrays (and transpose not any temporary, and
    no matvec_prod).  A term consumed inside its full expression may contain all of them except matvec_prod, and lval(). *)
Theorem C68_careful : forall p, compiles [] p = true -> careful_prog [] p -> runs [] p = true.
Proof. exact careful_safe. Qed.
Print Assumptions C68_careful.
(** auto A = Array2D<double>(..); auto v = A.row(0); auto g = generate(v, f); auto T = transpose(A);
    B = transpose(A + T).lval() + A (consumed in the same full expression) *)
Definition p_care : prog :=
  PLet (TNew A2) (PLet (TApp1 B1Row (TVar 0)) (PLet (TApp1 (B1Gen f64) (TVar 1)) (PLet (TApp1 B1Transpose (TVar 0))
  (PUse (TApp2 (B2Op OAdd) (TLval (TApp1 B1Transpose (TApp2 (B2Op OAdd) (TVar 0) (TVar 3)))) (TVar 0)) (PUse (TVar 2) PDone))))).
Example C68_careful_case : compiles [] p_care = true /\ careful_prog [] p_care /\ runs [] p_care = true.
Proof.
  split; [reflexivity|]. split; [|reflexivity]. simpl.
  split; [exact I|]. intros s H. injection H as <-. simpl.
  split; [tauto|]. intros s H. injection H as <-. simpl.
  split; [split; [exact I|]; intros s H; injection H as <-; intros [X _]; discriminate X|]. intros s H. injection H as <-. simpl.
  split; [split; [exact I|]; intros s H; injection H as <-; reflexivity|]. intros s H. injection H as <-. simpl.
  repeat split; discriminate.
Qed.

(** ** C68: what compiles and dangles *)
(** Whatever the declarations ts before, a variable declared from generate(t, f), from t({i, j, ...}) or as a reference to an element
    of t, where t is a temporary array, cannot be used. *)
Theorem C68_unguarded_one : forall b ts t G ty, unguarded1 b -> types [] ts = Some G -> typecheck G t = Some (ty, Pv) -> tkind ty = KArray ->
  runs [] (lets ts (let_use (length ts) (TApp1 b t))) = false.
Proof. exact unguarded1_dangles. Qed.
Print Assumptions C68_unguarded_one.
Definition ts0 : list tree := [TNew A1; TApp1 (B1Unary USin) (TVar 0)].
Example C68_unguarded_one_case : exists G, types [] ts0 = Some G /\ typecheck G (TApp1 B1Eval (TVar 1)) = Some (A1, Pv) /\ unguarded1 B1List /\
  compiles [] (lets ts0 (let_use 2 (TApp1 B1List (TApp1 B1Eval (TVar 1))))) = true.
Proof. eexists; repeat split. Qed.

(** generate, pow_prod and tensor_prod of two operands, one of them a temporary array. *)
Theorem C68_unguarded_two : forall b ts t1 t2 G ty1 ty2 c1 c2, unguarded2 b -> types [] ts = Some G ->
  typecheck G t1 = Some (ty1, c1) -> typecheck G t2 = Some (ty2, c2) ->
  (c1 = Pv /\ tkind ty1 = KArray) \/ (c2 = Pv /\ tkind ty2 = KArray) ->
  runs [] (lets ts (let_use (length ts) (TApp2 b t1 t2))) = false.
Proof. exact unguarded2_dangles. Qed.
Print Assumptions C68_unguarded_two.
Example C68_unguarded_two_case : exists G, types [] ts0 = Some G /\ typecheck G (TVar 0) = Some (A1, Lv) /\ typecheck G (TNew I1) = Some (I1, Pv) /\
  unguarded2 B2PowProd /\ compiles [] (lets ts0 (let_use 2 (TApp2 B2PowProd (TVar 0) (TNew I1)))) = true.
Proof. eexists; repeat split. Qed.

(** tensor_prod is deleted only when both operands are rvalues. *)
Theorem C68_tensor_guard : forall t1 c1 t2 c2,
  (exists r, call2 B2Tensor (t1, c1) (t2, c2) = Some r) <->
  tkind t1 <> KRef /\ tkind t2 <> KRef /\ suits2 B2Tensor t1 t2 /\ tkind t1 <> KRand /\ tkind t2 <> KRand /\
  ~ (c1 <> Lv /\ c2 <> Lv /\ (tkind t1 = KArray \/ tkind t2 = KArray)).
Proof. exact tensor_accepts. Qed.
Print Assumptions C68_tensor_guard.
Example C68_tensor_guard_case : call2 B2Tensor (A1, Pv) (A1, Pv) = None /\ call2 B2Tensor (A1, Lv) (A1, Pv) = Some (mkty D2 f64 KExpr, Pv).
Proof. split; reflexivity. Qed.

(** A variable declared from transpose of any temporary - array, slice or expression - cannot be used. *)
Theorem C68_transpose : forall ts t G ty, types [] ts = Some G -> typecheck G t = Some (ty, Pv) ->
  runs [] (lets ts (let_use (length ts) (TApp1 B1Transpose t))) = false.
Proof. exact transpose_dangles. Qed.
Print Assumptions C68_transpose.
Example C68_transpose_case : types [] [TNew A2] = Some [A2] /\ typecheck [A2] (TApp1 B1Rows (TVar 0)) = Some (mkty D2 f64 KSlice, Pv) /\
  compiles [] (lets [TNew A2] (let_use 1 (TApp1 B1Transpose (TApp1 B1Rows (TVar 0))))) = true.
Proof. repeat split. Qed.

(** The result of matvec_prod cannot even be used inside the full expression that calls it. *)
Theorem C68_matvec : forall ts t1 t2 G, types [] ts = Some G -> runs [] (lets ts (PUse (TApp2 B2Matvec t1 t2) PDone)) = false.
Proof. exact matvec_dangles. Qed.
Print Assumptions C68_matvec.
Example C68_matvec_case : types [] [TNew A2; TNew A1] = Some [A2; A1] /\
  compiles [] (lets [TNew A2; TNew A1] (PUse (TApp2 B2Matvec (TVar 0) (TVar 1)) PDone)) = true.
Proof. split; reflexivity. Qed.

(** lval() switches the guards off: a variable declared from a guarded function of t.lval(), t a temporary array, cannot be used. *)
Theorem C68_lval : forall ts b t G ty, types [] ts = Some G -> typecheck G t = Some (ty, Pv) -> tkind ty = KArray -> guarded1 b ->
  runs [] (lets ts (let_use (length ts) (TApp1 b (TLval t)))) = false.
Proof. exact lval_dangles. Qed.
Print Assumptions C68_lval.
Example C68_lval_case : compiles [] (let_use 0 (TApp1 B1Slice (TLval (TNew A1)))) = true.
Proof. reflexivity. Qed.

(** "What compiles does not dangle" is therefore false, for each of: *)
(** generate(Array1D<double>(..), f) *)
Theorem C68_generate_refuted : exists p, compiles [] p = true /\ runs [] p = false.
Proof. exists (let_use 0 (TApp1 (B1Gen f64) (TNew A1))). split; reflexivity. Qed.
Print Assumptions C68_generate_refuted.
(** auto e = pow_prod(Array1D<double>(..), k), k a variable *)
Theorem C68_pow_prod_refuted : exists p, compiles [] p = true /\ runs [] p = false.
Proof. exists (lets [TNew I1] (let_use 1 (TApp2 B2PowProd (TNew A1) (TVar 0)))). split; reflexivity. Qed.
Print Assumptions C68_pow_prod_refuted.
(** auto e = tensor_prod(a, Array1D<double>(..)) *)
Theorem C68_tensor_refuted : exists p, compiles [] p = true /\ runs [] p = false.
Proof. exists (lets [TNew A1] (let_use 1 (TApp2 B2Tensor (TVar 0) (TNew A1)))). split; reflexivity. Qed.
Print Assumptions C68_tensor_refuted.
(** auto s = Array1D<double>(..)({0, 1}) *)
Theorem C68_index_list_refuted : exists p, compiles [] p = true /\ runs [] p = false.
Proof. exists (let_use 0 (TApp1 B1List (TNew A1))). split; reflexivity. Qed.
Print Assumptions C68_index_list_refuted.
(** auto T = transpose(A + A) *)
Theorem C68_transpose_refuted : exists p, compiles [] p = true /\ runs [] p = false.
Proof. exists (lets [TNew A2] (let_use 1 (TApp1 B1Transpose (TApp2 (B2Op OAdd) (TVar 0) (TVar 0))))). split; reflexivity. Qed.
Print Assumptions C68_transpose_refuted.
(** B = matvec_prod(A, x) *)
Theorem C68_matvec_refuted : exists p, compiles [] p = true /\ runs [] p = false.
Proof. exists (lets [TNew A2; TNew A1] (PUse (TApp2 B2Matvec (TVar 0) (TVar 1)) PDone)). split; reflexivity. Qed.
Print Assumptions C68_matvec_refuted.
