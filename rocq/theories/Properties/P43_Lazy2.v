(** C89: matrix expressions kept in variables, and matrix assignments whose right side reads their target. *)
From Verif Require Import Base.Outcome Base.ZList Model.Index Model.Slice Model.Array1D Model.Array2D Model.Expr Model.Store1D Model.Store2D Model.Lazy2.
From Verif Require Import Spec.Configs Spec.ArraySpec Spec.MatrixSpec Spec.Matrix2Spec Spec.Store2DSpec Spec.ExprSpec Spec.Lazy2Spec.
From Verif Require Import Proofs.ExprProofs Proofs.ExprMore Proofs.MatrixProofs Proofs.Lazy2Proofs Proofs.Lazy2Thms.

(** A = x for an expression x of the shape of A, in every build: the elements are replaced row by row, each by the value x has
    when its turn comes, in which elements of A already replaced appear with their new values; a value that fails ends the
    assignment there, with the elements before it replaced and the others untouched. *)
Theorem C89_assign : forall (V : Type) (zero : V) (c : cfg) st (w : list (list (list V))) hs k A x,
  cfg_ok c -> represents2 c st w -> spelled2 x = true -> owned2 x -> znth w k = Some A -> shape2 w x = Some (zlen A, ncols A) ->
  match gstep zero c (st, hs) (DSet k x) with
  | Next s Done => snd s = hs /\ exists R, swept w k A x (zlen A) 0 R /\ represents2 c (fst s) (zupd w k R)
  | Next s (Failed f) => snd s = hs /\ exists R i j, 0 <= i < zlen A /\ 0 <= j < ncols A /\ swept w k A x i j R /\
      value2 (midway w k A R i j) x i j = Fail f /\ represents2 c (fst s) (zupd w k R)
  | Crash => exists R i j, 0 <= i < zlen A /\ 0 <= j < ncols A /\ swept w k A x i j R /\ value2 (midway w k A R i j) x i j = UB
  | _ => False
  end.
Proof. exact (fun V zero c st w hs k A x Hc => assign2_thm zero c Hc st w hs k A x). Qed.
Print Assumptions C89_assign.
(** That result is the only one: a matrix with that description is what the array holds afterwards. *)
Theorem C89_assign_exact : forall (V : Type) (zero : V) (c : cfg) st (w : list (list (list V))) hs k A x R,
  cfg_ok c -> represents2 c st w -> spelled2 x = true -> owned2 x -> znth w k = Some A -> shape2 w x = Some (zlen A, ncols A) ->
  swept w k A x (zlen A) 0 R -> exists st', gstep zero c (st, hs) (DSet k x) = Next (st', hs) Done /\ represents2 c st' (zupd w k R).
Proof. exact (fun V zero c st w hs k A x R Hc => assign2_exact zero c Hc st w hs k A x R). Qed.
Print Assumptions C89_assign_exact.
(** Where there are checks: any other shape, of x or inside x, is reported and nothing is changed; also for A op= x. *)
Theorem C89_mismatch : forall (V : Type) (zero : V) (c : cfg) st (w : list (list (list V))) hs k A x,
  cfg_ok c -> checked c = true -> represents2 c st w -> spelled2 x = true -> owned2 x -> (forall k', In k' (names_in x) -> znth w k' <> None) ->
  znth w k = Some A -> shape2 w x <> Some (zlen A, ncols A) ->
  gstep zero c (st, hs) (DSet k x) = Next (st, hs) (Failed (report c)) /\ forall f, gstep zero c (st, hs) (DUpd k f x) = Next (st, hs) (Failed (report c)).
Proof. exact (fun V zero c st w hs k A x Hc => assign2_mismatch zero c Hc st w hs k A x). Qed.
Print Assumptions C89_mismatch.
(** If A is nowhere transposed in x, which may otherwise name A anywhere, A = x gives A the matrix x was. *)
Theorem C89_upright : forall (V : Type) (zero : V) (c : cfg) st (w : list (list (list V))) hs k A x R,
  cfg_ok c -> represents2 c st w -> spelled2 x = true -> owned2 x -> znth w k = Some A -> upright k x = true ->
  matrix_of w x R -> zlen R = zlen A -> ncols R = ncols A ->
  exists st', gstep zero c (st, hs) (DSet k x) = Next (st', hs) Done /\ represents2 c st' (zupd w k R).
Proof. exact (fun V zero c st w hs k A x R Hc => assign2_upright zero c Hc st w hs k A x R). Qed.
Print Assumptions C89_upright.
(** A.resize_and_assign(x) and Array2D B = x give the matrix x was, transposed or not. *)
Theorem C89_fresh : forall (V : Type) (zero : V) (c : cfg) st (w : list (list (list V))) hs k x R,
  cfg_ok c -> represents2 c st w -> spelled2 x = true -> owned2 x -> matrix_of w x R -> zlen R * ncols R <= amax c -> 0 <= k < zlen w ->
  (exists st', gstep zero c (st, hs) (DRes k x) = Next (st', hs) Done /\ represents2 c st' (zupd w k R)) /\
  (exists st', gstep zero c (st, hs) (DNew x) = Next (st', hs) Done /\ represents2 c st' (w ++ [R])).
Proof. exact (fun V zero c st w hs k x R Hc => fresh2 zero c Hc st w hs k x R). Qed.
Print Assumptions C89_fresh.
(** A op= x is A = A op x, in results, failures and undefinedness, also when x reads A. *)
Theorem C89_compound : forall (V : Type) (zero : V) (c : cfg) st (w : list (list (list V))) hs k A f x,
  cfg_ok c -> represents2 c st w -> spelled2 x = true -> owned2 x -> znth w k = Some A -> shape2 w x = Some (zlen A, ncols A) ->
  gstep zero c (st, hs) (DUpd k f x) = gstep zero c (st, hs) (DSet k (TBin f (TArr k) x)).
Proof. exact (fun V zero c st w hs k A f x Hc => compound2 zero c Hc st w hs k A f x). Qed.
Print Assumptions C89_compound.
(** A = transpose(A) for a square matrix: not the transpose, but the lower triangle mirrored.  It is the transpose only if A
    was symmetric. *)
Theorem C89_transpose_self : forall (V : Type) (zero : V) (c : cfg) st (w : list (list (list V))) hs k A,
  cfg_ok c -> represents2 c st w -> znth w k = Some A -> zlen A = ncols A ->
  exists st' R, gstep zero c (st, hs) (DSet k (TTrans (TArr k))) = Next (st', hs) Done /\ represents2 c st' (zupd w k R) /\
    zlen R = zlen A /\ rect (ncols A) R /\ (forall i j, 0 <= i < zlen A -> 0 <= j < zlen A -> mget R i j = mget A (Z.max i j) (Z.min i j)) /\
    (transpose_of A R <-> symmetric A).
Proof. exact (fun V zero c st w hs k A Hc => transpose_self zero c Hc st w hs k A). Qed.
Print Assumptions C89_transpose_self.
(** A op= transpose(A): below the diagonal the operand is the element already changed. *)
Theorem C89_update_transpose : forall (V : Type) (zero : V) (c : cfg) st (w : list (list (list V))) hs k A (f : V -> V -> outcome V) (g : V -> V -> V),
  cfg_ok c -> represents2 c st w -> znth w k = Some A -> zlen A = ncols A -> (forall u v, f u v = Ok (g u v)) ->
  exists st' R, gstep zero c (st, hs) (DUpd k f (TTrans (TArr k))) = Next (st', hs) Done /\ represents2 c st' (zupd w k R) /\
    forall i j u v, 0 <= i < zlen A -> 0 <= j < zlen A -> mget A i j = Some u -> mget A j i = Some v ->
      mget R i j = Some (if i <=? j then g u v else g u (g v u)).
Proof. exact (fun V zero c st w hs k A f g Hc => add_transpose zero c Hc st w hs k A f g). Qed.
Print Assumptions C89_update_transpose.
(** A matrix expression kept in a variable while arrays change, as long as those it names keep their shapes, is the same as
    the expression built afterwards. *)
Theorem C89_deferred : forall (V : Type) (zero : V) (c : cfg) (st st' : list (arr2 V)) x ops t u,
  spelled2 x = true -> keepable x = true -> snd (run (gstep zero c) (st, []) [DLet x]) = [Done] -> run (step2 zero c) st ops = (Next st' Done, t) ->
  (forall k, In k (names_in x) -> option_map (fun a => (drows a, dcols a)) (znth st k) = option_map (fun a => (drows a, dcols a)) (znth st' k)) ->
  exists r s, run (gstep zero c) (st, []) (DLet x :: map DOp ops ++ u) = (r, Done :: t ++ s) /\
              run (gstep zero c) (st, []) (map DOp ops ++ DLet x :: u) = (r, t ++ Done :: s).
Proof. exact (fun V zero c => deferred2 zero c). Qed.
Print Assumptions C89_deferred.
(** Keeping one more expression changes nothing for statements that do not use it: earlier variables keep what they had. *)
Theorem C89_variables : forall (V : Type) (zero : V) (c : cfg) (st : list (arr2 V)) hs y ts,
  snd (run (gstep zero c) (st, hs) [DLet y]) = [Done] -> forallb (stays_below (zlen hs)) ts = true ->
  snd (run (gstep zero c) (st, hs) (DLet y :: ts)) = Done :: snd (run (gstep zero c) (st, hs) ts) /\
  match fst (run (gstep zero c) (st, hs) (DLet y :: ts)), fst (run (gstep zero c) (st, hs) ts) with
  | Next s ob, Next s' ob' => fst s = fst s' /\ ob = ob'
  | Crash, Crash => True
  | _, _ => False
  end.
Proof. exact (fun V zero c => apart_vars zero c). Qed.
Print Assumptions C89_variables.
(** A transpose kept while the matrix changes its shape keeps the old dimensions, and T(i, j) is what is now stored at place
    j * cols + i: the wrong element, or undefined behaviour, with or without checks. *)
Theorem C89_stale_transpose : forall (V : Type) (zero : V) (c : cfg) (st st' : list (arr2 V)) w w' k M M' ops t i j,
  cfg_ok c -> represents2 c st w -> znth w k = Some M -> run (step2 zero c) st ops = (Next st' Done, t) -> represents2 c st' w' -> znth w' k = Some M' ->
  0 <= i < ncols M -> 0 <= j < zlen M -> j * ncols M' + i <= LONG_MAX ->
  let r := run (gstep zero c) (st, []) (DLet (TTrans (TArr k)) :: map DOp ops ++ [DRows 0; DCols 0; DGet 0 (Plain i) (Plain j)]) in
  match znth (concat M') (j * ncols M' + i) with
  | Some v => snd r = Done :: t ++ [Number (ncols M); Number (zlen M); Value v]
  | None => fst r = Crash
  end.
Proof. exact (fun V zero c st st' w w' k M M' ops t i j Hc => stale_transpose zero c Hc st st' w w' k M M' ops t i j). Qed.
Print Assumptions C89_stale_transpose.

Definition plus (x y : Z) : outcome Z := Ok (x + y).
Definition over (x y : Z) : outcome Z := if y =? 0 then Fail Throw else Ok (x / y).
Definition sq : arr2 Z := mkarr2 2 2 (mkarr [1; 2; 3; 4] 4).
Ltac holds2 := repeat constructor; vm_compute; congruence.
Lemma sq_ok c : 4 <= amax c -> represents2 c [sq] [[[1; 2]; [3; 4]]].
Proof. intros H. constructor; [|constructor]. split; [holds2|exact H]. Qed.
Lemma owned_identity c n : 0 <= n <= LONG_MAX -> n * n <= LONG_MAX -> owned2 (TOwn (x_identity c 1 0 n)).
Proof.
  intros Hn Hp. destruct (ExprMore.identity_ok c 1 0 n Hn Hp) as (B & E & Y). exists B. split; [exact E|]. destruct Y as (E1 & E2 & E3 & E4 & E5 & E6 & Y1 & Y2).
  cbn [mr mc mel] in *. split; [|lia]. unfold yields2. cbn [mr mc mel]. rewrite E1, E2. repeat split; auto; try lia; intros i j Hi Hj; now rewrite Y1, ?Y2.
Qed.

(** "A = transpose(A) transposes A": false, in every build. *)
Theorem C89_transpose_refuted : forall c, cfg_ok c -> 4 <= amax c ->
  exists R st', gstep 0 c ([sq], []) (DSet 0 (TTrans (TArr 0))) = Next (st', []) Done /\ represents2 c st' [R] /\ ~ transpose_of [[1; 2]; [3; 4]] R.
Proof.
  intros c Hc H. destruct (transpose_self 0 c Hc [sq] [[[1; 2]; [3; 4]]] [] 0 [[1; 2]; [3; 4]] (sq_ok c H) eq_refl eq_refl) as (st' & R & E & HR & _ & _ & _ & HT).
  exists R, st'. split; [exact E|]. split; [exact HR|]. intros K. apply HT in K. specialize (K 0 1). vm_compute in K. discriminate.
Qed.
Print Assumptions C89_transpose_refuted.
(** "With all checks on, a valid index into a kept transpose reads an element A has there": false. *)
Theorem C89_stale_refuted : let M := [[1; 2]; [3; 4]; [5; 6]] in let M' := [[7]; [8]; [9]] in
  let ops := [AssignList2 0 M; Resize2 0 3 1 false; AssignList2 0 M'] in
  checked c_dbg = true /\ mget M' 0 1 = None /\
  run (gstep 0 c_dbg) ([mkarr2 3 2 (mkarr [0; 0; 0; 0; 0; 0] 6)], []) (DLet (TTrans (TArr 0)) :: map DOp ops ++ [DRows 0; DCols 0; DGet 0 (Plain 1) (Plain 0); DGet 0 (Plain 1) (Plain 2)]) =
    (Crash, [Done; Done; Done; Done; Number 2; Number 3; Value 8]).
Proof. cbv zeta. split; [reflexivity|]. split; vm_compute; reflexivity. Qed.
Print Assumptions C89_stale_refuted.

(** A = transpose(A) + 10 / A, with a zero reached in the second row after the first was replaced: the failure leaves the first row changed. *)
Example C89_case_assign : let A := [[1; 2]; [0; 4]] in let x := TBin plus (TTrans (TArr 0)) (TScalL over 10 (TArr 0)) in
  let st := [mkarr2 2 2 (mkarr [1; 2; 0; 4] 4)] in
  cfg_ok c_off /\ represents2 c_off st [A] /\ spelled2 x = true /\ owned2 x /\ shape2 [A] x = Some (zlen A, ncols A) /\
  swept [A] 0 A x 1 0 [[11; 5]; [0; 4]] /\
  gstep 0 c_off (st, []) (DSet 0 x) = Next ([mkarr2 2 2 (mkarr [11; 5; 0; 4] 4)], []) (Failed Throw).
Proof.
  cbv zeta. split; [vm_compute; split; congruence|]. split; [holds2|]. split; [reflexivity|]. split; [cbn; auto|]. split; [reflexivity|]. split; [|vm_compute; reflexivity].
  split; [reflexivity|]. split; [repeat constructor|]. intros i j Hi Hj. change (zlen [[1; 2]; [0; 4]]) with 2 in Hi. change (ncols [[1; 2]; [0; 4]]) with 2 in Hj.
  assert (i = 0 \/ i = 1) as [->| ->] by lia; assert (j = 0 \/ j = 1) as [->| ->] by lia; vm_compute; eauto.
Qed.
(** The whole sweep for A = transpose(A) + identity. *)
Example C89_case_exact : let A := [[1; 2]; [3; 4]] in let x := TBin plus (TTrans (TArr 0)) (TOwn (x_identity c_dbg 1 0 2)) in
  represents2 c_dbg [sq] [A] /\ spelled2 x = true /\ owned2 x /\ shape2 [A] x = Some (zlen A, ncols A) /\ swept [A] 0 A x 2 0 [[2; 3]; [3; 5]] /\
  gstep 0 c_dbg ([sq], []) (DSet 0 x) = Next ([mkarr2 2 2 (mkarr [2; 3; 3; 5] 4)], []) Done.
Proof.
  cbv zeta. split; [apply sq_ok; vm_compute; congruence|]. split; [reflexivity|]. split; [|split; [reflexivity|split; [|vm_compute; reflexivity]]].
  - split; [exact I|]. apply owned_identity; vm_compute; [split; congruence|congruence].
  - split; [reflexivity|]. split; [repeat constructor|]. intros i j Hi Hj. change (zlen [[1; 2]; [3; 4]]) with 2 in Hi. change (ncols [[1; 2]; [3; 4]]) with 2 in Hj.
    assert (i = 0 \/ i = 1) as [->| ->] by lia; assert (j = 0 \/ j = 1) as [->| ->] by lia; vm_compute; eauto.
Qed.
Example C89_case_mismatch : let w := [[[1; 2]; [3; 4]]; [[1; 2; 3]]] in let x := TBin plus (TArr 0) (TTrans (TArr 1)) in
  checked c_dbg = true /\ represents2 c_dbg [sq; mkarr2 1 3 (mkarr [1; 2; 3] 3)] w /\ owned2 x /\ (forall k', In k' (names_in x) -> znth w k' <> None) /\ shape2 w x = None /\
  shape2 w (TTrans (TArr 1)) = Some (3, 1) /\ snd (run (gstep 0 c_dbg) ([sq; mkarr2 1 3 (mkarr [1; 2; 3] 3)], []) [DSet 0 x; DUpd 0 plus (TTrans (TArr 1))]) = [Failed Throw; Failed Throw].
Proof. cbv zeta. split; [reflexivity|]. split; [holds2|]. split; [split; exact I|]. split; [intros k' [<-|[<-|[]]]; discriminate|]. repeat split. Qed.
(** A = (A + 1) + transpose(B). *)
Example C89_case_upright : let w := [[[1; 2]; [3; 4]]; [[10; 20]; [30; 40]]] in let x := TBin plus (TScalR plus (TArr 0) 1) (TTrans (TArr 1)) in
  represents2 c_silent [sq; mkarr2 2 2 (mkarr [10; 20; 30; 40] 4)] w /\ spelled2 x = true /\ owned2 x /\ upright 0 x = true /\ matrix_of w x [[12; 33]; [24; 45]] /\
  gstep 0 c_silent ([sq; mkarr2 2 2 (mkarr [10; 20; 30; 40] 4)], []) (DSet 0 x) = Next ([mkarr2 2 2 (mkarr [12; 33; 24; 45] 4); mkarr2 2 2 (mkarr [10; 20; 30; 40] 4)], []) Done.
Proof.
  cbv zeta. split; [holds2|]. split; [reflexivity|]. split; [cbn; auto|]. split; [reflexivity|]. split; [|vm_compute; reflexivity].
  split; [split; [repeat constructor|intros _; reflexivity]|]. split; [reflexivity|]. intros i j v E.
  destruct (MatrixProofs.mget_in 2 [[12; 33]; [24; 45]] i j v ltac:(repeat constructor) E) as (Hi & Hj). change (zlen [[12; 33]; [24; 45]]) with 2 in Hi.
  assert (i = 0 \/ i = 1) as [->| ->] by lia; assert (j = 0 \/ j = 1) as [->| ->] by lia; vm_compute in *; congruence.
Qed.
(** resize_and_assign does transpose. *)
Example C89_case_fresh : let w := [[[1; 2; 3]; [4; 5; 6]]] in let st := [mkarr2 2 3 (mkarr [1; 2; 3; 4; 5; 6] 6)] in
  represents2 c_dbg st w /\ matrix_of w (TTrans (TArr 0)) [[1; 4]; [2; 5]; [3; 6]] /\
  gstep 0 c_dbg (st, []) (DRes 0 (TTrans (TArr 0))) = Next ([mkarr2 3 2 (mkarr [1; 4; 2; 5; 3; 6] 6)], []) Done /\
  gstep 0 c_dbg (st, []) (DSet 0 (TTrans (TArr 0))) = Next (st, []) (Failed Throw).
Proof.
  cbv zeta. split; [holds2|]. split; [|split; vm_compute; reflexivity]. split; [split; [repeat constructor|intros _; reflexivity]|]. split; [reflexivity|]. intros i j v E.
  destruct (MatrixProofs.mget_in 2 [[1; 4]; [2; 5]; [3; 6]] i j v ltac:(repeat constructor) E) as (Hi & Hj). change (zlen [[1; 4]; [2; 5]; [3; 6]]) with 3 in Hi.
  assert (i = 0 \/ i = 1 \/ i = 2) as [->| [->| ->]] by lia; assert (j = 0 \/ j = 1) as [->| ->] by lia; vm_compute in *; congruence.
Qed.
(** A += transpose(A) for [[1, 2], [3, 4]]: the element below the diagonal becomes 3 + (2 + 3). *)
Example C89_case_compound : cfg_ok c_dbg /\ represents2 c_dbg [sq] [[[1; 2]; [3; 4]]] /\ shape2 [[[1; 2]; [3; 4]]] (TTrans (TArr 0)) = Some (2, 2) /\ (forall u v, plus u v = Ok (u + v)) /\
  gstep 0 c_dbg ([sq], []) (DUpd 0 plus (TTrans (TArr 0))) = Next ([mkarr2 2 2 (mkarr [2; 5; 8; 8] 4)], []) Done /\
  gstep 0 c_dbg ([sq], []) (DSet 0 (TTrans (TArr 0))) = Next ([mkarr2 2 2 (mkarr [1; 3; 3; 4] 4)], []) Done.
Proof. split; [vm_compute; split; congruence|]. split; [apply sq_ok; vm_compute; congruence|]. repeat split. Qed.
Example C89_case_deferred : let st := [sq; mkarr2 1 1 (mkarr [9] 1)] in let x := TBin plus (TTrans (TArr 0)) (TArr 0) in
  let ops := [Write2 0 (Plain 0) (Plain 1) 7; Resize2 1 2 2 true] in let st' := [mkarr2 2 2 (mkarr [1; 7; 3; 4] 4); mkarr2 2 2 (mkarr [9; 0; 0; 0] 4)] in
  spelled2 x = true /\ keepable x = true /\ snd (run (gstep 0 c_dbg) (st, []) [DLet x]) = [Done] /\ run (step2 0 c_dbg) st ops = (Next st' Done, [Done; Done]) /\
  (forall k, In k (names_in x) -> option_map (fun a => (drows a, dcols a)) (znth st k) = option_map (fun a => (drows a, dcols a)) (znth st' k)) /\
  snd (run (gstep 0 c_dbg) (st, []) (DLet x :: map DOp ops ++ [DGet 0 (Plain 1) (Plain 0); DLet (TTrans (THeld 0)); DGet 1 (Plain 0) (Plain 0)])) = [Done; Done; Done; Value 10; Done; Value 2].
Proof.
  cbv zeta. split; [reflexivity|]. split; [reflexivity|]. split; [vm_compute; reflexivity|]. split; [vm_compute; reflexivity|]. split; [|vm_compute; reflexivity].
  intros k [<-|[<-|[]]]; reflexivity.
Qed.
Example C89_case_variables : let st := [mkarr2 1 2 (mkarr [3; 4] 2)] in let hs := [GTrans 2 1 (GArr 0)] in let ts := [DRows 0; DGet 0 (Plain 1) (Plain 0); DNew (THeld 0)] in
  snd (run (gstep 0 c_dbg) (st, hs) [DLet (TArr 0)]) = [Done] /\ forallb (stays_below (zlen hs)) ts = true /\
  snd (run (gstep 0 c_dbg) (st, hs) (DLet (TArr 0) :: ts)) = [Done; Number 2; Value 4; Done].
Proof. cbv zeta. split; [reflexivity|]. split; vm_compute; reflexivity. Qed.
Example C89_case_stale : let st := [mkarr2 3 2 (mkarr [1; 2; 3; 4; 5; 6] 6)] in let st' := [mkarr2 3 1 (mkarr [0; 0; 0] 3)] in
  represents2 c_off st [[[1; 2]; [3; 4]; [5; 6]]] /\ run (step2 0 c_off) st [Resize2 0 3 1 false] = (Next st' Done, [Done]) /\ represents2 c_off st' [[[0]; [0]; [0]]] /\
  znth (concat [[0]; [0]; [0]]) (1 * 1 + 1) = Some 0 /\ znth (concat [[0]; [0]; [0]]) (2 * 1 + 1) = None.
Proof. cbv zeta. split; [holds2|]. split; [vm_compute; reflexivity|]. split; [holds2|]. split; reflexivity. Qed.
