(** C76: lazy expressions kept in variables, and assignments whose right side reads their target. *)
From Verif Require Import Base.Outcome Base.ZList Model.IntModel Model.Index Model.Slice Model.Array1D Model.View2D Model.Expr Model.Store1D Model.Lazy.
From Verif Require Import Spec.Configs Spec.ArraySpec Spec.SliceSpec Spec.Store1DSpec Spec.View2DSpec Spec.StaleSpec Spec.LazySpec.
From Verif Require Import Proofs.Store1DProofs Proofs.LazyProofs Proofs.LazyThms.

(** Programs that build expressions, keep them, change the arrays in any way, read the kept expressions, build further ones
    from them and assign them to arrays and views: the observable results are those of the meaning in LazySpec.v, in every
    build, including when they are undefined. *)
Theorem C76_program : forall (V : Type) (zero : V) (c : cfg) (st : list (arr V)) (w : list (list V)) (ts : list (lstm V)),
  cfg_ok c -> represents c st w -> lprogram zero c (w, []) ts ->
  snd (run (lstep zero c) (st, []) ts) = snd (run (spec_lstep zero c) (w, []) ts) /\
  match fst (run (spec_lstep zero c) (w, []) ts) with
  | Crash => fst (run (lstep zero c) (st, []) ts) = Crash
  | Next s ob => exists st' hs, fst (run (lstep zero c) (st, []) ts) = Next (st', hs) ob /\ represents c st' (fst s)
  end.
Proof. exact (fun V zero c st w ts Hc => program_lazy zero c Hc st w ts). Qed.
Print Assumptions C76_program.
(** An expression kept in a variable while arrays change, as long as those it names keep their sizes, is the same as the
    expression built afterwards. *)
Theorem C76_deferred : forall (V : Type) (zero : V) (c : cfg) (st st' : list (arr V)) (x : xt V) (ops : list (op1 V)) t (u : list (lstm V)),
  spelled x = true -> snd (run (lstep zero c) (st, []) [LLet x]) = [Done] -> run (step1 zero c) st ops = (Next st' Done, t) ->
  (forall k, In k (names x) -> option_map an (znth st k) = option_map an (znth st' k)) ->
  exists r s, run (lstep zero c) (st, []) (LLet x :: map LOp ops ++ u) = (r, Done :: t ++ s) /\
              run (lstep zero c) (st, []) (map LOp ops ++ LLet x :: u) = (r, t ++ Done :: s).
Proof. exact (fun V zero c => deferred zero c). Qed.
Print Assumptions C76_deferred.
(** When the sizes do change: f(A, B) follows the size of A; beyond the end of B it is undefined, in every build. *)
Theorem C76_resized : forall (V : Type) (zero : V) (c : cfg) st w w' (f : V -> V -> outcome V) j k l1 l2 l1' l2' ops ob t i,
  cfg_ok c -> represents c st w -> znth w j = Some l1 -> znth w k = Some l2 -> zlen l1 = zlen l2 ->
  Forall op_long ops -> valid_run (spec_step1 zero c) w ops -> run (spec_step1 zero c) w ops = (Next w' ob, t) -> znth w' j = Some l1' -> znth w' k = Some l2' ->
  is_long i -> checked c = true \/ 0 <= i < zlen l1' ->
  let r := run (lstep zero c) (st, []) (LLet (XBin f (XArr j) (XArr k)) :: map LOp ops ++ [LSize 0; LGet 0 (Plain i)]) in
  let got v := snd r = Done :: t ++ [Number (zlen l1'); v] in
  if in_range (zlen l1') i then
    match znth l1' i, znth l2' i with
    | Some a, Some b => match f a b with Ok v => got (Value v) | Fail e => got (Failed e) | UB => fst r = Crash end
    | _, _ => fst r = Crash
    end
  else got (Failed (report c)).
Proof. exact (fun V zero c st w w' f j k l1 l2 l1' l2' ops ob t i Hc => kept_binary zero c Hc st w w' f j k l1 l2 l1' l2' ops ob t i). Qed.
Print Assumptions C76_resized.
(** Assignment to an array or a view of it, when no element is read after it was overwritten: the target gets the values the
    right side had before. *)
Theorem C76_assign : forall (V : Type) (zero : V) (c : cfg) st hs (w : list (list V)) k l ws x F vs,
  cfg_ok c -> represents c st w -> spelled x = true -> znth w k = Some l -> store_ok c (w, []) k ws x -> formula c w [] x = Ok F ->
  len w F = Ok (zlen (target l ws)) -> listing (val w F) (all_positions (zlen (target l ws))) = Ok vs -> ahead F k (target l ws) ->
  exists st', lstep zero c (st, hs) (LSet k ws x) = Next (st', hs) Done /\ represents c st' (zupd w k (put_all l (target l ws) vs)).
Proof. exact (fun V zero c st hs w k l ws x F vs Hc => assign_spelled zero c Hc st hs w k l ws x F vs). Qed.
Print Assumptions C76_assign.
(** In particular A = x for an x of the size of A without views, which may name A anywhere, is the same as
    A.resize_and_assign(x), which computes all of x first. *)
Theorem C76_assign_plain : forall (V : Type) (zero : V) (c : cfg) st hs st' hs' (w : list (list V)) k x,
  cfg_ok c -> represents c st w -> plain x = true -> own_sizes x -> lstep zero c (st, hs) (LRes k x) = Next (st', hs') Done ->
  (forall a a', znth st k = Some a -> znth st' k = Some a' -> an a = an a') -> lstep zero c (st, hs) (LSet k [] x) = Next (st', hs') Done.
Proof. exact (fun V zero c st hs st' hs' w k x Hc => plain_assign zero c Hc st hs st' hs' w k x). Qed.
Print Assumptions C76_assign_plain.
(** A(...) op= x is A(...) = A(...) op x, in results, failures and undefinedness, also when x reads A. *)
Theorem C76_compound : forall (V : Type) (zero : V) (c : cfg) st hs (w : list (list V)) k ws f x,
  cfg_ok c -> represents c st w -> spelled x = true -> store_ok c (w, []) k ws x ->
  lstep zero c (st, hs) (LUpd k ws f x) = lstep zero c (st, hs) (LSet k ws (XBin f (seen k ws) x)).
Proof. exact (fun V zero c st hs w k ws f x Hc => compound zero c Hc st hs w k ws f x). Qed.
Print Assumptions C76_compound.

Definition add (x y : Z) : outcome Z := Ok (x + y).
(** Stepping through the meaning of a concrete program. *)
Lemma lprogram_cons {V} (zero : V) c s t ts : lrespects zero c s t ->
  match spec_lstep zero c s t with Next s' (Failed f) => fatal f = true \/ lprogram zero c s' ts | Next s' _ => lprogram zero c s' ts | Crash => True end -> lprogram zero c s (t :: ts).
Proof. intros H1 H2. split; [exact H1|]. destruct (spec_lstep zero c s t) as [s' [| | |f]|]; auto. destruct (fatal f); [exact I|]. now destruct H2. Qed.
Ltac advance := apply lprogram_cons; [cbn [lrespects fst snd]|
  match goal with |- match ?x with Next _ _ => _ | Crash => _ end => let y := eval vm_compute in x in change x with y; cbv iota beta; try right end].
Ltac small := vm_compute; repeat first [exact I | reflexivity | discriminate | split | constructor | intros ?].
Ltac small_text := cbn [text_ok]; repeat match goal with |- _ /\ _ => split | |- True => exact I | |- _ <> _ => discriminate | |- forall _, _ => idtac end;
  try (intros F n EF EN; vm_compute in EF; injection EF as <-; vm_compute in EN; injection EN as <-; split; [small|eexists; vm_compute; reflexivity]).
Lemma upto (P : Z -> Prop) n : (forall m, (m < n)%nat -> P (Z.of_nat m)) -> forall i, 0 <= i < Z.of_nat n -> P i.
Proof. intros H i Hi. rewrite <- (Z2Nat.id i) by lia. apply H. lia. Qed.
Ltac indices := match goal with H : 0 <= ?i < ?n |- _ => let m := eval vm_compute in (Z.to_nat n) in change n with (Z.of_nat m) in H; revert i H; apply (upto _ m);
  let k := fresh in intros k ?; do 8 (destruct k as [|k]; [first [exfalso; lia|vm_compute; repeat first [exact I | eexists; split; [reflexivity|] | split]]|]); exfalso; lia end.
Ltac inner := intros F n i EF EN Hi; vm_compute in EF; first [discriminate EF|injection EF as <-; vm_compute in EN; injection EN as <-; indices].
Ltac getting := intros F n EF EN; vm_compute in EF; injection EF as <-; vm_compute in EN; injection EN as <-; split; [small|split; [left; reflexivity|let H := fresh in intros H; vm_compute in H; first [discriminate H|vm_compute; repeat first [exact I | eexists; split; [reflexivity|] | split]]]].
Ltac storing := split; [small_text|split; [inner|
  intros l El; vm_compute in El; injection El as <-; split; [small|split; [eexists; vm_compute; reflexivity|left; reflexivity]]]].
(** "With all checks on, valid indices into a kept expression are never undefined behaviour": false. *)
Theorem C76_checked_refuted : exists (ts : list (lstm Z)), checked c_dbg = true /\
  ts = [LOp (NewList [1; 2; 3]); LOp (NewList [4; 5; 6]); LLet (XBin add (XArr 0) (XArr 1)); LOp (Resize 1 2 true); LSize 0; LGet 0 (Plain 2)] /\
  lprogram 0 c_dbg ([], []) ts /\ run (lstep 0 c_dbg) ([], []) ts = (Crash, [Done; Done; Done; Done; Number 3]).
Proof.
  eexists. split; [reflexivity|]. split; [reflexivity|]. split; [|vm_compute; reflexivity].
  advance; [split; [exact I|left; reflexivity]|]. advance; [split; [exact I|left; reflexivity]|]. advance; [small|].
  advance; [split; [small|left; reflexivity]|]. advance; [exact I|]. 
  advance; [|exact I].
  intros F n EF EN. vm_compute in EF. injection EF as <-. vm_compute in EN. injection EN as <-. split; [small|]. split; [left; reflexivity|]. intros _. small.
Qed.
Print Assumptions C76_checked_refuted.
(** "A = x gives A the values x had": false when x has views of A.  Here A = A(reverse), and resize_and_assign. *)
Theorem C76_snapshot_refuted : exists (x : xt Z) (st : list (arr Z)), 
  x = XView (XArr 0) [VwSlice Reverse] /\ represents c_dbg st [[1; 2; 3; 4]] /\ checked c_dbg = true /\ lprogram 0 c_dbg ([[1; 2; 3; 4]], []) [LSet 0 [] x] /\
  lstep 0 c_dbg (st, []) (LSet 0 [] x) = Next ([mkarr [4; 3; 3; 4] 4], []) Done /\
  lstep 0 c_dbg (st, []) (LRes 0 x) = Next ([mkarr [4; 3; 2; 1] 4], []) Done.
Proof.
  exists (XView (XArr 0) [VwSlice Reverse]), [mkarr [1; 2; 3; 4] 4]. split; [reflexivity|]. split; [repeat constructor; vm_compute; congruence|]. split; [reflexivity|].
  split; [|split; vm_compute; reflexivity].
  advance; [|exact I]. storing.
Qed.
Print Assumptions C76_snapshot_refuted.
(** Nor for overlapping slices, one step apart: A({1, 2, 3}) = A({0, 1, 2}) repeats the first element. *)
Example C76_smear : lprogram 0 c_dbg ([[1; 2; 3; 4]], []) [LSet 0 [VwSlice (Vec [1; 2; 3])] (XView (XArr 0) [VwSlice (Vec [0; 1; 2])])] /\
  lstep 0 c_dbg ([mkarr [1; 2; 3; 4] 4], []) (LSet 0 [VwSlice (Vec [1; 2; 3])] (XView (XArr 0) [VwSlice (Vec [0; 1; 2])])) = Next ([mkarr [1; 1; 1; 1] 4], []) Done.
Proof. split; [|vm_compute; reflexivity]. advance; [|exact I]. storing. Qed.
(** Kept expressions built from kept expressions, views of expressions, assignments to slices and a size error. *)
Example C76_case : let ts := [LOp (NewList [1; 2; 3; 4]); LOp (NewList [10; 20; 30; 40]); LLet (XBin add (XArr 0) (XArr 1)); LLet (XView (XScalL add 100 (XHeld 0)) [VwSlice Reverse]);
    LOp (Write 0 (Plain 3) 5); LGet 1 (Plain 0); LNew (XBin add (XHeld 1) (XArr 0)); LOp (Read 2 (FromLast 0)); LUpd 0 [] add (XHeld 0); LGet 0 (Plain 1);
    LSet 1 [VwSlice Odd] (XArr 0); LSet 1 [VwSlice Odd] (XView (XArr 0) [VwSlice (FirstN 2)]); LSize 1; LGet 1 (Plain 4); LGet 1 (Plain 0); LRes 0 (XView (XHeld 0) [VwSlice Even]); LOp (Size 0)] in
  cfg_ok c_dbg /\ represents c_dbg [] (@nil (list Z)) /\ lprogram 0 c_dbg ([], []) ts /\
  snd (run (lstep 0 c_dbg) ([], []) ts) =
    [Done; Done; Done; Done; Done; Value 145; Done; Value 116; Done; Value 44; Failed Throw; Done; Number 4; Failed Throw; Value 174; Done; Number 2].
Proof.
  cbv zeta. split; [vm_compute; split; congruence|]. split; [constructor|]. split; [|vm_compute; reflexivity].
  advance; [split; [exact I|left; reflexivity]|]. advance; [split; [exact I|left; reflexivity]|]. advance; [small_text|]. advance; [small_text|].
  advance; [split; [small|left; reflexivity]|]. advance; [getting|]. advance; [split; [small_text|inner]|]. advance; [split; [small|left; reflexivity]|]. advance; [storing|]. advance; [getting|].
  advance; [storing|]. advance; [storing|]. advance; [exact I|]. advance; [getting|]. advance; [getting|]. advance; [split; [small_text|inner]|]. advance; [split; [small|left; reflexivity]|exact I].
Qed.
(** An expression with a view, kept while the array it names is written and another one is resized. *)
Example C76_deferred_case : let st := [mkarr [1; 2; 3] 3; mkarr [4] 1] in let x := XBin add (XView (XArr 0) [VwSlice Reverse]) (XArr 0) in
  let ops := [Write 0 (Plain 0) 7; Resize 1 2 true] in let st' := [mkarr [7; 2; 3] 3; mkarr [4; 0] 2] in
  spelled x = true /\ snd (run (lstep 0 c_off) (st, []) [LLet x]) = [Done] /\ run (step1 0 c_off) st ops = (Next st' Done, [Done; Done]) /\
  (forall k, In k (names x) -> option_map an (znth st k) = option_map an (znth st' k)) /\
  snd (run (lstep 0 c_off) (st, []) (LLet x :: map LOp ops ++ [LGet 0 (Plain 2)])) = [Done; Done; Done; Value 10].
Proof.
  cbv zeta. split; [reflexivity|]. split; [vm_compute; reflexivity|]. split; [vm_compute; reflexivity|]. split; [|vm_compute; reflexivity].
  intros k [<-|[<-|[]]]; reflexivity.
Qed.
(** Both operands of a kept sum grow, differently. *)
Example C76_resized_case : let st := [mkarr [1; 2] 2; mkarr [3; 4] 2] in let w := [[1; 2]; [3; 4]] in let ops := [InsertBack 0 5; InsertBack 0 6; InsertFront 1 9] in
  cfg_ok c_off /\ represents c_off st w /\ Forall op_long ops /\ valid_run (spec_step1 0 c_off) w ops /\
  run (spec_step1 0 c_off) w ops = (Next [[1; 2; 5; 6]; [9; 3; 4]] Done, [Done; Done; Done]) /\
  run (lstep 0 c_off) (st, []) (LLet (XBin add (XArr 0) (XArr 1)) :: map LOp ops ++ [LSize 0; LGet 0 (Plain 2); LGet 0 (Plain 3)]) = (Crash, [Done; Done; Done; Done; Number 4; Value 9]).
Proof.
  cbv zeta. split; [vm_compute; split; congruence|]. split; [repeat constructor; vm_compute; congruence|]. split; [repeat constructor; vm_compute; congruence|].
  split; [vm_compute; exact I|]. split; vm_compute; reflexivity.
Qed.
(** Shifting down is one pass ahead of itself. *)
Example C76_assign_case : let w := [[1; 2; 3; 4]] in let x := XScalR add (XView (XArr 0) [VwSlice (Vec [1; 2; 3])]) 10 in let ws := [VwSlice (FirstN 3)] in
  let F := FBin add (FPick [1; 2; 3] (FArr 0)) (FOwn 3 (fun _ => Ok 10)) in
  represents c_dbg [mkarr [1; 2; 3; 4] 4] w /\ spelled x = true /\ store_ok c_dbg (w, []) 0 ws x /\ formula c_dbg w [] x = Ok F /\ target [1; 2; 3; 4] ws = [0; 1; 2] /\
  len w F = Ok 3 /\ listing (val w F) (all_positions 3) = Ok [12; 13; 14] /\ ahead F 0 [0; 1; 2] /\ put_all [1; 2; 3; 4] [0; 1; 2] [12; 13; 14] = [12; 13; 14; 4] /\
  lstep 0 c_dbg ([mkarr [1; 2; 3; 4] 4], []) (LSet 0 ws x) = Next ([mkarr [12; 13; 14; 4] 4], []) Done.
Proof.
  cbv zeta. split; [repeat constructor; vm_compute; congruence|]. split; [reflexivity|]. split; [cbn [fst snd]; storing|]. split; [reflexivity|]. split; [reflexivity|]. split; [reflexivity|].
  split; [reflexivity|]. split; [|split; vm_compute; reflexivity].
  intros i j p Hj Hp. pose proof (znth_lt _ _ _ Hp) as Hr. change (zlen [0; 1; 2]) with 3 in *. cbn [needs Z.eqb]. rewrite app_nil_r.
  assert (j = 0 \/ j = 1 \/ j = 2) as [->|[->| ->]] by lia; vm_compute in Hp; injection Hp as <-;
  (assert (i = 1 \/ i = 2) as [->| ->] by lia); vm_compute; intros [E|[]]; try discriminate E; try lia.
Qed.
Example C76_plain_case : let st := [mkarr [1; 2; 3] 3; mkarr [4; 5; 6] 3] in let x := XBin add (XScalR add (XArr 1) 1) (XBin add (XArr 0) (XArr 0)) in
  represents c_silent st [[1; 2; 3]; [4; 5; 6]] /\ plain x = true /\ own_sizes x /\
  lstep 0 c_silent (st, []) (LRes 0 x) = Next ([mkarr [7; 10; 13] 3; mkarr [4; 5; 6] 3], []) Done /\
  lstep 0 c_silent (st, []) (LSet 0 [] x) = Next ([mkarr [7; 10; 13] 3; mkarr [4; 5; 6] 3], []) Done.
Proof. cbv zeta. split; [repeat constructor; vm_compute; congruence|]. split; [reflexivity|]. split; [cbn; tauto|]. split; vm_compute; reflexivity. Qed.
(** A += A(reverse) reads elements it has changed. *)
Example C76_compound_case : let st := [mkarr [1; 2; 3] 3] in let x := XView (XArr 0) [VwSlice Reverse] in
  represents c_dbg st [[1; 2; 3]] /\ spelled x = true /\ store_ok c_dbg ([[1; 2; 3]], []) 0 [] x /\
  lstep 0 c_dbg (st, []) (LUpd 0 [] add x) = Next ([mkarr [4; 4; 7] 3], []) Done /\ lstep 0 c_dbg (st, []) (LSet 0 [] (XBin add (seen 0 []) x)) = Next ([mkarr [4; 4; 7] 3], []) Done.
Proof. cbv zeta. split; [repeat constructor; vm_compute; congruence|]. split; [reflexivity|]. split; [cbn [fst snd]; storing|]. split; vm_compute; reflexivity. Qed.
