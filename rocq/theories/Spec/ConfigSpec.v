(** Comparing the outcomes of the same code under two build configurations. *)
From Verif Require Import Base.Outcome Base.ZList Model.Index Model.Array1D Model.Array2D Model.Slice Model.View2D Model.Store1D Model.Store2D Model.Iterator Model.Expr.
From Verif Require Import Spec.SliceSpec Spec.View2DSpec.

(** The configurations in which every violated check stops the operation: ASSERT_STRICT_DEBUG and also
    NORMAL_ASSERT_STRICT_DEBUG, which only asserts. *)
Definition full (c : cfg) : bool := dbg c && negb (ndbg c).

(** With [b = false]: what succeeds on the left succeeds in the same way on the right.  With [b = true]: the outcomes agree
    completely, up to the way in which an error is reported. *)
(** The two reports of one error: running out of memory is never confused with a violated check. *)
Definition same_fail (f f' : failure) : Prop := f = BadAlloc <-> f' = BadAlloc.

Definition rel (b : bool) {A B} (R : A -> B -> Prop) (m : outcome A) (m' : outcome B) : Prop :=
  match m, m' with
  | Ok v, Ok v' => R v v'
  | Ok _, _ => False
  | Fail f, Fail f' => if b then same_fail f f' else True
  | UB, UB => True
  | _, _ => b = false
  end.
Definition relm (b : bool) {A B} (R : A -> B -> Prop) (m : mut A) (m' : mut B) : Prop :=
  match m, m' with
  | MOk v, MOk v' => R v v'
  | MOk _, _ => False
  | MFail f s, MFail f' s' => if b then same_fail f f' /\ R s s' else True
  | MUB, MUB => True
  | _, _ => b = false
  end.

(** The same result, if there is one. *)
Definition same_ok {A} (m m' : outcome A) : Prop := forall v, m = Ok v -> m' = Ok v.
Definition same_mok {A} (m m' : mut A) : Prop := forall v, m = MOk v -> m' = MOk v.
(** The same outcome, up to the report. *)
Definition same_outcome {A} (m m' : outcome A) : Prop :=
  match m, m' with
  | Ok v, Ok v' => v = v'
  | Fail f, Fail f' => same_fail f f'
  | UB, UB => True
  | _, _ => False
  end.

(** Sources of the same sizes whose elements are related. *)
Definition src_like (b : bool) {V} (A A' : src1 V) : Prop :=
  ssize A = ssize A' /\ forall i, rel b eq (sun A i) (sun A' i).
Definition src2_like (b : bool) {V} (A A' : src2 V) : Prop :=
  s2rows A = s2rows A' /\ s2cols A = s2cols A' /\ s2size A = s2size A' /\
  (forall i j, rel b eq (s2un A i j) (s2un A' i j)) /\ (forall i, rel b eq (s2lin A i) (s2lin A' i)).
Definition flag_like (b : bool) {R} (F F' : flag R) : Prop :=
  rel b eq (f_size F) (f_size F') /\ forall i, rel b eq (f_at F i) (f_at F' i).

(** The same expression written in two configurations: the same tree, with leaves, element functions and reductions that
    are related. *)
Definition fun_like (b : bool) {V W} (f f' : V -> outcome W) : Prop := forall x, rel b eq (f x) (f' x).
Definition fun2_like (b : bool) {U V W} (f f' : U -> V -> outcome W) : Prop := forall x y, rel b eq (f x y) (f' x y).
Definition red_like (b : bool) {V W} (f f' : src1 V -> outcome W) : Prop :=
  forall A A', src_like b A A' -> rel b eq (f A) (f' A').
Inductive alike1 (b : bool) : forall V : Type, ex1 V -> ex1 V -> Prop :=
| L_leaf V A A' : src_like b A A' -> alike1 b V (XLeaf V A) (XLeaf V A')
| L_un V W f f' e e' : fun_like b f f' -> alike1 b V e e' -> alike1 b W (XUn V W f e) (XUn V W f' e')
| L_bin U V W f f' e1 e1' e2 e2' : fun2_like b f f' -> alike1 b U e1 e1' -> alike1 b V e2 e2' ->
    alike1 b W (XBin U V W f e1 e2) (XBin U V W f' e1' e2')
| L_scalr U V W f f' e e' x : fun2_like b f f' -> alike1 b U e e' -> alike1 b W (XScalR U V W f e x) (XScalR U V W f' e' x)
| L_scall U V W f f' e e' x : fun2_like b f f' -> alike1 b V e e' -> alike1 b W (XScalL U V W f x e) (XScalL U V W f' x e')
| L_gen V n g g' : fun_like b g g' -> alike1 b V (XGen V n g) (XGen V n g')
| L_merge V e1 e1' e2 e2' : alike1 b V e1 e1' -> alike1 b V e2 e2' -> alike1 b V (XMerge V e1 e2) (XMerge V e1' e2')
| L_mergeback V e e' x : alike1 b V e e' -> alike1 b V (XMergeBack V e x) (XMergeBack V e' x)
| L_mergefront V e e' x : alike1 b V e e' -> alike1 b V (XMergeFront V x e) (XMergeFront V x e')
| L_exclude V e e' p k : alike1 b V e e' -> alike1 b V (XExclude V e p k) (XExclude V e' p k)
| L_excludelast V e e' k : alike1 b V e e' -> alike1 b V (XExcludeLast V e k) (XExcludeLast V e' k)
| L_rowred V W op op' l l' e e' : red_like b op op' -> alike2 b V e e' ->
    alike1 b W (XRowRed V W op l e) (XRowRed V W op' l' e')
| L_colred V W op op' l l' e e' : red_like b op op' -> alike2 b V e e' ->
    alike1 b W (XColRed V W op l e) (XColRed V W op' l' e')
| L_matvec U V W z add add' mul mul' e e' x x' : fun2_like b add add' -> fun2_like b mul mul' -> alike2 b U e e' ->
    alike1 b V x x' -> alike1 b W (XMatvec U V W z add mul e x) (XMatvec U V W z add' mul' e' x')
| L_view1 V e e' w : alike1 b V e e' -> alike1 b V (XView1 V e w) (XView1 V e' w)
| L_view2 V e e' w : alike2 b V e e' -> alike1 b V (XView2 V e w) (XView2 V e' w)
with alike2 (b : bool) : forall V : Type, ex2 V -> ex2 V -> Prop :=
| M_leaf V A A' : src2_like b A A' -> alike2 b V (YLeaf V A) (YLeaf V A')
| M_un V W f f' e e' : fun_like b f f' -> alike2 b V e e' -> alike2 b W (YUn V W f e) (YUn V W f' e')
| M_bin U V W f f' e1 e1' e2 e2' : fun2_like b f f' -> alike2 b U e1 e1' -> alike2 b V e2 e2' ->
    alike2 b W (YBin U V W f e1 e2) (YBin U V W f' e1' e2')
| M_scalr U V W f f' e e' x : fun2_like b f f' -> alike2 b U e e' -> alike2 b W (YScalR U V W f e x) (YScalR U V W f' e' x)
| M_scall U V W f f' e e' x : fun2_like b f f' -> alike2 b V e e' -> alike2 b W (YScalL U V W f x e) (YScalL U V W f' x e')
| M_index V m n g g' : fun2_like b g g' -> alike2 b V (YIndex V m n g) (YIndex V m n g')
| M_transpose V e e' : alike2 b V e e' -> alike2 b V (YTranspose V e) (YTranspose V e')
| M_mergeh V e1 e1' e2 e2' : alike2 b V e1 e1' -> alike2 b V e2 e2' -> alike2 b V (YMergeH V e1 e2) (YMergeH V e1' e2')
| M_mergev V e1 e1' e2 e2' : alike2 b V e1 e1' -> alike2 b V e2 e2' -> alike2 b V (YMergeV V e1 e2) (YMergeV V e1' e2')
| M_broadcast V r e e' : alike1 b V e e' -> alike2 b V (YBroadcast V r e) (YBroadcast V r e')
| M_tensor U V W mul mul' e1 e1' e2 e2' : fun2_like b mul mul' -> alike1 b U e1 e1' -> alike1 b V e2 e2' ->
    alike2 b W (YTensor U V W mul e1 e2) (YTensor U V W mul' e1' e2')
| M_view1 V e e' w : alike1 b V e e' -> alike2 b V (YView1 V e w) (YView1 V e' w)
| M_view2 V e e' w : alike2 b V e e' -> alike2 b V (YView2 V e w) (YView2 V e' w).

(** Results of operations on a program state. *)
Definition res_like (b : bool) {S V} (r r' : res S V) : Prop :=
  match r, r' with
  | Next s (Failed f), Next s' (Failed f') => if b then s = s' /\ same_fail f f' else True
  | Next _ (Failed _), _ => b = false
  | Next s o, _ => r' = Next s o
  | Crash, Crash => True
  | Crash, _ => b = false
  end.
(** No operation of a run fails. *)
Definition clean {V} (t : list (obs V)) : Prop := forall f, ~ In (Failed f) t.

(** The code m under the configuration c: when the checks of a checking build all pass, every build with the same
    allocator computes the same result, and two checking builds agree on everything but the way errors are reported. *)
Definition config_free {A} (m : cfg -> outcome A) : Prop :=
  forall c c', amax c' = amax c -> checked c = true ->
  (forall v, m c = Ok v -> m c' = Ok v) /\ (checked c' = true -> same_outcome (m c) (m c')).
(** For code that updates its argument: also what it leaves behind when it fails. *)
Definition same_outcome_m {A} (m m' : mut A) : Prop :=
  match m, m' with
  | MOk v, MOk v' => v = v'
  | MFail f s, MFail f' s' => same_fail f f' /\ s = s'
  | MUB, MUB => True
  | _, _ => False
  end.
Definition config_free_m {A} (m : cfg -> mut A) : Prop :=
  forall c c', amax c' = amax c -> checked c = true ->
  (forall v, m c = MOk v -> m c' = MOk v) /\ (checked c' = true -> same_outcome_m (m c) (m c')).
(** The same expression written under each configuration. *)
Definition same_tree1 {V} (e : cfg -> ex1 V) : Prop :=
  forall b c c', amax c' = amax c -> checked c = true -> (b = true -> checked c' = true) -> alike1 b V (e c) (e c').
Definition same_tree2 {V} (e : cfg -> ex2 V) : Prop :=
  forall b c c', amax c' = amax c -> checked c = true -> (b = true -> checked c' = true) -> alike2 b V (e c) (e c').
(** The same for functions of elements and for operands. *)
Definition same_fun {V W} (f : cfg -> V -> outcome W) : Prop := forall x, config_free (fun c => f c x).
Definition same_fun2 {U V W} (f : cfg -> U -> V -> outcome W) : Prop := forall x y, config_free (fun c => f c x y).

(** Every step of the chain compiles and its arithmetic stays in range; the arguments may still be invalid. *)
Fixpoint chain_fits (d : den) (ws : list vop) : Prop :=
  match ws with
  | [] => True
  | w :: ws' => vop_typed d w = true /\ vop_fits d w /\
                (vop_ok d w -> match den_apply d w with Some d' => chain_fits d' ws' | None => False end)
  end.
(** A reference into storage of N elements, or the report of an error. *)
Definition safe_ref (c : cfg) (N : Z) (m : outcome Z) : Prop :=
  m = Fail (report c) \/ exists p, m = Ok p /\ 0 <= p < N.

(** Integer arguments far from the limits of the index type. *)
Definition modest (x : Z) : Prop := - 2 ^ 30 <= x <= 2 ^ 30.
Definition modest_idx (ix : idx) : Prop := match ix with Plain i => modest i | FromLast k => modest k end.
Definition modest_slice (s : slice) : Prop :=
  match s with
  | SeqN a b d | Seq a b d => modest a /\ modest b /\ modest d
  | SkipN a | FirstN a | LastN a => modest a
  | _ => True
  end.
Definition modest_op {V} (o : op1 V) : Prop :=
  match o with
  | New n | NewFill n _ | Resize _ n _ | RemoveFront _ n | RemoveBack _ n | RemoveLast _ n | Insert _ n _
  | InsertArr _ n _ => modest n
  | Remove _ p k => modest p /\ modest k
  | NewSlice _ s => modest_slice s
  | Write _ ix _ | Read _ ix => modest_idx ix
  | _ => True
  end.
Definition modest_op2 {V} (o : op2 V) : Prop :=
  match o with
  | New2 m n | NewFill2 m n _ | Resize2 _ m n _ | RemoveRows _ m n | RemoveCols _ m n => modest m /\ modest n
  | RemoveRow _ n | RemoveCol _ n | RemoveRowLast _ n | RemoveColLast _ n | RemoveRowsFront _ n | RemoveRowsBack _ n
  | RemoveColsFront _ n | RemoveColsBack _ n | InsertRows _ n _ | InsertCols _ n _ => modest n
  | InsertRow _ n l | InsertCol _ n l => modest n /\ modest (zlen l)
  | InsertRowFront _ l | InsertRowBack _ l | InsertColFront _ l | InsertColBack _ l => modest (zlen l)
  | NewList2 L | AssignList2 _ L => modest (zlen L) /\ Forall (fun r => modest (zlen r)) L
  | Write2 _ ix jx _ | Read2 _ ix jx => modest_idx ix /\ modest_idx jx
  | MoveAssign2 i j => i <> j
  | _ => True
  end.
