(** C91: matrices assigned from expressions of any kind that read them. *)
From Verif Require Import Base.Outcome Base.ZList Model.IntModel Model.Index Model.Slice Model.Array1D Model.Array2D Model.View2D Model.Expr Model.ViewAssign Model.Self.
From Verif Require Import Spec.Configs Spec.ArraySpec Spec.MatrixSpec Spec.Matrix2Spec Spec.View2DSpec Spec.ExprSpec Spec.SelfSpec Proofs.SelfProofs Proofs.Self2Proofs.

(** A = e for any expression e of the shape of A, in which A may occur anywhere: the elements are replaced row by row, each by the
    value e has there in the matrix as it then is.  A value that fails ends the assignment there. *)
Theorem C91_assign : forall (V : Type) (c : cfg) (e : list V -> ex2 V) a m n l,
  holds2 a m n l -> written2 V V e -> fits2 (e l) -> agree2 (e l) -> mr (den2 (e l)) = m -> mc (den2 (e l)) = n ->
  match self_assign2 c e a with
  | MOk a' => exists r, replaced2 e l (zlen l) r /\ holds2 a' m n r
  | MFail f a' => exists r i, 0 <= i < zlen l /\ replaced2 e l i r /\ mlin (den2 (e r)) i = Fail f /\ holds2 a' m n r
  | MUB => exists r i, 0 <= i < zlen l /\ replaced2 e l i r /\ mlin (den2 (e r)) i = UB
  end.
Proof. exact (fun V c e a m n l => self_assign2_thm c e a m n l). Qed.
Print Assumptions C91_assign.
(** No other result is possible. *)
Theorem C91_exact : forall (V : Type) (c : cfg) (e : list V -> ex2 V) a m n l r,
  holds2 a m n l -> written2 V V e -> fits2 (e l) -> agree2 (e l) -> mr (den2 (e l)) = m -> mc (den2 (e l)) = n -> replaced2 e l (zlen l) r ->
  exists a', self_assign2 c e a = MOk a' /\ holds2 a' m n r.
Proof. exact (fun V c e a m n l r => self_exact2 c e a m n l r). Qed.
Print Assumptions C91_exact.
(** Where there are checks, a violated condition inside e or a different shape is reported and A is unchanged, also by op=. *)
Theorem C91_rejected : forall (V : Type) (c : cfg) (e : list V -> ex2 V) a m n l,
  holds2 a m n l -> fits2 (e l) -> checked c = true -> ~ agree2 (e l) \/ agree2 (e l) /\ ~ (mr (den2 (e l)) = m /\ mc (den2 (e l)) = n) ->
  self_assign2 c e a = MFail (report c) a /\ forall f, self_update2 c f e a = MFail (report c) a.
Proof. exact (fun V c e a m n l => self_bad2 c e a m n l). Qed.
Print Assumptions C91_rejected.
(** If no element of e reads an element of A before its own place, A becomes the matrix e was. *)
Theorem C91_forward : forall (V : Type) (c : cfg) (e : list V -> ex2 V) a m n l r,
  holds2 a m n l -> written2 V V e -> fits2 (e l) -> agree2 (e l) -> mr (den2 (e l)) = m -> mc (den2 (e l)) = n -> forward2 (zlen l) e ->
  zlen r = zlen l -> (forall i v, znth r i = Some v -> mlin (den2 (e l)) i = Ok v) -> exists a', self_assign2 c e a = MOk a' /\ holds2 a' m n r.
Proof. exact (fun V c e a m n l r => self_forward2 c e a m n l r). Qed.
Print Assumptions C91_forward.
(** A.resize_and_assign(e) gives the matrix e was, whatever e reads and whatever its shape. *)
Theorem C91_resize : forall (V : Type) (zero : V) (c : cfg) (e : list V -> ex2 V) a m n l r,
  holds2 a m n l -> fits2 (e l) -> agree2 (e l) -> plump (den2 (e l)) -> zlen r = mr (den2 (e l)) * mc (den2 (e l)) -> zlen r <= amax c ->
  (forall i v, znth r i = Some v -> mlin (den2 (e l)) i = Ok v) ->
  exists a', self_resize2 zero c e a = Ok a' /\ holds2 a' (mr (den2 (e l))) (mc (den2 (e l))) r.
Proof. exact (fun V zero c e a m n l r => self_resize2_thm zero c e a m n l r). Qed.
Print Assumptions C91_resize.
(** A op= e is A = A op e, in results, failures and undefinedness. *)
Theorem C91_compound : forall (V : Type) (c : cfg) f (e : list V -> ex2 V) a m n l,
  holds2 a m n l -> m <= LONG_MAX -> n <= LONG_MAX -> written2 V V e -> fits2 (e l) -> agree2 (e l) -> mr (den2 (e l)) = m -> mc (den2 (e l)) = n ->
  self_update2 c f e a = self_assign2 c (fun b => YBin V V V f (itself2 m n b) (e b)) a.
Proof. exact (fun V c f e a m n l => self_compound2 c f e a m n l). Qed.
Print Assumptions C91_compound.

(** A op= tensor_prod(A.col(p), A.row(q)): the column is read new to its right, the row new below it. *)
Theorem C91_rank_one : forall (V : Type) (c : cfg) (f h : V -> V -> outcome V) (F H : V -> V -> V) a m n l p q,
  holds2 a m n l -> m <= LONG_MAX -> n <= LONG_MAX -> 0 <= p < n -> 0 <= q < m -> (forall u v, f u v = Ok (F u v)) -> (forall u v, h u v = Ok (H u v)) ->
  exists a' r,
    self_update2 c f (fun b => YTensor V V V h (XView2 V (itself2 m n b) (VwCol (Plain p))) (XView2 V (itself2 m n b) (VwRow (Plain q)))) a = MOk a' /\
    holds2 a' m n r /\
    forall i j u x y, 0 <= i < m -> 0 <= j < n -> znth l (i * n + j) = Some u ->
      znth (if p <? j then r else l) (i * n + p) = Some x -> znth (if q <? i then r else l) (q * n + j) = Some y ->
      znth r (i * n + j) = Some (F u (H x y)).
Proof. exact (fun V c f h F H a m n l p q => rank_one c f h F H a m n l p q). Qed.
Print Assumptions C91_rank_one.

Definition minus (x y : Z) : outcome Z := Ok (x - y).
Definition mult (x y : Z) : outcome Z := Ok (x * y).
(** tensor_prod(A.col(0), A.row(0)) of a 2 x 2 matrix. *)
Definition outer (b : list Z) : ex2 Z := YTensor Z Z Z mult (XView2 Z (itself2 2 2 b) (VwCol (Plain 0))) (XView2 Z (itself2 2 2 b) (VwRow (Plain 0))).
(** "A -= tensor_prod(A.col(0), A.row(0)) subtracts the outer product": false, in every build. *)
Theorem C91_rank_one_refuted : forall c,
  self_update2 c minus outer (mkarr2 2 2 (mkarr [2; 3; 5; 7] 4)) = MOk (mkarr2 2 2 (mkarr [-2; 9; 15; -128] 4)) /\
  map (mlin (den2 (YBin Z Z Z minus (itself2 2 2 [2; 3; 5; 7]) (outer [2; 3; 5; 7])))) [0; 1; 2; 3] = [Ok (-2); Ok (-3); Ok (-5); Ok (-8)].
Proof. intros [[] [] [] k]; split; vm_compute; reflexivity. Qed.
Print Assumptions C91_rank_one_refuted.
(** "A = A.rows(reverse) turns A upside down": false; the lower half is copied to the upper half. *)
Definition upside_down (b : list Z) : ex2 Z := YView2 Z (itself2 2 2 b) (VwRows Reverse).
Theorem C91_reverse_refuted : forall c,
  self_assign2 c upside_down (mkarr2 2 2 (mkarr [1; 2; 3; 4] 4)) = MOk (mkarr2 2 2 (mkarr [3; 4; 3; 4] 4)) /\
  map (mlin (den2 (upside_down [1; 2; 3; 4]))) [0; 1; 2; 3] = [Ok 3; Ok 4; Ok 1; Ok 2].
Proof. intros [[] [] [] k]; split; vm_compute; reflexivity. Qed.
Print Assumptions C91_reverse_refuted.

Lemma outer_fits b : zlen b = 4 -> fits2 (outer b) /\ agree2 (outer b) /\ mr (den2 (outer b)) = 2 /\ mc (den2 (outer b)) = 2.
Proof. intros H. destruct (cross_ok mult 2 2 0 0 b) as (A & B & C & D & _); try (unfold LONG_MAX; lia). auto. Qed.
Lemma square_holds (l : list Z) : zlen l = 4 -> holds2 (mkarr2 2 2 (mkarr l 4)) 2 2 l.
Proof. intros H. unfold holds2, LONG_MAX. cbn [drows dcols dat buf an]. repeat split; lia. Qed.
Definition step (b : list Z) : ex2 Z := YBin Z Z Z minus (itself2 2 2 b) (outer b).
Example C91_case_assign : holds2 (mkarr2 2 2 (mkarr [2; 3; 5; 7] 4)) 2 2 [2; 3; 5; 7] /\ written2 Z Z step /\ fits2 (step [2; 3; 5; 7]) /\ agree2 (step [2; 3; 5; 7]) /\
  mr (den2 (step [2; 3; 5; 7])) = 2 /\ mc (den2 (step [2; 3; 5; 7])) = 2 /\ replaced2 step [2; 3; 5; 7] 4 [-2; 9; 15; -128].
Proof.
  destruct (outer_fits [2; 3; 5; 7] eq_refl) as (A & B & C & D). split; [now apply square_holds|].
  split; [apply (W_bin2 Z Z Z minus (itself2 2 2) outer); [apply W_self2|apply cross_written]|].
  split; [split; [apply itself2_fits; unfold LONG_MAX; try reflexivity; lia|exact A]|]. split; [split; [exact I|split; [exact B|split; reflexivity]]|]. split; [reflexivity|]. split; [reflexivity|].
  split; [reflexivity|]. split.
  - intros i Hi. assert (i = 0 \/ i = 1 \/ i = 2 \/ i = 3) as [->| [->| [->| ->]]] by lia; eexists; (split; [reflexivity|vm_compute; reflexivity]).
  - intros i Hi. rewrite !znth_none; [reflexivity| |]; change (zlen _) with 4; lia.
Qed.
(** A failing element: A = A / A.rows(reverse) on [[6, 4], [2, 0]]. *)
Definition ratio (b : list Z) : ex2 Z := YBin Z Z Z (idiv c_dbg I32) (itself2 2 2 b) (upside_down b).
Example C91_case_fail : written2 Z Z ratio /\ replaced2 ratio [6; 4; 2; 0] 1 [3; 4; 2; 0] /\ mlin (den2 (ratio [3; 4; 2; 0])) 1 = Fail Throw /\
  self_assign2 c_dbg ratio (mkarr2 2 2 (mkarr [6; 4; 2; 0] 4)) = MFail Throw (mkarr2 2 2 (mkarr [3; 4; 2; 0] 4)).
Proof.
  split; [apply (W_bin2 Z Z Z (idiv c_dbg I32) (itself2 2 2) upside_down); [apply W_self2|apply (W_view2' Z (itself2 2 2) (VwRows Reverse)), W_self2]|].
  split; [|split; vm_compute; reflexivity]. split; [reflexivity|]. split; [intros i Hi; assert (i = 0) as -> by lia; exists 3; split; [reflexivity|vm_compute; reflexivity]|].
  intros i Hi. destruct (Z.ltb_spec i 4); [assert (i = 1 \/ i = 2 \/ i = 3) as [->| [->| ->]] by lia; reflexivity|]. rewrite !znth_none; [reflexivity| |]; change (zlen _) with 4; lia.
Qed.
Example C91_case_rejected : let t := fun b : list Z => YMergeH Z (itself2 2 2 b) (itself2 2 2 b) in let a := mkarr2 2 2 (mkarr [1; 2; 3; 4] 4) in
  checked c_dbg = true /\ fits2 (t [1; 2; 3; 4]) /\ agree2 (t [1; 2; 3; 4]) /\ mc (den2 (t [1; 2; 3; 4])) = 4 /\ self_assign2 c_dbg t a = MFail Throw a /\
  self_resize2 0 c_dbg t a = Ok (mkarr2 2 4 (mkarr [1; 2; 1; 2; 3; 4; 3; 4] 8)).
Proof.
  cbv zeta. assert (fits2 (itself2 2 2 [1; 2; 3; 4])) as F by (apply itself2_fits; unfold LONG_MAX; try reflexivity; lia).
  split; [reflexivity|]. split; [cbn [fits2]; split; [exact F|split; [exact F|split; [split; discriminate|split; [split; discriminate|vm_compute; discriminate]]]]|].
  split; [split; [exact I|split; [exact I|reflexivity]]|]. split; [reflexivity|]. split; vm_compute; reflexivity.
Qed.
(** A = A - B for another matrix B. *)
Definition less (b : list Z) : ex2 Z := YBin Z Z Z minus (itself2 2 2 b) (YLeaf Z (src_of_arr2 (mkarr2 2 2 (mkarr [1; 1; 2; 2] 4)))).
Example C91_case_forward : written2 Z Z less /\ forward2 4 less /\ (forall i v, znth [4; 5; 5; 6] i = Some v -> mlin (den2 (less [5; 6; 7; 8])) i = Ok v) /\
  self_assign2 c_off less (mkarr2 2 2 (mkarr [5; 6; 7; 8] 4)) = MOk (mkarr2 2 2 (mkarr [4; 5; 5; 6] 4)) /\
  self_update2 c_off minus (fun _ => YLeaf Z (src_of_arr2 (mkarr2 2 2 (mkarr [1; 1; 2; 2] 4)))) (mkarr2 2 2 (mkarr [5; 6; 7; 8] 4)) = MOk (mkarr2 2 2 (mkarr [4; 5; 5; 6] 4)).
Proof.
  split; [apply (W_bin2 Z Z Z minus (itself2 2 2) (fun _ => YLeaf Z _)); [apply W_self2|apply W_leaf2]|]. split; [|split; [|split; vm_compute; reflexivity]].
  - intros b b' i Hb Hb' Hi H. destruct b as [|x [|y [|z [|t [|]]]]], b' as [|x' [|y' [|z' [|t' [|]]]]]; try (exfalso; revert Hb Hb'; unfold zlen; cbn [length]; lia).
    pose proof (H i ltac:(lia)) as K. assert (i = 0 \/ i = 1 \/ i = 2 \/ i = 3) as [->| [->| [->| ->]]] by lia; injection K as <-; reflexivity.
  - intros i v Hv. pose proof (znth_lt _ _ _ Hv) as Hi. change (zlen _) with 4 in Hi. assert (i = 0 \/ i = 1 \/ i = 2 \/ i = 3) as [->| [->| [->| ->]]] by lia; injection Hv as <-; reflexivity.
Qed.
