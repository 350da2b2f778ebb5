(** What array expressions mean: a one-dimensional expression denotes the list of its elements, a two-dimensional one a
    matrix.  Computing one element can fail or be undefined (an element operator may overflow or be checked), so elements
    are outcomes; nothing is evaluated until an element is asked for. *)
From Verif Require Import Base.Outcome Base.ZList Model.Index Model.Slice Model.Array1D Model.Array2D Model.View2D Model.Expr.
From Verif Require Import Spec.ArraySpec Spec.SliceSpec Spec.MatrixSpec Spec.Matrix2Spec Spec.View2DSpec.

(** Element p of a list of elements. *)
Definition elt {V} (l : list (outcome V)) (p : Z) : outcome V := match znth l p with Some v => v | None => UB end.

(** A source has exactly these elements. *)
Definition yields {V} (A : src1 V) (l : list (outcome V)) : Prop :=
  ssize A = zlen l /\ zlen l <= LONG_MAX /\ forall i, 0 <= i < zlen l -> sun A i = elt l i.

(** Matrices: mr rows, mc columns and the element function (meaningful inside the bounds). *)
Record mx (V : Type) := mkmx { mr : Z; mc : Z; mel : Z -> Z -> outcome V }.
Arguments mkmx {V} _ _ _.
Arguments mr {V} _.
Arguments mc {V} _.
Arguments mel {V} _ _ _.
(** Element number p in row-major order. *)
Definition mlin {V} (M : mx V) (p : Z) : outcome V := mel M (p / mc M) (p mod mc M).
Definition mrow {V} (M : mx V) (i : Z) : list (outcome V) := map (mel M i) (zseq 0 (Z.to_nat (mc M))).
Definition mcol {V} (M : mx V) (j : Z) : list (outcome V) := map (fun i => mel M i j) (zseq 0 (Z.to_nat (mr M))).
(** Not "some rows but no columns" or the reverse. *)
Definition plump {V} (M : mx V) : Prop := mr M = 0 <-> mc M = 0.
Definition nonempty {V} (M : mx V) : Prop := mr M <> 0 /\ mc M <> 0.

(** A two-dimensional source is this matrix under both kinds of access. *)
Definition yields2 {V} (A : src2 V) (M : mx V) : Prop :=
  s2rows A = mr M /\ s2cols A = mc M /\ 0 <= mr M <= LONG_MAX /\ 0 <= mc M <= LONG_MAX /\ s2size A = mr M * mc M /\ mr M * mc M <= LONG_MAX /\
  (forall i j, 0 <= i < mr M -> 0 <= j < mc M -> s2un A i j = mel M i j) /\
  (forall i j, 0 <= i < mr M -> 0 <= j < mc M -> s2lin A (i * mc M + j) = mel M i j).

Definition both {U V W} (f : U -> V -> outcome W) (u : outcome U) (v : outcome V) : outcome W := x <- u ;; y <- v ;; f x y.
Fixpoint zip {U V W} (f : U -> V -> outcome W) (l : list (outcome U)) (k : list (outcome V)) : list (outcome W) :=
  match l, k with
  | u :: l', v :: k' => both f u v :: zip f l' k'
  | _, _ => []
  end.
(** zero + l0 * k0 + l1 * k1 + ..., from the left. *)
Fixpoint dotl {U V W} (s : W) (add : W -> W -> outcome W) (mul : U -> V -> outcome W) (l : list (outcome U)) (k : list (outcome V))
  : outcome W :=
  match l, k with
  | u :: l', v :: k' => p <- both mul u v ;; t <- add s p ;; dotl t add mul l' k'
  | _, _ => Ok s
  end.

Definition see_list {V} (rd : Z -> outcome V) (d : option den) : list (outcome V) :=
  match d with Some (D1 ps) => map rd ps | _ => [] end.
Definition see_mx {V} (rd : Z -> outcome V) (d : option den) : mx V :=
  match d with
  | Some (D2 P) => mkmx (zlen P) (ncols P) (fun i j => match mget P i j with Some p => rd p | None => UB end)
  | _ => mkmx 0 0 (fun _ _ => UB)
  end.

(** Meaning of an expression. *)
Fixpoint den1 {V : Type} (e : ex1 V) {struct e} : list (outcome V) :=
  match e in ex1 V return list (outcome V) with
  | XLeaf _ A => map (sun A) (zseq 0 (Z.to_nat (ssize A)))
  | XUn _ _ f e => map (fun v => bind v f) (den1 e)
  | XBin _ _ _ f e1 e2 => zip f (den1 e1) (den1 e2)
  | XScalR _ _ _ f e x => map (fun u => both f u (Ok x)) (den1 e)
  | XScalL _ _ _ f x e => map (fun v => both f (Ok x) v) (den1 e)
  | XGen _ n g => map g (zseq 0 (Z.to_nat n))
  | XMerge _ e1 e2 => den1 e1 ++ den1 e2
  | XMergeBack _ e x => den1 e ++ [Ok x]
  | XMergeFront _ x e => Ok x :: den1 e
  | XExclude _ e pos count => firstn (Z.to_nat pos) (den1 e) ++ skipn (Z.to_nat (pos + count)) (den1 e)
  | XExcludeLast _ e _ => removelast (den1 e)
  | XRowRed _ _ _ opl e => map (fun i => opl (mrow (den2 e) i)) (zseq 0 (Z.to_nat (mr (den2 e))))
  | XColRed _ _ _ opl e => map (fun j => opl (mcol (den2 e) j)) (zseq 0 (Z.to_nat (mc (den2 e))))
  | XMatvec _ _ _ z add mul e x => map (fun i => dotl z add mul (mrow (den2 e) i) (den1 x)) (zseq 0 (Z.to_nat (mr (den2 e))))
  | XView1 _ e w => see_list (elt (den1 e)) (den_apply (whole1 (zlen (den1 e))) w)
  | XView2 _ e w => see_list (mlin (den2 e)) (den_apply (whole2 (mr (den2 e)) (mc (den2 e))) w)
  end
with den2 {V : Type} (e : ex2 V) {struct e} : mx V :=
  match e in ex2 V return mx V with
  | YLeaf _ A => mkmx (s2rows A) (s2cols A) (s2un A)
  | YUn _ _ f e => mkmx (mr (den2 e)) (mc (den2 e)) (fun i j => bind (mel (den2 e) i j) f)
  | YBin _ _ _ f e1 e2 => mkmx (mr (den2 e1)) (mc (den2 e1)) (fun i j => both f (mel (den2 e1) i j) (mel (den2 e2) i j))
  | YScalR _ _ _ f e x => mkmx (mr (den2 e)) (mc (den2 e)) (fun i j => both f (mel (den2 e) i j) (Ok x))
  | YScalL _ _ _ f x e => mkmx (mr (den2 e)) (mc (den2 e)) (fun i j => both f (Ok x) (mel (den2 e) i j))
  | YIndex _ m n op => mkmx m n op
  | YTranspose _ e => mkmx (mc (den2 e)) (mr (den2 e)) (fun i j => mel (den2 e) j i)
  | YMergeH _ e1 e2 =>
      mkmx (Z.max (mr (den2 e1)) (mr (den2 e2))) (mc (den2 e1) + mc (den2 e2))
           (fun i j => if j <? mc (den2 e1) then mel (den2 e1) i j else mel (den2 e2) i (j - mc (den2 e1)))
  | YMergeV _ e1 e2 =>
      mkmx (mr (den2 e1) + mr (den2 e2)) (Z.max (mc (den2 e1)) (mc (den2 e2)))
           (fun i j => if i <? mr (den2 e1) then mel (den2 e1) i j else mel (den2 e2) (i - mr (den2 e1)) j)
  | YBroadcast _ r e => mkmx (zlen (den1 e)) (zlen (den1 e)) (fun i j => elt (den1 e) (if r then j else i))
  | YTensor _ _ _ mul e1 e2 => mkmx (zlen (den1 e1)) (zlen (den1 e2)) (fun i j => both mul (elt (den1 e1) i) (elt (den1 e2) j))
  | YView1 _ e w => see_mx (elt (den1 e)) (den_apply (whole1 (zlen (den1 e))) w)
  | YView2 _ e w => see_mx (mlin (den2 e)) (den_apply (whole2 (mr (den2 e)) (mc (den2 e))) w)
  end.

(** The view gives a one- (two-) dimensional object. *)
Definition to_one (w : vop) : bool :=
  match w with VwSlice _ | VwRow _ | VwCol _ | VwDiag0 | VwDiag _ | VwView1 => true | _ => false end.

(** Side conditions that the library does not check: sizes and index arithmetic stay in 64 bits, leaves are well formed,
    and row views, merges and constants are applied to objects that are not "some rows but no columns". *)
Fixpoint fits1 {V : Type} (e : ex1 V) {struct e} : Prop :=
  match e in ex1 V return Prop with
  | XLeaf _ A => 0 <= ssize A <= LONG_MAX
  | XUn _ _ f e => fits1 e
  | XBin _ _ _ f e1 e2 => fits1 e1 /\ fits1 e2
  | XScalR _ _ _ f e x => fits1 e
  | XScalL _ _ _ f x e => fits1 e
  | XGen _ n g => is_long n
  | XMerge _ e1 e2 => fits1 e1 /\ fits1 e2 /\ zlen (den1 e1) + zlen (den1 e2) <= LONG_MAX
  | XMergeBack _ e x => fits1 e /\ zlen (den1 e) < LONG_MAX
  | XMergeFront _ x e => fits1 e /\ zlen (den1 e) < LONG_MAX
  | XExclude _ e pos count => fits1 e /\ is_long pos /\ is_long count /\ pos + count <= LONG_MAX
  | XExcludeLast _ e _ => fits1 e
  | XRowRed _ _ op opl e => fits2 e /\ plump (den2 e) /\ forall A l, yields A l -> op A = opl l
  | XColRed _ _ op opl e => fits2 e /\ plump (den2 e) /\ forall A l, yields A l -> op A = opl l
  | XMatvec _ _ _ z add mul e x => fits2 e /\ plump (den2 e) /\ fits1 x
  | XView1 _ e w => fits1 e /\ vop_typed (D1 []) w = true /\ to_one w = true /\ vop_fits (whole1 (zlen (den1 e))) w
  | XView2 _ e w => fits2 e /\ plump (den2 e) /\ vop_typed (D2 []) w = true /\ to_one w = true /\ vop_fits (whole2 (mr (den2 e)) (mc (den2 e))) w
  end
with fits2 {V : Type} (e : ex2 V) {struct e} : Prop :=
  match e in ex2 V return Prop with
  | YLeaf _ A => yields2 A (mkmx (s2rows A) (s2cols A) (s2un A))
  | YUn _ _ f e => fits2 e
  | YBin _ _ _ f e1 e2 => fits2 e1 /\ fits2 e2
  | YScalR _ _ _ f e x => fits2 e
  | YScalL _ _ _ f x e => fits2 e
  | YIndex _ m n op => is_long m /\ is_long n /\ is_long (m * n)
  | YTranspose _ e => fits2 e
  | YMergeH _ e1 e2 => fits2 e1 /\ fits2 e2 /\ plump (den2 e1) /\ plump (den2 e2) /\
      Z.max (mr (den2 e1)) (mr (den2 e2)) * (mc (den2 e1) + mc (den2 e2)) <= LONG_MAX
  | YMergeV _ e1 e2 => fits2 e1 /\ fits2 e2 /\ plump (den2 e1) /\ plump (den2 e2) /\
      (mr (den2 e1) + mr (den2 e2)) * Z.max (mc (den2 e1)) (mc (den2 e2)) <= LONG_MAX
  | YBroadcast _ r e => fits1 e /\ zlen (den1 e) * zlen (den1 e) <= LONG_MAX
  | YTensor _ _ _ mul e1 e2 => fits1 e1 /\ fits1 e2 /\ zlen (den1 e1) * zlen (den1 e2) <= LONG_MAX
  | YView1 _ e w => fits1 e /\ vop_typed (D1 []) w = true /\ to_one w = false /\ vop_fits (whole1 (zlen (den1 e))) w
  | YView2 _ e w => fits2 e /\ plump (den2 e) /\ vop_typed (D2 []) w = true /\ to_one w = false /\ vop_fits (whole2 (mr (den2 e)) (mc (den2 e))) w
  end.

(** Conditions that the library checks: sizes that have to agree, arguments inside their ranges. *)
Fixpoint agree1 {V : Type} (e : ex1 V) {struct e} : Prop :=
  match e in ex1 V return Prop with
  | XLeaf _ A => True
  | XUn _ _ f e => agree1 e
  | XBin _ _ _ f e1 e2 => agree1 e1 /\ agree1 e2 /\ zlen (den1 e1) = zlen (den1 e2)
  | XScalR _ _ _ f e x => agree1 e
  | XScalL _ _ _ f x e => agree1 e
  | XGen _ n g => 0 <= n
  | XMerge _ e1 e2 => agree1 e1 /\ agree1 e2
  | XMergeBack _ e x => agree1 e
  | XMergeFront _ x e => agree1 e
  | XExclude _ e pos count => agree1 e /\ 0 < count /\ 0 <= pos /\ pos + count <= zlen (den1 e)
  | XExcludeLast _ e _ => agree1 e /\ 0 < zlen (den1 e)
  | XRowRed _ _ op opl e => agree2 e
  | XColRed _ _ op opl e => agree2 e
  | XMatvec _ _ _ z add mul e x => agree2 e /\ agree1 x /\ mc (den2 e) = zlen (den1 x)
  | XView1 _ e w => agree1 e /\ vop_ok (whole1 (zlen (den1 e))) w
  | XView2 _ e w => agree2 e /\ vop_ok (whole2 (mr (den2 e)) (mc (den2 e))) w
  end
with agree2 {V : Type} (e : ex2 V) {struct e} : Prop :=
  match e in ex2 V return Prop with
  | YLeaf _ A => True
  | YUn _ _ f e => agree2 e
  | YBin _ _ _ f e1 e2 => agree2 e1 /\ agree2 e2 /\ mr (den2 e1) = mr (den2 e2) /\ mc (den2 e1) = mc (den2 e2)
  | YScalR _ _ _ f e x => agree2 e /\ plump (den2 e)
  | YScalL _ _ _ f x e => agree2 e /\ plump (den2 e)
  | YIndex _ m n op => 0 <= m /\ 0 <= n
  | YTranspose _ e => agree2 e
  | YMergeH _ e1 e2 => agree2 e1 /\ agree2 e2 /\ (nonempty (den2 e1) -> nonempty (den2 e2) -> mr (den2 e1) = mr (den2 e2))
  | YMergeV _ e1 e2 => agree2 e1 /\ agree2 e2 /\ (nonempty (den2 e1) -> nonempty (den2 e2) -> mc (den2 e1) = mc (den2 e2))
  | YBroadcast _ r e => agree1 e
  | YTensor _ _ _ mul e1 e2 => agree1 e1 /\ agree1 e2
  | YView1 _ e w => agree1 e /\ vop_ok (whole1 (zlen (den1 e))) w
  | YView2 _ e w => agree2 e /\ vop_ok (whole2 (mr (den2 e)) (mc (den2 e))) w
  end.

(** All elements computed in order; the first one that fails decides. *)
Fixpoint seqo {V} (l : list (outcome V)) : outcome (list V) :=
  match l with
  | [] => Ok []
  | v :: l' => x <- v ;; xs <- seqo l' ;; Ok (x :: xs)
  end.
(** The elements row by row. *)
Definition mlist {V} (M : mx V) : list (outcome V) := map (mlin M) (zseq 0 (Z.to_nat (mr M * mc M))).

(** Storing computed elements over old ones: the elements before the first one that fails are new, the others old. *)
Fixpoint overwrite {V} (l : list (outcome V)) (old : list V) : mut (list V) :=
  match l, old with
  | v :: l', o :: old' =>
      match v with
      | Ok x => mbind (overwrite l' old') (fun r => MOk (x :: r)) (fun r => x :: r)
      | Fail f => MFail f (o :: old')
      | UB => MUB
      end
  | _, _ => MOk old
  end.

(** Element-wise trees: leaves, unary and binary operators and scalars only. *)
Fixpoint elementwise {V : Type} (e : ex1 V) {struct e} : Prop :=
  match e in ex1 V return Prop with
  | XLeaf _ _ => True
  | XUn _ _ _ e => elementwise e
  | XBin _ _ _ _ e1 e2 => elementwise e1 /\ elementwise e2
  | XScalR _ _ _ _ e _ => elementwise e
  | XScalL _ _ _ _ _ e => elementwise e
  | _ => False
  end.
Fixpoint elementwise2 {V : Type} (e : ex2 V) {struct e} : Prop :=
  match e in ex2 V return Prop with
  | YLeaf _ _ => True
  | YUn _ _ _ e => elementwise2 e
  | YBin _ _ _ _ e1 e2 => elementwise2 e1 /\ elementwise2 e2
  | YScalR _ _ _ _ e _ => elementwise2 e
  | YScalL _ _ _ _ _ e => elementwise2 e
  | _ => False
  end.
(** All leaves have n elements (m rows and n columns). *)
Fixpoint leaves_size {V : Type} (n : Z) (e : ex1 V) {struct e} : Prop :=
  match e in ex1 V return Prop with
  | XLeaf _ A => ssize A = n
  | XUn _ _ _ e => leaves_size n e
  | XBin _ _ _ _ e1 e2 => leaves_size n e1 /\ leaves_size n e2
  | XScalR _ _ _ _ e _ => leaves_size n e
  | XScalL _ _ _ _ _ e => leaves_size n e
  | _ => False
  end.
Fixpoint leaves_size2 {V : Type} (m n : Z) (e : ex2 V) {struct e} : Prop :=
  match e in ex2 V return Prop with
  | YLeaf _ A => yields2 A (mkmx m n (s2un A))
  | YUn _ _ _ e => leaves_size2 m n e
  | YBin _ _ _ _ e1 e2 => leaves_size2 m n e1 /\ leaves_size2 m n e2
  | YScalR _ _ _ _ e _ => leaves_size2 m n e
  | YScalL _ _ _ _ _ e => leaves_size2 m n e
  | _ => False
  end.
(** The operator tree applied to the i-th (or (i, j)-th) elements of the leaves. *)
Fixpoint value_at {V : Type} (i : Z) (e : ex1 V) {struct e} : outcome V :=
  match e in ex1 V return outcome V with
  | XLeaf _ A => sun A i
  | XUn _ _ f e => x <- value_at i e ;; f x
  | XBin _ _ _ f e1 e2 => x <- value_at i e1 ;; y <- value_at i e2 ;; f x y
  | XScalR _ _ _ f e y => x <- value_at i e ;; f x y
  | XScalL _ _ _ f x e => y <- value_at i e ;; f x y
  | _ => UB
  end.
Fixpoint value_at2 {V : Type} (i j : Z) (e : ex2 V) {struct e} : outcome V :=
  match e in ex2 V return outcome V with
  | YLeaf _ A => s2un A i j
  | YUn _ _ f e => x <- value_at2 i j e ;; f x
  | YBin _ _ _ f e1 e2 => x <- value_at2 i j e1 ;; y <- value_at2 i j e2 ;; f x y
  | YScalR _ _ _ f e y => x <- value_at2 i j e ;; f x y
  | YScalL _ _ _ f x e => y <- value_at2 i j e ;; f x y
  | _ => UB
  end.
