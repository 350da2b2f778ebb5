(** What an assignment means when its right side reads the vector being assigned. *)
From Verif Require Import Base.Outcome Base.ZList Model.Index Model.Slice Model.Array1D Model.Array2D Model.View2D Model.Expr Model.Self Spec.ExprSpec.

Section W.
Context {V : Type}.
Implicit Types (l r b : list V).
(** The expressions: built from the vector (matrix) itself, other sources, and all functions of the library. *)
Inductive written1 : forall W : Type, (list V -> ex1 W) -> Prop :=
| W_self : written1 V itself
| W_leaf W (A : src1 W) : written1 W (fun _ => XLeaf W A)
| W_un U W f e : written1 U e -> written1 W (fun b => XUn U W f (e b))
| W_bin T U W f e1 e2 : written1 T e1 -> written1 U e2 -> written1 W (fun b => XBin T U W f (e1 b) (e2 b))
| W_scalr T U W f e x : written1 T e -> written1 W (fun b => XScalR T U W f (e b) x)
| W_scall T U W f x e : written1 U e -> written1 W (fun b => XScalL T U W f x (e b))
| W_gen W n g : written1 W (fun _ => XGen W n g)
| W_merge W e1 e2 : written1 W e1 -> written1 W e2 -> written1 W (fun b => XMerge W (e1 b) (e2 b))
| W_back W e x : written1 W e -> written1 W (fun b => XMergeBack W (e b) x)
| W_front W x e : written1 W e -> written1 W (fun b => XMergeFront W x (e b))
| W_exclude W e pos count : written1 W e -> written1 W (fun b => XExclude W (e b) pos count)
| W_exclude_last W e k : written1 W e -> written1 W (fun b => XExcludeLast W (e b) k)
| W_rows U W op opl e : written2 U e -> written1 W (fun b => XRowRed U W op opl (e b))
| W_cols U W op opl e : written2 U e -> written1 W (fun b => XColRed U W op opl (e b))
| W_matvec T U W z add mul e x : written2 T e -> written1 U x -> written1 W (fun b => XMatvec T U W z add mul (e b) (x b))
| W_view1 W e w : written1 W e -> written1 W (fun b => XView1 W (e b) w)
| W_view2 W e w : written2 W e -> written1 W (fun b => XView2 W (e b) w)
with written2 : forall W : Type, (list V -> ex2 W) -> Prop :=
| W_self2 m n : written2 V (itself2 m n)
| W_leaf2 W (A : src2 W) : written2 W (fun _ => YLeaf W A)
| W_un2 U W f e : written2 U e -> written2 W (fun b => YUn U W f (e b))
| W_bin2 T U W f e1 e2 : written2 T e1 -> written2 U e2 -> written2 W (fun b => YBin T U W f (e1 b) (e2 b))
| W_scalr2 T U W f e x : written2 T e -> written2 W (fun b => YScalR T U W f (e b) x)
| W_scall2 T U W f x e : written2 U e -> written2 W (fun b => YScalL T U W f x (e b))
| W_index W m n op : written2 W (fun _ => YIndex W m n op)
| W_trans W e : written2 W e -> written2 W (fun b => YTranspose W (e b))
| W_mergeh W e1 e2 : written2 W e1 -> written2 W e2 -> written2 W (fun b => YMergeH W (e1 b) (e2 b))
| W_mergev W e1 e2 : written2 W e1 -> written2 W e2 -> written2 W (fun b => YMergeV W (e1 b) (e2 b))
| W_broadcast W (by_rows : bool) e : written1 W e -> written2 W (fun b => YBroadcast W by_rows (e b))
| W_tensor T U W mul e1 e2 : written1 T e1 -> written1 U e2 -> written2 W (fun b => YTensor T U W mul (e1 b) (e2 b))
| W_view1' W e w : written1 W e -> written2 W (fun b => YView1 W (e b) w)
| W_view2' W e w : written2 W e -> written2 W (fun b => YView2 W (e b) w).

(** The vector when the elements before i have been replaced: new ones from r, old ones from l. *)
Definition half r l (i : Z) : list V := firstn (Z.to_nat i) r ++ skipn (Z.to_nat i) l.
(** r is the result of replacing the elements of l before k one after the other by the elements of e, each read in the vector as
    it then is. *)
Definition replaced (e : list V -> ex1 V) l (k : Z) r : Prop :=
  zlen r = zlen l /\ (forall i, 0 <= i < k -> exists v, znth r i = Some v /\ elt (den1 (e (half r l i))) i = Ok v) /\
  (forall i, k <= i -> znth r i = znth l i).
(** No element reads an element of the vector before its own place. *)
Definition forward (n : Z) (e : list V -> ex1 V) : Prop :=
  forall b b' i, zlen b = n -> zlen b' = n -> 0 <= i < n -> (forall j, i <= j -> znth b j = znth b' j) -> elt (den1 (e b)) i = elt (den1 (e b')) i.

(** The same for a matrix with elements l row by row; element k of the linear order is the element of e at the same place. *)
Definition replaced2 (e : list V -> ex2 V) l (k : Z) r : Prop :=
  zlen r = zlen l /\ (forall i, 0 <= i < k -> exists v, znth r i = Some v /\ mlin (den2 (e (half r l i))) i = Ok v) /\
  (forall i, k <= i -> znth r i = znth l i).
Definition forward2 (n : Z) (e : list V -> ex2 V) : Prop :=
  forall b b' i, zlen b = n -> zlen b' = n -> 0 <= i < n -> (forall j, i <= j -> znth b j = znth b' j) -> mlin (den2 (e b)) i = mlin (den2 (e b')) i.
(** The array is m x n with elements l row by row. *)
Definition holds2 (a : arr2 V) (m n : Z) l : Prop := drows a = m /\ dcols a = n /\ 0 <= m /\ 0 <= n /\ zlen l = m * n /\ m * n <= LONG_MAX /\ buf (dat a) = l /\ an (dat a) = m * n.

(** One place after the other gets a new value, which may depend on the storage as it then is, on the number i of the step and on
    the place. *)
Inductive course (g : list V -> Z -> Z -> outcome V) : Z -> list Z -> list V -> list V -> Prop :=
| C_done i b : course g i [] b b
| C_step i p ps b v b' r : g b i p = Ok v -> zlen b' = zlen b -> znth b' p = Some v -> (forall q, q <> p -> znth b' q = znth b q) ->
    course g (i + 1) ps b' r -> course g i (p :: ps) b r.
(** Storage l is updated to r at the places ps; or the value of number k fails, the ones before it being stored. *)
Definition goes (g : list V -> Z -> Z -> outcome V) (ps : list Z) l (res : mut (list V)) : Prop :=
  match res with
  | MOk r => course g 0 ps l r
  | MFail f r => exists k p, znth ps k = Some p /\ course g 0 (firstn (Z.to_nat k) ps) l r /\ g r k p = Fail f
  | MUB => exists k p r, znth ps k = Some p /\ course g 0 (firstn (Z.to_nat k) ps) l r /\ g r k p = UB
  end.
(** The values assigned: element i of e, or v op element i for the element v in place. *)
Definition value_of (e : list V -> ex1 V) b (i p : Z) : outcome V := elt (den1 (e b)) i.
Definition value_of2 (e : list V -> ex2 V) b (i p : Z) : outcome V := mlin (den2 (e b)) i.
Definition joined (f : V -> V -> outcome V) (g : list V -> Z -> Z -> outcome V) b (i p : Z) : outcome V :=
  match znth b p with Some v => x <- g b i p ;; f v x | None => UB end.
(** Value i depends on no place that has been written before. *)
Definition ahead (N : Z) (ps : list Z) (g : list V -> Z -> Z -> outcome V) : Prop :=
  forall b b' i p, zlen b = N -> zlen b' = N -> znth ps i = Some p -> (forall q, ~ In q (firstn (Z.to_nat i) ps) -> znth b q = znth b' q) -> g b i p = g b' i p.
End W.
Arguments written1 : clear implicits.
Arguments written2 : clear implicits.
